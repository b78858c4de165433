(** Proofs about Interleaved::setTo for elements wider than one byte. *)
From Verif Require Import Base BaseFacts M_Image S_Image L_Image L_Inter S_SetTo.

Lemma size_pos t : 1 <= ity_size t <= 8.
Proof. destruct t; cbn; lia. Qed.
Lemma byte_mod v i n : 0 <= i < n -> byte_of (v mod 256 ^ n) i = byte_of v i.
Proof.
  intros H. unfold byte_of.
  rewrite (Z.mod_eq v (256 ^ n)) by (apply Z.pow_nonzero; lia).
  replace (256 ^ n) with (256 ^ (n - i - 1) * 256 * 256 ^ i).
  2: { rewrite <- Z.mul_assoc, <- (Z.pow_succ_r 256 i) by lia. rewrite <- Z.pow_add_r by lia. f_equal. lia. }
  set (q := v / _). set (m := 256 ^ (n - i - 1)). assert (0 < 256 ^ i) by (apply Z.pow_pos_nonneg; lia).
  replace (v - m * 256 * 256 ^ i * q) with (v + (- (m * q) * 256) * 256 ^ i) by ring.
  rewrite Z.div_add by lia. apply Z.mod_add. lia.
Qed.
Lemma cast_mod t z : cast t z mod 256 ^ ity_size t = z mod 256 ^ ity_size t.
Proof.
  destruct t; cbn [cast ity_size]; unfold u8, u16, u32, s16, s32, s64;
  change (256 ^ 1) with 256; change (256 ^ 2) with 65536; change (256 ^ 4) with 4294967296;
  change (256 ^ 8) with 18446744073709551616; rewrite ?Z.mod_mod by lia; auto;
  rewrite <- Zminus_mod_idemp_l, ?Z.mod_mod, Zminus_mod_idemp_l by lia; f_equal; lia.
Qed.
Lemma cast_byte t z i : 0 <= i < ity_size t -> byte_of (cast t z) i = byte_of z i.
Proof. intros H. rewrite <- (byte_mod _ i (ity_size t)), cast_mod, byte_mod by lia. reflexivity. Qed.
Lemma cast_range t z : ity_min t <= cast t z <= ity_max t.
Proof.
  destruct t; cbn [cast ity_min ity_max]; unfold u8, u16, u32, s16, s32, s64;
  match goal with |- context [?a mod ?b] => pose proof (Z.mod_pos_bound a b ltac:(lia)) end; lia.
Qed.

Lemma mix_ok t r d s : 0 <= r <= ity_size t -> mixed t r d s (mix_bytes t r d s).
Proof.
  intros H. unfold mix_bytes. split; [apply cast_range|]. split; intros i Hi; (rewrite cast_byte by lia).
  - rewrite <- (byte_mod _ i r) by lia.
    rewrite Z.add_comm, Z.mod_add by (apply Z.pow_nonzero; lia). rewrite Z.mod_mod by (apply Z.pow_nonzero; lia). apply byte_mod; lia.
  - unfold byte_of. f_equal. assert (0 < 256 ^ r) by (apply Z.pow_pos_nonneg; lia).
    replace (256 ^ i) with (256 ^ r * 256 ^ (i - r)) by (rewrite <- Z.pow_add_r by lia; f_equal; lia).
    assert (0 < 256 ^ (i - r)) by (apply Z.pow_pos_nonneg; lia).
    rewrite <- !Z.div_div by lia. f_equal. rewrite Z.add_comm, Z.div_add by lia.
    rewrite (Z.div_small (s mod _)) by (apply Z.mod_pos_bound; lia). lia.
Qed.

(** What one row becomes. *)
Definition row_elem (t : ity) (n : Z) (k : Z) (d s v : Z) : Prop :=
  if k <? n / ity_size t then v = s
  else if (k =? n / ity_size t) && negb (n mod ity_size t =? 0) then v = mix_bytes t (n mod ity_size t) d s else v = d.

Lemma memcpy_row t d src di si n : 0 <= n -> 0 <= di -> di + n <= zlen d -> 0 <= si -> si + n <= zlen src ->
  exists d', memcpy_bytes t d di src si n = Ok d' /\ zlen d' = zlen d /\
    (forall k, 0 <= k < n -> exists a b v, znth d (di + k) = Some a /\ znth src (si + k) = Some b /\
       znth d' (di + k) = Some v /\ row_elem t n k a b v) /\
    (forall j, ~ (di <= j < di + n) -> znth d' j = znth d j).
Proof.
  intros Hn D1 D2 S1 S2. unfold memcpy_bytes. pose proof (size_pos t) as St.
  set (q := n / ity_size t). set (r := n mod ity_size t).
  pose proof (Z.div_mod n (ity_size t) ltac:(lia)) as E. fold q r in E.
  pose proof (Z.mod_pos_bound n (ity_size t) ltac:(lia)) as R. fold r in R.
  assert (Q : 0 <= q) by (apply Z.div_pos; lia).
  assert (Q2 : q <= n) by nia.
  destruct (copy_elems_ok d src di si q) as (d1 & E1 & L1 & W1); try lia. rewrite E1. cbn [bind].
  assert (C : forall k, 0 <= k < q -> znth d1 (di + k) = znth src (si + k)).
  { intros k Hk. destruct (W1 (di + k)) as [(v & (i & Hi & Ei & Ev) & Er)|(N & _)].
    - replace i with k in Ev by lia. congruence.
    - destruct (znth_in_range src (si + k) ltac:(lia)) as (v & Ev). exfalso. apply (N v). exists k. split; auto. }
  assert (F : forall j, ~ (di <= j < di + q) -> znth d1 j = znth d j).
  { intros j Hj. destruct (W1 j) as [(v & (i & Hi & Ei & Ev) & Er)|(_ & Er)]; auto. lia. }
  destruct (r =? 0) eqn:R0.
  - exists d1. split; auto. split; auto. split.
    + intros k Hk. destruct (znth_in_range d (di + k) ltac:(lia)) as (a & Ea).
      destruct (znth_in_range src (si + k) ltac:(lia)) as (b & Eb). unfold row_elem. fold q r. rewrite R0. cbn [negb].
      rewrite andb_false_r. destruct (k <? q) eqn:Kq.
      * exists a, b, b. rewrite C by lia. auto.
      * exists a, b, a. rewrite F by lia. auto.
    + intros j Hj. apply F. lia.
  - assert (Q3 : q < n) by nia.
    destruct (bget_in src (si + q) ltac:(lia)) as (b0 & -> & Eb0). cbn [bind].
    destruct (bget_in d1 (di + q) ltac:(lia)) as (a0 & -> & Ea0). cbn [bind].
    rewrite F in Ea0 by lia.
    destruct (bset_exists d1 (di + q) (mix_bytes t r a0 b0) ltac:(lia)) as (d' & Ed & L' & V). exists d'. split; auto.
    split; [lia|]. split.
    + intros k Hk. destruct (znth_in_range d (di + k) ltac:(lia)) as (a & Ea).
      destruct (znth_in_range src (si + k) ltac:(lia)) as (b & Eb). unfold row_elem. fold q r. rewrite R0. cbn [negb].
      rewrite andb_true_r. rewrite V. destruct (k <? q) eqn:Kq; [|destruct (k =? q) eqn:Ke].
      * exists a, b, b. replace (di + k =? di + q) with false by lia. rewrite C by lia. auto.
      * replace k with q in * by lia. rewrite Z.eqb_refl. exists a, b, (mix_bytes t r a b).
        repeat split; auto; congruence.
      * exists a, b, a. replace (di + k =? di + q) with false by lia. rewrite F by lia. auto.
    + intros j Hj. rewrite V. replace (j =? di + q) with false by lia. apply F. lia.
Qed.

Lemma row_elem_mixed t n k d s v : 0 <= n -> ity_min t <= d <= ity_max t -> ity_min t <= s <= ity_max t -> 0 <= k ->
  row_elem t n k d s v -> mixed t (reached t n k) d s v.
Proof.
  intros Hn Rd Rs Hk. unfold row_elem, reached. pose proof (size_pos t) as St.
  pose proof (Z.div_mod n (ity_size t) ltac:(lia)) as E. pose proof (Z.mod_pos_bound n (ity_size t) ltac:(lia)) as R.
  set (q := n / ity_size t) in *. set (r := n mod ity_size t) in *.
  destruct (k <? q) eqn:Kq.
  - intros ->. replace (Z.max _ _) with (ity_size t) by nia. split; auto. split; auto. intros; lia.
  - destruct ((k =? q) && _) eqn:Kr.
    + intros ->. replace (Z.max _ _) with r by nia. apply mix_ok. lia.
    + intros ->. replace (Z.max _ _) with 0 by nia. split; auto. split; auto. intros; lia.
Qed.

(** The whole image, when the shapes agree. *)
Lemma setTo_wide t (dst src : inter Z) : i_wf dst -> i_wf src ->
  i_width dst = i_width src -> i_height dst = i_height src -> i_bands dst = i_bands src ->
  (forall v, In v (i_data dst) -> ity_min t <= v <= ity_max t) -> (forall v, In v (i_data src) -> ity_min t <= v <= ity_max t) ->
  exists g', inter_setTo t dst src = Ok g' /\ i_width g' = i_width src /\ i_height g' = i_height src /\ i_bands g' = i_bands src /\
    (forall x y b, i_inside src x y b -> exists d s v, i_pixel dst x y b = Some d /\ i_pixel src x y b = Some s /\
       i_pixel g' x y b = Some v /\ mixed t (reached t (i_width src * i_bands src) (x * i_bands src + b)) d s v) /\
    (forall j, i_outside_window dst j -> znth (i_data g') j = znth (i_data dst) j).
Proof.
  intros Hd Hs Ew Eh Eb Rd Rs. unfold inter_setTo, inter_set_bands, inter_reshape.
  rewrite Ew, Eh, Eb, !Z.eqb_refl. cbn [negb orb andb]. rewrite andb_false_r. cbn [bind].
  rewrite Ew, Eh, !Z.eqb_refl. cbn [andb bind]. rewrite ?Eh, ?Eb.
  set (n := i_width src * i_bands src).
  assert (Nn : 0 <= n < 4294967296) by (destruct Hs as (W & H & B & O & S & _); unfold n; split; [nia|lia]).
  rewrite (u32_id n) by lia.
  assert (Row : forall (k : inter Z) y, i_wf k -> i_width k = i_width src -> i_height k = i_height src ->
     i_bands k = i_bands src -> 0 <= y < i_height src -> 0 < n ->
     i_offset k + u32 (y * i_stride k) = i_offset k + y * i_stride k /\ 0 <= i_offset k + y * i_stride k /\
     i_offset k + y * i_stride k + n <= zlen (i_data k)).
  { intros k y Hk Kw Kh Kb Hy Hn.
    assert (0 < i_width src /\ 0 < i_bands src) as [? ?].
    { destruct Hs as (W & H & B & _). unfold n in Hn. nia. }
    pose proof (i_wf_pos k (i_width src - 1) y (i_bands src - 1) Hk ltac:(unfold i_inside; lia)) as P1.
    pose proof (i_wf_pos k 0 y 0 Hk ltac:(unfold i_inside; lia)) as P0. unfold i_pos in P0, P1. rewrite Kb in *.
    destruct Hk as (_ & _ & _ & Ok0 & Sk & Lk & _ & _).
    assert (0 <= y * i_stride k) by (apply Z.mul_nonneg_nonneg; lia).
    rewrite u32_id by lia. unfold n. split; auto. nia. }
  assert (Sd : n <= i_stride dst) by (destruct Hd as (_ & _ & _ & _ & S & _); rewrite Ew, Eb in S; fold n in S; lia).
  assert (Hh : 0 <= i_height src) by (destruct Hs as (_ & H & _); lia).
  set (base y := i_offset dst + y * i_stride dst). set (sbase y := i_offset src + y * i_stride src).
  destruct (for_range_inv (fun y d => zlen d = zlen (i_data dst) /\
     (forall y' k, 0 <= y' < y -> 0 <= k < n -> exists a b v, znth (i_data dst) (base y' + k) = Some a /\
        znth (i_data src) (sbase y' + k) = Some b /\ znth d (base y' + k) = Some v /\ row_elem t n k a b v) /\
     (forall j, (forall y' k, 0 <= y' < y -> 0 <= k < n -> j <> base y' + k) -> znth d j = znth (i_data dst) j))
     0 (i_height src) (fun y d => memcpy_bytes t d (i_offset dst + u32 (y * i_stride dst)) (i_data src)
        (i_offset src + u32 (y * i_stride src)) n) (i_data dst)) as (d & Ed & L & I1 & I2); auto.
  { split; auto. split; auto. intros; lia. }
  { intros y d Hy (L & I1 & I2). destruct (Z.eq_dec n 0) as [Z0|Z0].
    - exists d. rewrite Z0. unfold memcpy_bytes. pose proof (size_pos t). rewrite Z.div_0_l, Z.mod_0_l by lia. unfold copy_elems.
      rewrite for_range_nil by lia. cbn [bind Z.eqb]. split; auto. split; auto. split; [intros; lia|].
      intros j _. apply I2. intros; lia.
    - destruct (Row dst y) as (-> & ? & ?); auto; try lia. destruct (Row src y) as (-> & ? & ?); auto; try lia.
      fold (base y) (sbase y) in *.
      destruct (memcpy_row t d (i_data src) (base y) (sbase y) n) as (d' & E' & L' & V & Fr); try lia.
      exists d'. split; auto. split; [lia|].
      assert (Dis : forall y' k, 0 <= y' < y -> 0 <= k < n -> ~ (base y <= base y' + k < base y + n)).
      { intros y' k Y Kk. unfold base. assert (y' * i_stride dst + i_stride dst <= y * i_stride dst) by nia. lia. }
      split.
      + intros y' k Y Kk. destruct (Z.eq_dec y' y) as [->|N].
        * destruct (V k Kk) as (a & b & v & E1 & E2 & E3 & E4). exists a, b, v. split; [|auto]. rewrite <- E1. symmetry. apply I2.
          intros y'' k'' Y'' K'' Eq. apply (Dis y'' k'' Y'' K''). lia.
        * destruct (I1 y' k ltac:(lia) Kk) as (a & b & v & E1 & E2 & E3 & E4). exists a, b, v. do 2 (split; auto).
          split; auto. rewrite Fr; auto. apply Dis; lia.
      + intros j Hj. rewrite Fr. 2: { intros B. apply (Hj y (j - base y)); lia. }
        apply I2. intros y' k Y Kk. apply Hj; lia. }
  rewrite Ed. cbn [bind]. eexists; split; [reflexivity|]. cbn. rewrite Ew, Eh, Eb. do 3 (split; auto). split.
  - intros x y b Hi. pose proof Hi as ([X1 X2] & [Y1 Y2] & [B1 B2]).
    assert (Kk : 0 <= x * i_bands src + b < n) by (unfold n; nia).
    destruct (I1 y (x * i_bands src + b) ltac:(lia) Kk) as (a & s & v & E1 & E2 & E3 & E4).
    exists a, s, v.
    assert (Hi1 : i_inside dst x y b) by (unfold i_inside; lia).
    rewrite (i_pixel_inside dst) by auto. rewrite (i_pixel_inside src) by auto.
    rewrite (i_pixel_inside (i_with_data dst d)) by exact Hi1. unfold i_pos. cbn. rewrite Eb.
    unfold base, sbase in *. rewrite !Z.add_assoc in E1, E2, E3. do 3 (split; auto).
    apply row_elem_mixed; auto; try lia; [apply Rd|apply Rs]; eapply znth_In; eauto.
  - intros j Ho. apply I2. intros y k Y Kk Eq.
    assert (0 < i_bands src) by (destruct Hs as (W & H & B & _); unfold n in Kk; nia).
    apply (Ho (k / i_bands src) y (k mod i_bands src)).
    + unfold i_inside. rewrite Ew, Eh, Eb.
      pose proof (Z.mod_pos_bound k (i_bands src) ltac:(lia)). split; [|lia]. split.
      * apply Z.div_pos; lia.
      * apply Z.div_lt_upper_bound; [lia|]. unfold n in Kk. lia.
    + unfold i_pos. rewrite Eb, Eq. unfold base. pose proof (Z.div_mod k (i_bands src) ltac:(lia)). lia.
Qed.

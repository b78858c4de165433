(** Lemmas about interleaved images. *)
From Verif Require Import Base BaseFacts M_Image S_Image L_Image.

Section Inter.
Context {A : Type}.
Implicit Type g : inter A.

Lemma i_wf_pos g x y b : i_wf g -> i_inside g x y b -> 0 <= i_pos g x y b < zlen (i_data g).
Proof.
  intros (W & H & B & O & S & L & F & N) (Hx & Hy & Hb). unfold i_pos.
  specialize (F ltac:(lia) ltac:(lia) ltac:(lia)).
  assert (0 <= y * i_stride g <= (i_height g - 1) * i_stride g) by nia.
  assert (0 <= x * i_bands g <= (i_width g - 1) * i_bands g) by nia. lia.
Qed.
Lemma i_wf_index g x y b : i_wf g -> i_inside g x y b -> inter_index g x y b = i_pos g x y b.
Proof.
  intros H Hi. pose proof (i_wf_pos g x y b H Hi). unfold inter_index. fold (i_pos g x y b).
  destruct H as (_ & _ & _ & _ & _ & L & _). apply u32_id; lia.
Qed.
Lemma i_pos_inj g x y b x' y' b' : i_wf g -> i_inside g x y b -> i_inside g x' y' b' ->
  i_pos g x y b = i_pos g x' y' b' -> x = x' /\ y = y' /\ b = b'.
Proof.
  intros (W & H & B & O & S & L & F & N) (Hx & Hy & Hb) (Hx' & Hy' & Hb') E. unfold i_pos in E.
  assert (R : 0 <= x * i_bands g + b < i_width g * i_bands g) by nia.
  assert (R' : 0 <= x' * i_bands g + b' < i_width g * i_bands g) by nia.
  destruct (Z.div_mod_unique (i_stride g) y y' (x * i_bands g + b) (x' * i_bands g + b')) as [-> E2]; try lia.
  destruct (Z.div_mod_unique (i_bands g) x x' b b') as [-> ->]; try lia.
Qed.
Lemma i_pixel_inside g x y b : i_inside g x y b -> i_pixel g x y b = znth (i_data g) (i_pos g x y b).
Proof. intros (? & ? & ?). unfold i_pixel. now replace (_ && _) with true by lia. Qed.
Lemma i_pixel_outside g x y b : ~ i_inside g x y b -> i_pixel g x y b = None.
Proof. intros H. unfold i_pixel. unfold i_inside in H. now replace (_ && _) with false by lia. Qed.

Lemma inter_get_inside g x y b : i_wf g -> i_inside g x y b ->
  exists v, inter_get g x y b = Ok v /\ i_pixel g x y b = Some v.
Proof.
  intros H Hi. destruct (znth_in_range _ _ (i_wf_pos g x y b H Hi)) as [v Hv]. exists v.
  rewrite i_pixel_inside by auto. split; auto. unfold inter_get. rewrite i_wf_index by auto.
  destruct Hi as (? & ? & ?). replace (_ || _) with false by lia. now apply bget_Ok.
Qed.

Lemma inter_reshape3_wf (zero : A) g w h b g' : i_wf g ->
  0 <= w < 4294967296 -> 0 <= h < 4294967296 -> 0 <= b < 4294967296 ->
  w * b < 4294967296 -> w * h * b < 4294967296 ->
  inter_reshape3 zero g w h b = Ok g' -> i_wf g' /\ i_width g' = w /\ i_height g' = h /\ i_bands g' = b.
Proof.
  intros H Hw Hh Hb Hm Hm' E. unfold inter_reshape3 in E. destruct (_ && _) eqn:Ed.
  - injection E as <-. split; auto. lia.
  - destruct (i_sub g) eqn:Es; [discriminate|]. injection E as <-. cbn. split; [|auto].
    destruct H as (W & H & B & O & S & L & F & N). destruct (N Es) as [Eo _].
    assert (0 <= w * b) by nia. assert (0 <= w * h * b) by nia.
    assert (w * h * b = h * (w * b)) by ring.
    rewrite (u32_id (w * h * b)), (u32_id (w * b)) by lia. unfold i_wf; cbn. rewrite Eo.
    destruct (zlen (i_data g) <? w * h * b) eqn:El; rewrite ?zlen_repeat, ?Z2Nat.id by lia; repeat split; try lia.
Qed.
Lemma inter_reshape_wf (zero : A) g w h g' : i_wf g ->
  0 <= w < 4294967296 -> 0 <= h < 4294967296 ->
  w * i_bands g < 4294967296 -> w * h * i_bands g < 4294967296 ->
  inter_reshape zero g w h = Ok g' -> i_wf g' /\ i_width g' = w /\ i_height g' = h /\ i_bands g' = i_bands g.
Proof.
  intros H Hw Hh Hm Hm' E.
  assert (E3 : inter_reshape3 zero g w h (i_bands g) = Ok g').
  { unfold inter_reshape in E. unfold inter_reshape3. rewrite Z.eqb_refl, andb_true_r. exact E. }
  apply (inter_reshape3_wf zero g w h (i_bands g)); auto. destruct H as (_ & _ & B & _). lia.
Qed.
Lemma inter_set_bands_wf (zero : A) g b g' : i_wf g ->
  0 <= b < 4294967296 -> i_width g * b < 4294967296 -> i_width g * i_height g * b < 4294967296 ->
  inter_set_bands zero g b = Ok g' ->
  i_wf g' /\ i_width g' = i_width g /\ i_height g' = i_height g /\ i_bands g' = b.
Proof.
  intros H Hb Hm Hm' E.
  assert (E3 : inter_reshape3 zero g (i_width g) (i_height g) b = Ok g').
  { unfold inter_set_bands in E. unfold inter_reshape3. rewrite !Z.eqb_refl. exact E. }
  apply (inter_reshape3_wf zero g (i_width g) (i_height g) b) in E3; auto; destruct H as (W & H & _); auto; lia.
Qed.
Lemma inter_new_wf (zero : A) w h b :
  0 <= w < 4294967296 -> 0 <= h < 4294967296 -> 0 <= b < 4294967296 ->
  w * b < 4294967296 -> w * h * b < 4294967296 -> i_wf (inter_new zero w h b).
Proof.
  intros Hw Hh Hb Hm Hm'. unfold i_wf, inter_new; cbn.
  assert (0 <= w * b) by nia. assert (0 <= w * h * b) by nia. assert (w * h * b = h * (w * b)) by ring.
  rewrite zlen_repeat, !u32_id, Z2Nat.id by lia. repeat split; try lia.
Qed.
Lemma inter_subimage_ok g x0 y0 x1 y1 g' : i_wf g -> 0 <= x0 -> 0 <= y0 ->
  inter_subimage g x0 y0 x1 y1 = Ok g' ->
  i_wf g' /\ i_width g' = x1 - x0 /\ i_height g' = y1 - y0 /\ i_bands g' = i_bands g /\ i_data g' = i_data g /\
  forall x y b, i_inside g' x y b ->
    i_inside g (x0 + x) (y0 + y) b /\ i_pos g' x y b = i_pos g (x0 + x) (y0 + y) b.
Proof.
  intros H Hx Hy E. unfold inter_subimage in E.
  destruct ((x1 <? x0) || (y1 <? y0)) eqn:E1; [discriminate|].
  destruct ((i_width g <? x1) || (i_height g <? y1)) eqn:E2; [discriminate|]. injection E as <-.
  assert (Hp : x0 < x1 -> y0 < y1 -> 0 < i_bands g ->
     u32 (i_offset g + y0 * i_stride g + x0 * i_bands g) = i_offset g + y0 * i_stride g + x0 * i_bands g).
  { intros ? ? ?. pose proof (i_wf_pos g x0 y0 0 H) as P. unfold i_inside, i_pos in P.
    specialize (P ltac:(lia)). destruct H as (_ & _ & _ & _ & _ & L & _). rewrite u32_id; lia. }
  pose proof (u32_range (i_offset g + y0 * i_stride g + x0 * i_bands g)) as Ur.
  destruct H as (W & H & B & O & S & L & F & N). unfold i_wf; cbn. rewrite !(u32_id (_ - _)) by lia.
  split.
  - assert ((x1 - x0) * i_bands g <= i_width g * i_bands g) by (apply Z.mul_le_mono_nonneg_r; lia).
    split; [lia|]. split; [lia|]. split; [lia|]. split; [lia|]. split; [lia|]. split; [lia|].
    split; [|discriminate].
    intros Hw Hh Hb. rewrite Hp by lia. specialize (F ltac:(lia) ltac:(lia) ltac:(lia)).
    assert ((y1 - 1) * i_stride g <= (i_height g - 1) * i_stride g) by (apply Z.mul_le_mono_nonneg_r; lia).
    assert (x1 * i_bands g <= i_width g * i_bands g) by (apply Z.mul_le_mono_nonneg_r; lia). lia.
  - split; [auto|]. split; [auto|]. split; [auto|]. split; [auto|].
    intros x y b (Ix & Iy & Ib). cbn in Ix, Iy, Ib. unfold i_inside. split; [lia|].
    unfold i_pos; cbn. rewrite Hp by lia. ring.
Qed.
End Inter.

(** ** setTo *)
Lemma memcpy_bytes_1 t dst di src si n :
  ity_size t = 1 -> memcpy_bytes t dst di src si n = copy_elems dst di src si n.
Proof.
  intros E. unfold memcpy_bytes. rewrite E, Z.div_1_r, Z.mod_1_r. cbn.
  destruct (copy_elems dst di src si n); reflexivity.
Qed.

Lemma i_wf_total {A} (g : inter A) : i_wf g -> i_width g * i_height g * i_bands g < 4294967296.
Proof.
  intros (W & H & B & O & S & L & F & N).
  destruct (Z.eq_dec (i_width g) 0) as [->|]; [lia|]. destruct (Z.eq_dec (i_height g) 0) as [->|]; [lia|].
  destruct (Z.eq_dec (i_bands g) 0) as [->|]; [lia|]. specialize (F ltac:(lia) ltac:(lia) ltac:(lia)).
  assert ((i_height g - 1) * (i_width g * i_bands g) <= (i_height g - 1) * i_stride g)
    by (apply Z.mul_le_mono_nonneg_l; lia).
  replace (i_width g * i_height g * i_bands g) with
    ((i_height g - 1) * (i_width g * i_bands g) + i_width g * i_bands g) by ring. lia.
Qed.

(** The image setTo writes into is well formed, whatever the intermediate shape was. *)
Lemma inter_setTo_target (dst src : inter Z) :
  i_wf dst -> i_wf src ->
  (i_sub dst = false \/ (i_width dst = i_width src /\ i_height dst = i_height src /\ i_bands dst = i_bands src)) ->
  exists g1 g, inter_set_bands 0 dst (i_bands src) = Ok g1 /\
    inter_reshape 0 g1 (i_width src) (i_height src) = Ok g /\ i_wf g /\
    i_width g = i_width src /\ i_height g = i_height src /\ i_bands g = i_bands src /\
    (i_sub dst = true -> g = dst).
Proof.
  intros Hd Hs Hc. destruct (i_sub dst) eqn:Esub.
  - destruct Hc as [|(E1 & E2 & E3)]; [discriminate|].
    exists dst, dst. unfold inter_set_bands, inter_reshape. rewrite E1, E2, E3, !Z.eqb_refl. cbn. tauto.
  - clear Hc. pose proof (i_wf_total src Hs) as Ht. pose proof (i_wf_total dst Hd) as Ht'.
    destruct Hs as (W & H & B & O & S & L & F & N). destruct Hd as (W' & H' & B' & O' & S' & L' & F' & N').
    destruct (N' Esub) as [Eo Es].
    set (P := fun g : inter Z => i_sub g = false /\ i_offset g = 0 /\ i_stride g = u32 (i_width g * i_bands g) /\
         zlen (i_data g) < 4294967296 /\ u32 (i_width g * i_height g * i_bands g) <= zlen (i_data g)).
    assert (P0 : P dst).
    { unfold P. rewrite (u32_id (i_width dst * i_bands dst)) by lia. repeat split; auto.
      rewrite u32_id by nia.
      destruct (Z.eq_dec (i_width dst) 0) as [->|]; [pose proof (zlen_nonneg (i_data dst)); lia|].
      destruct (Z.eq_dec (i_height dst) 0) as [->|]; [pose proof (zlen_nonneg (i_data dst)); lia|].
      destruct (Z.eq_dec (i_bands dst) 0) as [->|]; [pose proof (zlen_nonneg (i_data dst)); lia|].
      specialize (F' ltac:(lia) ltac:(lia) ltac:(lia)). rewrite Es, Eo in F'.
      replace (i_width dst * i_height dst * i_bands dst) with
        (0 + (i_height dst - 1) * (i_width dst * i_bands dst) + i_width dst * i_bands dst) by ring. exact F'. }
    assert (E1 : exists g1, inter_set_bands 0 dst (i_bands src) = Ok g1 /\ P g1 /\ i_bands g1 = i_bands src).
    { unfold inter_set_bands. destruct (i_bands dst =? i_bands src) eqn:E; [exists dst; split; auto; split; auto; lia|].
      rewrite Esub. eexists; split; [reflexivity|]. split; [|reflexivity]. unfold P; cbn.
      pose proof (u32_range (i_width dst * i_height dst * i_bands src)).
      destruct (zlen (i_data dst) <? u32 (i_width dst * i_height dst * i_bands src)) eqn:El;
        rewrite ?zlen_repeat, ?Z2Nat.id by lia; repeat split; auto; lia. }
    destruct E1 as (g1 & E1 & P1 & Eb1).
    assert (E2 : exists g, inter_reshape 0 g1 (i_width src) (i_height src) = Ok g /\ P g /\ i_bands g = i_bands src /\
        i_width g = i_width src /\ i_height g = i_height src).
    { unfold inter_reshape. destruct (_ && _) eqn:E; [exists g1; split; auto; split; auto; lia|].
      destruct P1 as (Q1 & Q2 & Q3 & Q4 & Q5). rewrite Q1. eexists; split; [reflexivity|]. cbn. split; [|auto].
      unfold P; cbn. pose proof (u32_range (i_width src * i_height src * i_bands g1)).
      destruct (zlen (i_data g1) <? u32 (i_width src * i_height src * i_bands g1)) eqn:El;
        rewrite ?zlen_repeat, ?Z2Nat.id by lia; repeat split; auto; lia. }
    destruct E2 as (g & E2 & P2 & Eb2 & Ew & Eh).
    exists g1, g. split; auto. split; auto. split; [|repeat split; auto; discriminate].
    destruct P2 as (Q1 & Q2 & Q3 & Q4 & Q5). rewrite Ew, Eb2 in Q3. rewrite Ew, Eh, Eb2 in Q5.
    assert (0 <= i_width src * i_bands src) by nia.
    assert (0 <= i_width src * i_height src * i_bands src) by nia.
    rewrite u32_id in Q3, Q5 by lia.
    unfold i_wf. rewrite Ew, Eh, Eb2, Q2, Q3.
    repeat split; try lia.
Qed.

Lemma inter_setTo_ok t (dst src : inter Z) :
  ity_size t = 1 -> i_wf dst -> i_wf src ->
  (i_sub dst = false \/ (i_width dst = i_width src /\ i_height dst = i_height src /\ i_bands dst = i_bands src)) ->
  exists g', inter_setTo t dst src = Ok g' /\ i_wf g' /\
    i_width g' = i_width src /\ i_height g' = i_height src /\ i_bands g' = i_bands src /\
    (forall x y b, i_pixel g' x y b = i_pixel src x y b) /\
    (i_sub dst = true -> forall j, i_outside_window dst j -> znth (i_data g') j = znth (i_data dst) j).
Proof.
  intros Et Hd Hs Hc.
  destruct (inter_setTo_target dst src Hd Hs Hc) as (g1 & g & E1 & E2 & Hg & Ew & Eh & Eb & Esub).
  unfold inter_setTo. replace (_ && _) with false.
  2:{ symmetry. destruct (i_sub dst); auto. destruct Hc as [|(X1 & X2 & X3)]; [discriminate|].
      rewrite X1, X2, X3, !Z.eqb_refl. reflexivity. }
  rewrite E1. cbn [bind]. rewrite E2. cbn [bind].
  set (n := i_width src * i_bands src).
  assert (Row : forall (k : inter Z) y, i_wf k -> i_width k = i_width src -> i_height k = i_height src ->
     i_bands k = i_bands src -> 0 <= y < i_height src -> 0 < n ->
     i_offset k + u32 (y * i_stride k) = i_offset k + y * i_stride k /\ 0 <= i_offset k + y * i_stride k /\
     i_offset k + y * i_stride k + n <= zlen (i_data k)).
  { intros k y Hk Kw Kh Kb Hy Hn.
    assert (0 < i_width src /\ 0 < i_bands src) as [? ?].
    { destruct Hs as (W & H & B & _). unfold n in Hn. nia. }
    pose proof (i_wf_pos k (i_width src - 1) y (i_bands src - 1) Hk ltac:(unfold i_inside; lia)) as P1.
    pose proof (i_wf_pos k 0 y 0 Hk ltac:(unfold i_inside; lia)) as P0. unfold i_pos in P0, P1. rewrite Kb in *.
    destruct Hk as (_ & _ & _ & Ok0 & Sk & Lk & _ & _).
    assert (0 <= y * i_stride k) by (apply Z.mul_nonneg_nonneg; lia).
    rewrite u32_id by lia. unfold n. split; auto. nia. }
  assert (Nn : 0 <= n < 4294967296).
  { destruct Hs as (W & H & B & O & S & _). unfold n. split; [nia|lia]. }
  rewrite (for_range_ext _ _ _ (fun y d => copy_elems d (i_offset g + u32 (y * i_stride g)) (i_data src)
             (i_offset src + u32 (y * i_stride src)) n)).
  2:{ intros y d Hy. rewrite memcpy_bytes_1 by auto. rewrite Eb. fold n. now rewrite (u32_id n) by lia. }
  destruct (for_range_writes (zlen (i_data g))
     (fun y j v => exists k, 0 <= k < n /\ j = i_offset g + y * i_stride g + k /\
        znth (i_data src) (i_offset src + y * i_stride src + k) = Some v) 0 (i_height g)
     (fun y d => copy_elems d (i_offset g + u32 (y * i_stride g)) (i_data src)
             (i_offset src + u32 (y * i_stride src)) n) (i_data g)) as (d & E & Hw); auto.
  { intros y d Hy L. destruct (Z.eq_dec n 0) as [Z0|].
    - exists d. unfold copy_elems. rewrite for_range_nil by lia. split; auto. apply writes_none.
      intros j v (k & Hk & _); lia.
    - destruct (Row g y) as (-> & ? & ?); auto; try lia. destruct (Row src y) as (-> & ? & ?); auto; try lia.
      destruct (copy_elems_ok d (i_data src) (i_offset g + y * i_stride g) (i_offset src + y * i_stride src) n)
        as (d' & E & Hw); try lia. exists d'. split; auto. }
  rewrite E. cbn [bind]. exists (i_with_data g d). split; auto.
  assert (Ld : zlen d = zlen (i_data g)) by (destruct Hw; auto).
  split. { unfold i_wf in *; cbn. rewrite Ld. exact Hg. }
  cbn. split; auto. split; auto. split; auto. destruct Hw as [_ Hw].
  assert (S0 : forall x b, 0 <= x < i_width src -> 0 <= b < i_bands src -> 0 <= x * i_bands src + b < n).
  { intros x b Hx Hb. unfold n. nia. }
  split.
  - intros x y b.
    assert (D : i_inside g x y b \/ ~ i_inside g x y b) by (unfold i_inside; lia).
    destruct D as [Hi|Hi].
    2:{ rewrite !i_pixel_outside; auto; unfold i_inside in *; cbn; lia. }
    rewrite !i_pixel_inside by (unfold i_inside in *; cbn; lia).
    destruct Hi as (Ix & Iy & Ib).
    assert (i_inside src x y b) as Hi' by (unfold i_inside; lia).
    destruct (znth_in_range _ _ (i_wf_pos src x y b Hs Hi')) as [v Hv]. rewrite Hv.
    unfold i_pos; cbn. specialize (S0 x b ltac:(lia) ltac:(lia)).
    destruct (Hw (i_offset g + y * i_stride g + x * i_bands g + b)) as [(v' & (y' & Hy' & k & Hk & Ek & Ev) & Er)|(N & _)].
    + rewrite Er. f_equal. rewrite Eb in Ek.
      destruct Hg as (_ & _ & _ & _ & S & _ & _ & _).
      destruct (Z.div_mod_unique (i_stride g) y y' (x * i_bands src + b) k) as [-> <-]; try (rewrite Ew, Eb in S; fold n in S; lia).
      unfold i_pos in Hv. replace (i_offset src + y' * i_stride src + x * i_bands src + b) with
         (i_offset src + y' * i_stride src + (x * i_bands src + b)) in Hv by ring. congruence.
    + exfalso. apply (N v). exists y. split; [lia|]. exists (x * i_bands src + b). split; auto. rewrite Eb.
      split; [ring|]. rewrite <- Hv. unfold i_pos. f_equal; ring.
  - intros Hsub j Ho. specialize (Esub Hsub). subst g.
    destruct (Hw j) as [(v & (y & Hy & k & Hk & Ek & _) & _)|(_ & Er)]; auto.
    exfalso. assert (0 < i_bands src) by (destruct Hs as (W & H & B & _); unfold n in Hk; nia).
    apply (Ho (k / i_bands src) y (k mod i_bands src)).
    + unfold i_inside. rewrite Ew, Eb.
      pose proof (Z.mod_pos_bound k (i_bands src) ltac:(lia)). split; [|lia]. split.
      * apply Z.div_pos; lia.
      * apply Z.div_lt_upper_bound; [lia|]. unfold n in Hk. lia.
    + unfold i_pos. rewrite Eb, Ek. pose proof (Z.div_mod k (i_bands src) ltac:(lia)). lia.
Qed.

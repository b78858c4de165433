(** Integer instances of normalized convolution. *)
From Verif Require Import BaseFacts M_Image S_Image L_Image M_Border S_Border L_Border M_Convolve S_Convolve L_Window
  L_Convolve L_Convolve2 L_ConvolveInt M_Normalized S_Normalized L_Normalized.

Lemma averaged_ext {E S} (N : narith E S) ks px px' : (forall j, 0 <= j < zlen ks -> px j = px' j) ->
  averaged N ks px = averaged N ks px'.
Proof. intros H. unfold averaged. rewrite (covered_ext (na_arith N) ks px px' 0 0); auto. Qed.

Lemma same_shape_throws {E} (g o : gray E) : g_width o <> g_width g \/ g_height o <> g_height g ->
  checkSameShape g o = Throw.
Proof. intros H. unfold checkSameShape. replace (_ || _) with true; auto. lia. Qed.

Lemma normalized_throws {E S} (N : narith E S) K g o : g_width o <> g_width g \/ g_height o <> g_height g ->
  normalized_h N K g o = Throw /\ normalized_v N K g o = Throw.
Proof. intros H. unfold normalized_h, normalized_v. now rewrite !same_shape_throws. Qed.

Lemma reshape_len {R} (zero : R) out w h o : 0 <= w -> 0 <= h -> gray_reshape zero out w h = Ok o ->
  zlen (g_data o) <= Z.max (zlen (g_data out)) (w * h).
Proof.
  intros Hw Hh. unfold gray_reshape. destruct (_ && _); [intros H; injection H as <-; lia|].
  destruct (g_sub out); [discriminate|]. intros H. injection H as <-. cbn [g_data].
  destruct (zlen (g_data out) <? u32 (w * h)) eqn:C; [|lia]. unfold zlen at 1. rewrite repeat_length.
  pose proof (u32_range (w * h)). rewrite Z2Nat.id by lia. unfold u32.
  pose proof (Z.mod_le (w * h) 4294967296). nia.
Qed.

Lemma covered_int t r M ks : forall (px : Z -> option Z) i s w,
  0 <= M -> (forall j v, 0 <= j < zlen ks -> px (i + j) = Some v -> Z.abs v <= M) ->
  Z.abs s + zabs_sum ks * M <= ity_max (signed_type t) -> Z.abs w + zabs_sum ks <= ity_max (signed_type t) ->
  covered (int_arith t r) s w ks px i = Some (s + fst (zcovered ks px i), w + snd (zcovered ks px i)).
Proof.
  induction ks as [|c ks IH]; intros px i s w HM Hp Hs Hw; cbn [covered zcovered].
  - cbn [fst snd]. do 2 f_equal; lia.
  - rewrite zlen_cons in Hp. pose proof (zlen_nonneg ks). cbn [zabs_sum] in *. pose proof (zabs_sum_nonneg ks).
    assert (0 <= zabs_sum ks * M) by nia. pose proof (signed_type_min t).
    assert (Hp' : forall j v, 0 <= j < zlen ks -> px (i + 1 + j) = Some v -> Z.abs v <= M).
    { intros j v Hj. replace (i + 1 + j) with (i + (j + 1)) by lia. apply Hp; lia. }
    destruct (zcovered ks px (i + 1)) as [T W] eqn:Z1. destruct (px i) as [v|] eqn:Pv.
    + pose proof (Hp 0 v ltac:(lia)) as B0. rewrite Z.add_0_r in B0. specialize (B0 Pv).
      cbn [a_prod a_add int_arith].
      assert (Z.abs (c * v) <= Z.abs c * M) by (rewrite Z.abs_mul; nia).
      rewrite arith_result_in by lia. rewrite arith_result_in by lia. rewrite arith_result_in by lia.
      rewrite IH; auto; try lia. rewrite Z1. cbn [fst snd]. do 2 f_equal; lia.
    + rewrite IH; auto; try lia; try nia. rewrite Z1. reflexivity.
Qed.
Lemma zcovered_bound M ks : forall (px : Z -> option Z) i, 0 <= M ->
  (forall j v, 0 <= j < zlen ks -> px (i + j) = Some v -> Z.abs v <= M) ->
  Z.abs (fst (zcovered ks px i)) <= zabs_sum ks * M /\ Z.abs (snd (zcovered ks px i)) <= zabs_sum ks.
Proof.
  induction ks as [|c ks IH]; intros px i HM Hp; cbn [zcovered zabs_sum].
  - cbn. lia.
  - rewrite zlen_cons in Hp. pose proof (zlen_nonneg ks). pose proof (zabs_sum_nonneg ks).
    destruct (IH px (i + 1) HM) as [B1 B2].
    { intros j v Hj. replace (i + 1 + j) with (i + (j + 1)) by lia. apply Hp; lia. }
    destruct (zcovered ks px (i + 1)) as [T W] eqn:Z1. cbn [fst snd] in *. destruct (px i) as [v|] eqn:Pv; cbn [fst snd]; try nia.
    pose proof (Hp 0 v ltac:(lia)) as B0. rewrite Z.add_0_r in B0. specialize (B0 Pv).
    assert (Z.abs (c * v) <= Z.abs c * M) by (rewrite Z.abs_mul; nia). nia.
Qed.
Lemma averaged_int t M ks (px : Z -> option Z) : 0 <= M ->
  (forall j v, 0 <= j < zlen ks -> px j = Some v -> Z.abs v <= M) ->
  zabs_sum ks * (M + 1) <= ity_max (signed_type t) -> snd (zcovered ks px 0) <> 0 ->
  averaged (int_narith t) ks px = Some (cast t (rounded (zcovered ks px 0))).
Proof.
  intros HM Hp Hs Hw. pose proof (zabs_sum_nonneg ks). assert (0 <= zabs_sum ks * M) by nia.
  unfold averaged. cbn [na_arith int_narith]. change (a_zero (int_arith t t)) with 0.
  rewrite (covered_int t t M); auto; try lia.
  destruct (zcovered_bound M ks px 0 HM) as [B1 B2]; auto. unfold rounded.
  destruct (zcovered ks px 0) as [T W]. cbn [fst snd] in *. rewrite !Z.add_0_l.
  cbn [na_norm int_narith]. unfold int_round_div, int_div. pose proof (signed_type_min t).
  change (2 =? 0) with false. cbn iota.
  assert (Z.abs (Z.quot W 2) <= Z.abs W).
  { pose proof (Z.quot_rem' W 2). pose proof (Z.rem_bound_abs W 2 ltac:(lia)).
    destruct (Z.le_gt_cases 0 W); [pose proof (Z.quot_pos W 2); lia|].
    rewrite <- (Z.opp_involutive W). rewrite Z.quot_opp_l by lia. pose proof (Z.quot_pos (-W) 2).
    pose proof (Z.quot_le_upper_bound (-W) 2 (-W)). lia. }
  rewrite arith_result_in by lia. cbn [bind]. rewrite arith_result_in by lia. cbn [bind].
  replace (W =? 0) with false by lia.
  set (n := T + Z.quot W 2) in *.
  assert (Z.abs (Z.quot n W) <= Z.abs n).
  { rewrite <- Z.quot_abs by lia. destruct (Z.eq_dec n 0) as [->|]; [rewrite Z.quot_0_l; lia|].
    apply Z.quot_le_upper_bound; nia. }
  rewrite arith_result_in by lia. reflexivity.
Qed.

Section I.
Variables (t : ity) (K : kernel Z) (g out : gray Z) (M : Z).
Hypothesis Hg : wf g.
Hypothesis Hout : wf out.
Hypothesis Sw : 0 < g_width g <= 1073741824.
Hypothesis Sh : 0 < g_height g <= 1073741824.
Hypothesis Ew : g_width out = g_width g.
Hypothesis Eh : g_height out = g_height g.
Hypothesis HK : kernel1_ok K.
Hypothesis HM : 0 <= M.
Hypothesis HP : forall x y v, pixel g x y = Some v -> Z.abs v <= M.
Hypothesis HS : zabs_sum (k_data K) * (M + 1) <= ity_max (signed_type t).

Lemma int_ok : narith_ok (int_narith t).
Proof. intros a b H. discriminate. Qed.

Lemma normalized_h_int :
  (forall x y, inside g x y -> snd (zcovered (k_data K) (fun i => pixel g (x - k_offset K + i) y) 0) <> 0) ->
  exists out', normalized_h (int_narith t) K g out = Ok out' /\
    holds g out out' (fun x y => Some (cast t (rounded (zcovered (k_data K) (fun i => pixel g (x - k_offset K + i) y) 0)))).
Proof.
  intros HW.
  assert (V : forall x y, inside g x y -> nvalue_h (int_narith t) K g x y =
     Some (cast t (rounded (zcovered (k_data K) (fun i => pixel g (x - k_offset K + i) y) 0)))).
  { intros x y Hi. unfold nvalue_h. apply (averaged_int t M); eauto. }
  destruct (normalized_h_all (int_narith t) K g out int_ok HK Hg Hout Ew Eh Sw Sh) as (out' & E2 & Hh).
  { intros; discriminate. }
  { intros x y Hi; eexists; now apply V. }
  exists out'. split; auto. destruct Hh as (H1 & H2 & H3 & H4 & H5).
  do 3 (split; auto). split; auto. intros x y Hi. rewrite H4 by auto. now apply V.
Qed.
Lemma normalized_v_int :
  (g_height g <= k_width K -> forall c, In c (k_data K) -> ity_min t <= c <= ity_max t) ->
  (forall x y, inside g x y -> snd (zcovered (k_data K) (fun i => pixel g x (y - k_offset K + i)) 0) <> 0) ->
  exists out', normalized_v (int_narith t) K g out = Ok out' /\
    holds g out out' (fun x y => Some (cast t (rounded (zcovered (k_data K) (fun i => pixel g x (y - k_offset K + i)) 0)))).
Proof.
  intros HT HW.
  assert (V : forall x y, inside g x y -> nvalue_v (int_narith t) K g x y =
     Some (cast t (rounded (zcovered (k_data K) (fun i => pixel g x (y - k_offset K + i)) 0)))).
  { intros x y Hi. unfold nvalue_v. apply (averaged_int t M); eauto. }
  destruct (normalized_v_all (int_narith t) K g out int_ok HK Hg Hout Ew Eh Sw Sh) as (out' & E2 & Hh).
  { intros; discriminate. }
  { intros Hc c Hin. cbn. f_equal. apply cast_id. auto. }
  { intros x y Hi; eexists; now apply V. }
  exists out'. split; auto. destruct Hh as (H1 & H2 & H3 & H4 & H5).
  do 3 (split; auto). split; auto. intros x y Hi. rewrite H4 by auto. now apply V.
Qed.
End I.

(** ** Range *)
Lemma zcovered_range lo hi ks : forall (px : Z -> option Z) i, (forall c, In c ks -> 0 <= c) ->
  (forall j v, 0 <= j < zlen ks -> px (i + j) = Some v -> lo <= v <= hi) ->
  lo * snd (zcovered ks px i) <= fst (zcovered ks px i) <= hi * snd (zcovered ks px i) /\ 0 <= snd (zcovered ks px i).
Proof.
  induction ks as [|c ks IH]; intros px i Hc Hp; cbn [zcovered].
  - cbn. lia.
  - rewrite zlen_cons in Hp. pose proof (zlen_nonneg ks). pose proof (Hc c (or_introl eq_refl)).
    destruct (IH px (i + 1)) as [B1 B2].
    { intros; apply Hc; now right. }
    { intros j v Hj. replace (i + 1 + j) with (i + (j + 1)) by lia. apply Hp; lia. }
    destruct (zcovered ks px (i + 1)) as [T W] eqn:Z1. cbn [fst snd] in *. destruct (px i) as [v|] eqn:Pv; cbn [fst snd]; auto.
    pose proof (Hp 0 v ltac:(lia)) as B0. rewrite Z.add_0_r in B0. specialize (B0 Pv). nia.
Qed.
Lemma rounded_range lo hi T W : 0 <= lo -> 0 < W -> lo * W <= T <= hi * W -> lo <= rounded (T, W) <= hi.
Proof.
  intros Hl HW HT. unfold rounded; cbn [fst snd]. assert (0 <= T) by nia.
  rewrite (Z.quot_div_nonneg W 2) by lia.
  assert (0 <= W / 2) by (apply Z.div_pos; lia).
  assert (2 * (W / 2) <= W) by (apply Z.mul_div_le; lia).
  rewrite Z.quot_div_nonneg by lia. split.
  - apply Z.div_le_lower_bound; nia.
  - enough ((T + W / 2) / W < hi + 1) by lia. apply Z.div_lt_upper_bound; nia.
Qed.
Lemma averaged_range t lo hi ks px :
  0 <= lo -> hi <= ity_max t -> ity_min t = 0 -> (forall c, In c ks -> 0 <= c) ->
  (forall j v, 0 <= j < zlen ks -> px j = Some v -> lo <= v <= hi) ->
  snd (zcovered ks px 0) <> 0 ->
  lo <= cast t (rounded (zcovered ks px 0)) <= hi.
Proof.
  intros Hl Hh Ht Hc Hp Hw. destruct (zcovered_range lo hi ks px 0) as [B1 B2]; auto.
  destruct (zcovered ks px 0) as [T W]. cbn [fst snd] in *.
  pose proof (rounded_range lo hi T W Hl ltac:(lia) B1). rewrite cast_id; lia.
Qed.

(** ** Two passes *)
Section Two.
Context {E S : Type}.
Variables (N : narith E S) (zero : E) (K : kernel S) (g out work : gray E).
Hypothesis HN : narith_ok N.
Hypothesis HK : kernel1_ok K.
Hypothesis Hg : wf g.
Hypothesis Hout : wf out.
Hypothesis Hwork : wf work.
Hypothesis Sw : 0 < g_width g <= 1073741824.
Hypothesis Sh : 0 < g_height g <= 1073741824.
Hypothesis Hs : g_sub out = false \/ (g_width out = g_width g /\ g_height out = g_height g).
Hypothesis Hs' : g_sub work = false \/ (g_width work = g_width g /\ g_height work = g_height g).
Hypothesis HZ : na_float N = true -> zlen (g_data g) < 2147483648 /\ zlen (g_data work) < 2147483648.
Hypothesis HT : g_height g <= k_width K -> forall c, In c (k_data K) -> na_trunc N c = Ok c.

Lemma normalized_2_ok :
  (forall x y, inside g x y -> exists r, nvalue_h N K g x y = Some r) ->
  (forall x y, inside g x y -> exists r, nvalue_2 N K g x y = Some r) ->
  exists o out' w work', gray_reshape zero out (g_width g) (g_height g) = Ok o /\
    gray_reshape zero work (g_width g) (g_height g) = Ok w /\
    normalized_2 N zero K g out work = Ok (out', work') /\
    holds g o out' (nvalue_2 N K g) /\ holds g w work' (nvalue_h N K g).
Proof.
  intros H1 H2. destruct (reshape_for zero g out Hg Hout Hs) as (o & Eo & Ho & Ow & Oh).
  destruct (reshape_for zero g work Hg Hwork Hs') as (w & Ewk & Hw & Ww & Wh).
  destruct (normalized_h_ok N K g w (narith_unit N K g HN) HK Hg Hw Ww Wh Sw Sh) as (w' & Ew' & Hh); auto.
  { intros; now apply HZ. }
  assert (Hh' := Hh). destruct Hh' as (A1 & A2 & A3 & A4 & A5).
  assert (Wf' : wf w').
  { eapply wf_layout; eauto. }
  assert (Ln : na_float N = true -> zlen (g_data w') < 2147483648).
  { intros Fl. destruct (HZ Fl) as [Z1 Z2]. destruct A3 as (_ & _ & _ & _ & _ & L). rewrite L.
    pose proof (reshape_len zero work (g_width g) (g_height g) w ltac:(lia) ltac:(lia) Ewk).
    assert (g_width g * g_height g <= zlen (g_data g)) by (unfold wf in Hg; nia). lia. }
  assert (V : forall x y, inside g x y -> nvalue_v N K w' x y = nvalue_2 N K g x y).
  { intros x y [I1 I2]. unfold nvalue_v, nvalue_2. apply averaged_ext. intros j Hj. cbn zeta.
    destruct (_ && _) eqn:C.
    - apply A4. split; lia.
    - apply pixel_outside. unfold inside. lia. }
  destruct (normalized_v_ok N K w' o (narith_unit N K w' HN) HK Wf' Ho) as (o' & Eo' & Hv); try congruence; auto; try lia.
  { rewrite A2. auto. }
  { intros x y Hi. rewrite V by (destruct Hi; split; lia). apply H2. destruct Hi; split; lia. }
  exists o, o', w, w'. do 2 (split; auto). split.
  - unfold normalized_2. rewrite Eo, Ewk. cbn [bind]. rewrite Ew'. cbn [bind]. now rewrite Eo'.
  - split; auto. destruct Hv as (B1 & B2 & B3 & B4 & B5). split; [congruence|]. split; [congruence|]. split; auto.
    split; auto. intros x y Hi. rewrite B4 by (destruct Hi; split; lia). now apply V.
Qed.
End Two.

Lemma averaged_cast t lo hi ks px :
  0 <= lo -> hi <= ity_max t -> ity_min t = 0 -> (forall c, In c ks -> 0 <= c) ->
  (forall j v, 0 <= j < zlen ks -> px j = Some v -> lo <= v <= hi) ->
  snd (zcovered ks px 0) <> 0 -> cast t (rounded (zcovered ks px 0)) = rounded (zcovered ks px 0).
Proof.
  intros Hl Hh Ht Hc Hp Hw. destruct (zcovered_range lo hi ks px 0) as [B1 B2]; auto.
  destruct (zcovered ks px 0) as [T W]. cbn [fst snd] in *.
  pose proof (rounded_range lo hi T W Hl ltac:(lia) B1). rewrite cast_id; lia.
Qed.
Lemma zcovered_ext ks : forall px px' i, (forall j, 0 <= j < zlen ks -> px (i + j) = px' (i + j)) ->
  zcovered ks px i = zcovered ks px' i.
Proof.
  induction ks as [|c ks IH]; intros px px' i H; cbn [zcovered]; auto.
  rewrite zlen_cons in H. pose proof (zlen_nonneg ks). pose proof (H 0 ltac:(lia)) as HX. rewrite !Z.add_0_r in HX.
  rewrite (IH px px' (i + 1)); [now rewrite HX|].
  intros j Hj. replace (i + 1 + j) with (i + (j + 1)) by lia. apply H; lia.
Qed.
Lemma zcovered_weight ks : forall px px' i i', (forall j, 0 <= j < zlen ks -> px (i + j) = None <-> px' (i' + j) = None) ->
  snd (zcovered ks px i) = snd (zcovered ks px' i').
Proof.
  induction ks as [|c ks IH]; intros px px' i i' H; cbn [zcovered]; auto.
  rewrite zlen_cons in H. pose proof (zlen_nonneg ks). pose proof (H 0 ltac:(lia)) as HX. rewrite !Z.add_0_r in HX.
  assert (E1 : snd (zcovered ks px (i + 1)) = snd (zcovered ks px' (i' + 1))).
  { apply IH. intros j Hj. replace (i + 1 + j) with (i + (j + 1)) by lia. replace (i' + 1 + j) with (i' + (j + 1)) by lia.
    apply H; lia. }
  destruct (zcovered ks px (i + 1)), (zcovered ks px' (i' + 1)). cbn [snd] in E1.
  destruct (px i), (px' i'); cbn [snd]; auto; [lia| |]; exfalso; destruct HX as [H1 H2]; 
    [specialize (H2 eq_refl)|specialize (H1 eq_refl)]; discriminate.
Qed.

Section Range.
Variables (t : ity) (K : kernel Z) (g out : gray Z).
Hypothesis Ht : t = U8 \/ t = U16.
Hypothesis Hg : wf g.
Hypothesis Hout : wf out.
Hypothesis Sw : 0 < g_width g <= 1073741824.
Hypothesis Sh : 0 < g_height g <= 1073741824.
Hypothesis HK : kernel1_ok K.
Hypothesis HC : forall c, In c (k_data K) -> 0 <= c.
Hypothesis HS : zabs_sum (k_data K) * (ity_max t + 1) <= 2147483647.
Hypothesis HP : forall x y v, pixel g x y = Some v -> 0 <= v <= ity_max t.

Lemma t_facts : ity_max (signed_type t) = 2147483647 /\ ity_min t = 0 /\ 0 <= ity_max t.
Proof. destruct Ht as [-> | ->]; repeat split; cbn; lia. Qed.

Lemma normalized_h_range : g_width out = g_width g -> g_height out = g_height g ->
  (forall x y, inside g x y -> snd (zcovered (k_data K) (fun i => pixel g (x - k_offset K + i) y) 0) <> 0) ->
  exists out', normalized_h (int_narith t) K g out = Ok out' /\
    forall x y v l h, pixel out' x y = Some v -> 0 <= l -> h <= ity_max t ->
      (forall i u, 0 <= i < k_width K -> pixel g (x - k_offset K + i) y = Some u -> l <= u <= h) -> l <= v <= h.
Proof.
  intros Ew Eh HW. destruct t_facts as (T1 & T2 & T3).
  destruct (normalized_h_int t K g out (ity_max t)) as (o & Eo & Hh); auto.
  { intros x y v Hv. specialize (HP _ _ _ Hv). lia. }
  { rewrite T1. exact HS. }
  exists o. split; auto. destruct Hh as (H1 & H2 & H3 & H4 & H5).
  intros x y v l h Hv Hl Hh Hr.
  assert (Hi : inside g x y).
  { pose proof (pixel_Some _ _ _ _ Hv) as [I1 I2]. split; lia. }
  rewrite H4 in Hv by auto. injection Hv as <-. destruct HK as (K1 & K2 & K3).
  apply averaged_range; auto. rewrite K3. auto.
Qed.
Lemma normalized_v_range : g_width out = g_width g -> g_height out = g_height g ->
  (g_height g <= k_width K -> forall c, In c (k_data K) -> c <= ity_max t) ->
  (forall x y, inside g x y -> snd (zcovered (k_data K) (fun i => pixel g x (y - k_offset K + i)) 0) <> 0) ->
  exists out', normalized_v (int_narith t) K g out = Ok out' /\
    forall x y v l h, pixel out' x y = Some v -> 0 <= l -> h <= ity_max t ->
      (forall i u, 0 <= i < k_width K -> pixel g x (y - k_offset K + i) = Some u -> l <= u <= h) -> l <= v <= h.
Proof.
  intros Ew Eh HT HW. destruct t_facts as (T1 & T2 & T3).
  destruct (normalized_v_int t K g out (ity_max t)) as (o & Eo & Hh); auto.
  { intros x y v Hv. specialize (HP _ _ _ Hv). lia. }
  { rewrite T1. exact HS. }
  { rewrite T2. intros Hc c Hin. split; auto. }
  exists o. split; auto. destruct Hh as (H1 & H2 & H3 & H4 & H5).
  intros x y v l h Hv Hl Hh Hr.
  assert (Hi : inside g x y).
  { pose proof (pixel_Some _ _ _ _ Hv) as [I1 I2]. split; lia. }
  rewrite H4 in Hv by auto. injection Hv as <-. destruct HK as (K1 & K2 & K3).
  apply averaged_range; auto. rewrite K3. auto.
Qed.

Variables (work : gray Z) (lo hi : Z).
Hypothesis Hwork : wf work.
Hypothesis Hlo : 0 <= lo.
Hypothesis Hhi : hi <= ity_max t.
Hypothesis HR : forall x y v, pixel g x y = Some v -> lo <= v <= hi.
Lemma normalized_2_full :
  g_sub out = false \/ (g_width out = g_width g /\ g_height out = g_height g) ->
  g_sub work = false \/ (g_width work = g_width g /\ g_height work = g_height g) ->
  (g_height g <= k_width K -> forall c, In c (k_data K) -> c <= ity_max t) ->
  (forall x y, inside g x y -> snd (zcovered (k_data K) (fun i => pixel g (x - k_offset K + i) y) 0) <> 0) ->
  (forall x y, inside g x y -> snd (zcovered (k_data K) (fun i => pixel g x (y - k_offset K + i)) 0) <> 0) ->
  exists o out' w work', gray_reshape 0 out (g_width g) (g_height g) = Ok o /\ gray_reshape 0 work (g_width g) (g_height g) = Ok w /\
    normalized_2 (int_narith t) 0 K g out work = Ok (out', work') /\
    holds g o out' (fun x y => Some (two_pass (k_data K) (k_offset K) g x y)) /\ same_layout w work' /\
    (forall j, outside_window w j -> znth (g_data work') j = znth (g_data w) j) /\
    forall x y v, pixel out' x y = Some v -> lo <= v <= hi.
Proof.
  intros Hs Hs' HT HW1 HW2. destruct t_facts as (T1 & T2 & T3). pose proof HK as (K1 & K2 & K3).
  assert (V1 : forall x y, inside g x y -> exists v, nvalue_h (int_narith t) K g x y = Some v /\ lo <= v <= hi /\
    v = rounded (zcovered (k_data K) (fun j => pixel g (x - k_offset K + j) y) 0)).
  { intros x y Hi. eexists; split; [|split].
    - unfold nvalue_h. apply (averaged_int t (ity_max t)); auto.
      + intros j v Hj Hv. specialize (HP _ _ _ Hv). lia.
      + now rewrite T1.
    - apply averaged_range; eauto.
    - apply averaged_cast with lo hi; eauto. }
  set (col x y := fun i => let y' := y - k_offset K + i in
    if (0 <=? y') && (y' <? g_height g) then nvalue_h (int_narith t) K g x y' else None).
  assert (C1 : forall x y j v, inside g x y -> col x y j = Some v -> lo <= v <= hi).
  { intros x y j v [I1 I2]. unfold col. cbn zeta. destruct (_ && _) eqn:C; [|discriminate]. intros Hv.
    destruct (V1 x (y - k_offset K + j)) as (v' & E' & B & _); [split; lia|]. assert (v' = v) by congruence. now subst. }
  assert (V2 : forall x y, inside g x y -> exists v, nvalue_2 (int_narith t) K g x y = Some v /\ lo <= v <= hi /\
    v = two_pass (k_data K) (k_offset K) g x y).
  { intros x y Hi.
    assert (Wn : snd (zcovered (k_data K) (col x y) 0) <> 0).
    { rewrite (zcovered_weight (k_data K) (col x y) (fun i => pixel g x (y - k_offset K + i)) 0 0).
      - now apply HW2.
      - intros j Hj. rewrite Z.add_0_l. unfold col. cbn zeta. destruct Hi as [I1 I2]. destruct (_ && _) eqn:C.
        + destruct (V1 x (y - k_offset K + j)) as (v' & E' & B); [split; lia|]. rewrite E'.
          destruct (pixel_exists g x (y - k_offset K + j) Hg) as (u & Hu); [split; lia|]. rewrite Hu. split; discriminate.
        + rewrite pixel_outside by (unfold inside; lia). tauto. }
    eexists; split; [|split].
    - unfold nvalue_2. fold (col x y). apply (averaged_int t (ity_max t)); auto.
      + intros j v Hj Hv. specialize (C1 _ _ _ _ Hi Hv). lia.
      + now rewrite T1.
    - apply averaged_range; eauto.
    - rewrite (averaged_cast t lo hi) by eauto. unfold two_pass. f_equal. apply zcovered_ext. intros j Hj. unfold col. cbn zeta.
      destruct Hi as [I1 I2]. destruct (_ && _) eqn:C; auto.
      destruct (V1 x (y - k_offset K + (0 + j))) as (v' & E' & B & ->); [split; lia|]. exact E'. }
  destruct (normalized_2_ok (int_narith t) 0 K g out work (int_ok t) HK Hg Hout Hwork Sw Sh Hs Hs') 
    as (o & out' & w & work' & E1 & E2 & E3 & H1 & H2); auto.
  - intros; discriminate.
  - intros Hc c Hin. cbn. f_equal. apply cast_id. rewrite T2. auto.
  - intros x y Hi. destruct (V1 x y Hi) as (v & E' & _); eauto.
  - intros x y Hi. destruct (V2 x y Hi) as (v & E' & _); eauto.
  - exists o, out', w, work'. destruct H1 as (A1 & A2 & A3 & A4 & A5). destruct H2 as (B1 & B2 & B3 & B4 & B5).
    split; auto. split; auto. split; auto. split; [|split; auto; split; auto].
    + split; auto. split; auto. split; auto. split; auto. intros x y Hi. rewrite A4 by auto. destruct (V2 x y Hi) as (v' & E' & B & ->). exact E'.
    + intros x y v Hv. pose proof (pixel_Some _ _ _ _ Hv) as [I1 I2].
      assert (Hi : inside g x y) by (split; lia).
      rewrite A4 in Hv by auto. destruct (V2 x y Hi) as (v' & E' & B & _). assert (v' = v) by congruence. now subst.
Qed.
Lemma normalized_2_range :
  g_sub out = false \/ (g_width out = g_width g /\ g_height out = g_height g) ->
  g_sub work = false \/ (g_width work = g_width g /\ g_height work = g_height g) ->
  (g_height g <= k_width K -> forall c, In c (k_data K) -> c <= ity_max t) ->
  (forall x y, inside g x y -> snd (zcovered (k_data K) (fun i => pixel g (x - k_offset K + i) y) 0) <> 0) ->
  (forall x y, inside g x y -> snd (zcovered (k_data K) (fun i => pixel g x (y - k_offset K + i)) 0) <> 0) ->
  exists out' work', normalized_2 (int_narith t) 0 K g out work = Ok (out', work') /\
    g_width out' = g_width g /\ g_height out' = g_height g /\
    forall x y v, pixel out' x y = Some v -> lo <= v <= hi.
Proof.
  intros A B C D F. destruct (normalized_2_full A B C D F) as (o & o' & w & w' & _ & _ & E & (X & Y & _) & _ & _ & Z). eauto 10.
Qed.
End Range.

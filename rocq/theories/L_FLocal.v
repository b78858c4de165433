(** Lemmas about thresholding of float and double images by local means. *)
From Coq Require Import Reals Lia Lra Psatz.
From Coq Require Import Floats.SpecFloat.
From Flocq Require Import Core BinarySingleNaN.
From Verif Require Import Base BaseFacts M_Image S_Image L_Image L_Window M_Convolve S_Convolve L_Convolve2 M_Normalized M_Blur
  M_Float M_Otsu M_Config M_Local L_Local.
From Verif Require Import S_Ieee L_Ieee L_PointF S_FConv L_FConv S_FNorm L_FNorm S_FBlur L_NormalizedInt L_FBlur S_FLocal.
Local Open Scope R_scope.

(** ** The mean of means is the mean of the square *)
Lemma rsum_app l l' : fold_right Rplus 0 (l ++ l') = fold_right Rplus 0 l + fold_right Rplus 0 l'.
Proof. induction l as [|a l IH]; cbn [app fold_right]; [ring|]. rewrite IH. ring. Qed.
Lemma present_len n : forall px px' i, (forall j, px j = None <-> px' j = None) ->
  length (rpresent px i n) = length (rpresent px' i n).
Proof.
  induction n as [|n IH]; intros px px' i H; cbn [rpresent]; auto. pose proof (H i) as Hi.
  destruct (px i), (px' i); cbn [length]; rewrite ?(IH px px'); auto; exfalso; destruct Hi as [A B]; [specialize (B eq_refl)|specialize (A eq_refl)]; discriminate.
Qed.

Section Sq.
Variables (g : gray spec_float) (r x : Z).
Hypothesis Wg : wf g.
Hypothesis Hx : (0 <= x < g_width g)%Z.
Hypothesis Hr : (0 <= r)%Z.
Notation row j := (rpresent (fun i => rpixel g i j) (x - r)%Z (Z.to_nat (2 * r + 1))).

Lemma row_none j : ~ (0 <= j < g_height g)%Z -> row j = [].
Proof.
  intros H. generalize (x - r)%Z. induction (Z.to_nat (2 * r + 1)) as [|n IH]; intros i; cbn [rpresent]; auto.
  unfold rpixel at 1. rewrite pixel_outside by (unfold inside; lia). cbn [option_map]. apply IH.
Qed.
Lemma row_len j j' : (0 <= j < g_height g)%Z -> (0 <= j' < g_height g)%Z -> length (row j) = length (row j').
Proof.
  intros H H'. apply present_len. intros i. unfold rpixel.
  destruct (Z_lt_le_dec i 0); [|destruct (Z_lt_le_dec i (g_width g))].
  - rewrite !pixel_outside by (unfold inside; lia). tauto.
  - destruct (pixel_exists g i j Wg) as (v & ->); [split; lia|]. destruct (pixel_exists g i j' Wg) as (v' & ->); [split; lia|].
    split; discriminate.
  - rewrite !pixel_outside by (unfold inside; lia). tauto.
Qed.
Lemma row_pos j : (0 <= j < g_height g)%Z -> (0 < length (row j))%nat.
Proof.
  intros H. destruct (pixel_exists g x j Wg) as (v & E); [split; lia|].
  apply (rpresent_pos _ _ _ r (val v)); [lia|]. replace (x - r + r)%Z with x by lia. unfold rpixel. now rewrite E.
Qed.
Notation pxs := (fun i => if ((0 <=? i) && (i <? g_height g))%Z%bool then Some (box_row g r x i) else None).
Lemma rows_sum L n : (forall j, (0 <= j < g_height g)%Z -> length (row j) = L) -> (0 < L)%nat -> forall j,
  fold_right Rplus 0 (square_rows g r x j n) = INR L * fold_right Rplus 0 (rpresent pxs j n) /\
  INR (length (square_rows g r x j n)) = INR L * INR (length (rpresent pxs j n)).
Proof.
  intros HL L0. assert (P : 0 < INR L) by (apply lt_0_INR; auto).
  induction n as [|n IH]; intros j; cbn [square_rows rpresent].
  - cbn. split; ring.
  - destruct (IH (j + 1)%Z) as [I1 I2]. rewrite rsum_app, app_length, plus_INR, I1, I2.
    destruct ((0 <=? j) && (j <? g_height g))%Z%bool eqn:C.
    + cbn [fold_right length]. rewrite S_INR, (HL j) by lia. split; [|ring].
      unfold box_row, average. rewrite (HL j) by lia. field. lra.
    + rewrite row_none by lia. cbn. split; ring.
Qed.
Lemma square_mean y : (0 <= y < g_height g)%Z -> box_both g r x y = average (square g r x y).
Proof.
  intros Hy. unfold box_both, square, average at 2.
  destruct (rows_sum (length (row y)) (Z.to_nat (2 * r + 1)) ltac:(intros j Hj; apply row_len; auto) (row_pos y Hy) (y - r)%Z) as [-> ->].
  assert (P : 0 < INR (length (row y))) by (apply lt_0_INR, row_pos; auto).
  assert (P' : 0 < INR (length (rpresent pxs (y - r)%Z (Z.to_nat (2 * r + 1))))).
  { apply lt_0_INR. apply (rpresent_pos _ _ _ r (box_row g r x y)); [lia|]. replace (y - r + r)%Z with y by lia.
    replace ((0 <=? y) && (y <? g_height g))%Z%bool with true by lia. reflexivity. }
  unfold average. field. lra.
Qed.
End Sq.

Lemma square_bound f g r x y M : wf g -> inside g x y -> (0 <= r)%Z -> bounded_numbers f g M -> Rabs (average (square g r x y)) <= M.
Proof.
  intros Wg I Hr Hb. rewrite <- square_mean; auto; try apply I. unfold box_both. apply average_bound.
  - apply (rpresent_pos _ _ _ r (box_row g r x y)); [lia|]. replace (y - r + r)%Z with y by lia. destruct I.
    replace ((0 <=? y) && (y <? g_height g))%Z%bool with true by lia. reflexivity.
  - intros j a. destruct (_ && _)%bool eqn:C; [|discriminate]. intros E. assert (a = box_row g r x j) as -> by congruence.
    unfold box_row. apply average_bound.
    + apply row_pos; auto; [apply I|lia].
    + intros i v. unfold rpixel. destruct (pixel g i j) eqn:P; [|discriminate]. cbn. intros E'.
      assert (v = val s) as -> by congruence. apply (bounded_pixel f g M Hb _ _ _ P).
Qed.

(** ** Comparison *)
Section C.
Variable f : fty.
Hypothesis St : standard f.
Let W : wfty f := standard_wfty f St.
Notation u := (unit_error f).
Notation t := (tiny_error f).

Lemma ltb_val x y : finite f x -> finite f y -> SFltb x y = true <-> val x < val y.
Proof.
  intros (a & -> & Fa & ->)%(finite_B f) (b & -> & Fb & ->)%(finite_B f).
  change (SFltb (B2SF a) (B2SF b)) with (Bltb a b). rewrite Bltb_correct by auto.
  destruct (Rlt_bool_spec (B2R a) (B2R b)); split; auto; try discriminate; lra.
Qed.
Lemma leb_val x y : finite f x -> finite f y -> SFleb x y = true <-> val x <= val y.
Proof.
  intros (a & -> & Fa & ->)%(finite_B f) (b & -> & Fb & ->)%(finite_B f).
  change (SFleb (B2SF a) (B2SF b)) with (Bleb a b). rewrite Bleb_correct by auto.
  destruct (Rle_bool_spec (B2R a) (B2R b)); split; auto; try discriminate; lra.
Qed.
Lemma mul_near x y B : finite f x -> finite f y -> Rabs (val x * val y) <= B -> 2 * B + 1 < huge f ->
  finite f (fmul f x y) /\ Rabs (val (fmul f x y) - val x * val y) <= u * Rabs (val x * val y) + t.
Proof.
  intros Fx Fy HB H. pose proof (rnd_err f W (val x * val y)) as E. set (p := val x * val y) in *.
  destruct (unit_small f St) as [U0 U]. destruct (tiny_small f St) as [T0 T].
  destruct (fmul_fin f W x y Fx Fy) as [F V].
  - fold p. replace (rnd f p) with (p + (rnd f p - p)) by ring. eapply Rle_lt_trans; [apply Rabs_triang|].
    pose proof (Rabs_pos p). nra.
  - split; auto. rewrite V. exact E.
Qed.

Lemma decision down scale v m m0 e B : finite f scale -> finite f v -> finite f m -> Rabs (val m - m0) <= e ->
  Rabs (val scale) * (Rabs m0 + e) <= B -> Rabs (val scale) * Rabs (val v) <= B -> 2 * B + 1 < huge f ->
  tipping f down (val scale) (val v) m0 e < clearance down (val scale) (val v) m0 ->
  (if down then lc_le (float_lcmp f scale) v m else lc_gt (float_lcmp f scale) v m) = true <-> is_set down (val scale) (val v) m0.
Proof.
  intros Fs Fv Fm Hm HB HB' H T. destruct (unit_small f St) as [U0 U].
  assert (e0 : 0 <= e) by (eapply Rle_trans; [apply Rabs_pos|exact Hm]).
  pose proof (Rabs_pos (val scale)) as S0.
  destruct down; cbn [float_lcmp lc_le lc_gt is_set tipping clearance] in *.
  - assert (Am : Rabs (val m) <= Rabs m0 + e).
    { replace (val m) with (m0 + (val m - m0)) by ring. eapply Rle_trans; [apply Rabs_triang|]. lra. }
    assert (Pm : Rabs (val m * val scale) <= Rabs (val scale) * (Rabs m0 + e)).
    { rewrite Rabs_mult, Rmult_comm. apply Rmult_le_compat_l; auto. }
    destruct (mul_near m scale B Fm Fs ltac:(lra) H) as [Fp Ep]. rewrite (leb_val _ _ Fv Fp).
    set (p := val (fmul f m scale)) in *.
    assert (Ed : Rabs (p - m0 * val scale) <= Rabs (val scale) * e + u * (Rabs (val scale) * (Rabs m0 + e)) + t).
    { replace (p - m0 * val scale) with ((p - val m * val scale) + (val m - m0) * val scale) by ring.
      eapply Rle_trans; [apply Rabs_triang|]. rewrite (Rabs_mult (val m - m0)).
      assert (Rabs (val m - m0) * Rabs (val scale) <= Rabs (val scale) * e) by (rewrite Rmult_comm; apply Rmult_le_compat_l; auto).
      assert (u * Rabs (val m * val scale) <= u * (Rabs (val scale) * (Rabs m0 + e))) by (apply Rmult_le_compat_l; lra).
      lra. }
    apply Rabs_le_inv in Ed. destruct (Rle_lt_dec 0 (val v - m0 * val scale)) as [Q|Q];
      [rewrite (Rabs_pos_eq (val v - m0 * val scale) Q) in T|rewrite (Rabs_left (val v - m0 * val scale) Q) in T]; split; lra.
  - assert (Pv : Rabs (val v * val scale) <= B) by (rewrite Rabs_mult, Rmult_comm; exact HB').
    destruct (mul_near v scale B Fv Fs Pv H) as [Fp Ep]. rewrite (ltb_val _ _ Fm Fp). set (p := val (fmul f v scale)) in *.
    apply Rabs_le_inv in Hm. apply Rabs_le_inv in Ep. destruct (Rle_lt_dec 0 (val v * val scale - m0)) as [Q|Q];
      [rewrite (Rabs_pos_eq (val v * val scale - m0) Q) in T|rewrite (Rabs_left (val v * val scale - m0) Q) in T]; split; lra.
Qed.
End C.

(** ** The filter *)
Section Top.
Variable f : fty.
Hypothesis St : standard f.
Context {D : Type} (O : dops D).
Notation zero := (S754_zero false).

Lemma local_mean_float (width : clen D) down (scale : spec_float) n r M (g : gray spec_float) (out : gray Z) (s1 s2 : gray spec_float) :
  clen_computeI O width (d_of O (Z.min (g_width g) (g_height g))) = Ok n -> r = (n / 2)%Z -> (0 < r)%Z -> (2 * r + 1 <= 1073741824)%Z ->
  wf g -> wf out -> wf s1 -> wf s2 -> g_sub s1 = false -> g_sub s2 = false ->
  g_sub out = false \/ (g_width out = g_width g /\ g_height out = g_height g) ->
  (0 < g_width g <= 1073741824)%Z -> (0 < g_height g <= 1073741824)%Z ->
  (zlen (g_data g) < 2147483648)%Z -> (zlen (g_data s2) < 2147483648)%Z -> (g_width g * (g_height g + 1) <= 4294967296)%Z ->
  (g_width g < 2 * r + 1 \/ 2 * r + 1 <= g_height g)%Z ->
  finite f scale -> bounded_numbers f g M -> safe_line f r M (g_width g) ->
  safe_line f r (M + longest_error f r M (g_width g)) (g_height g) ->
  2 * (Rabs (val scale) * (M + blur_error f r M g)) + 1 < huge f ->
  exists o out' s1' s2', gray_reshape 0%Z out (g_width g) (g_height g) = Ok o /\
    local_mean O (float_narith f) (float_marith f) zero (mean_coefficient f) (float_lcmp f scale) width down g out s1 s2
      = Ok (out', (s1', s2')) /\
    g_width out' = g_width g /\ g_height out' = g_height g /\ same_layout o out' /\
    (forall j, outside_window o j -> znth (g_data out') j = znth (g_data o) j) /\
    (forall x y, inside g x y -> exists v b, pixel g x y = Some v /\ pixel out' x y = Some b /\ (b = 0%Z \/ b = 1%Z) /\
       let m := average (square g r x y) in
       tipping f down (val scale) (val v) m (blur_error f r M g) < clearance down (val scale) (val v) m ->
       (b = 1%Z <-> is_set down (val scale) (val v) m)) /\
    wf s1' /\ wf s2' /\ g_sub s1' = false /\ g_sub s2' = false.
Proof.
  intros En Er Hr Hk Hg Ho W1 W2 S1 S2 Hsub Hw Hh Bl Bk Hfit Hsh Fs Hb Sa Sb Hs.
  destruct (reshape_for 0%Z g out Hg Ho Hsub) as (o & Eo & Wo & Ow & Oh).
  destruct (reshape_for zero g s1 Hg W1 (or_introl S1)) as (m & Em & Wm & Mw & Mh).
  destruct (reshape_for zero g s2 Hg W2 (or_introl S2)) as (w & Ew & Ww & Wkw & Wkh).
  pose proof (reshape_owned _ _ _ _ _ S1 Em) as Sm. pose proof (reshape_owned _ _ _ _ _ S2 Ew) as Sw.
  assert (Bk' : (zlen (g_data w) < 2147483648)%Z).
  { pose proof (reshape_len zero s2 (g_width g) (g_height g) w ltac:(lia) ltac:(lia) Ew).
    assert (g_width g * g_height g <= zlen (g_data g))%Z by (unfold wf in Hg; nia). lia. }
  destruct (blur_mean_float f St r M g m w Hr Hk Hg Wm Ww Hw Hh Bl Bk' (or_introl Sm) (or_introl (conj Sw Hfit)) Hsh Hb Sa Sb)
    as (m0 & w0 & m' & w' & E1 & E2 & E3 & Lw & A1 & A2 & Lm & A3).
  rewrite reshape_same in E1, E2 by auto. assert (m0 = m) as -> by congruence. assert (w0 = w) as -> by congruence.
  assert (Wm' : wf m') by (eapply wf_layout; [exact (proj1 Lm)|auto]). assert (Ww' : wf w') by (eapply wf_layout; [exact (proj1 Lw)|auto]).
  destruct (compare_loop (fun v u => if down then lc_le (float_lcmp f scale) v u else lc_gt (float_lcmp f scale) v u) g m' o)
    as (d & Ed & Hd); auto.
  exists o, (with_data o d), m', w'. split; [exact Eo|]. split.
  { unfold local_mean. rewrite Eo, Em, Ew. cbn [bind]. unfold local_radius. rewrite En. cbn [bind].
    assert (Rn : (u32 n / 2 = r)%Z).
    { unfold u32. assert (0 <= n)%Z by (destruct (Z.leb_spec 0 n); [auto|]; subst r; pose proof (Z.div_lt_upper_bound n 2 0); lia).
      rewrite Z.mod_small; [auto|]. pose proof (Z.div_mod n 2). pose proof (Z.mod_pos_bound n 2). lia. }
    rewrite Rn. replace (u32 (r * 2 + 1)) with (2 * r + 1)%Z by (rewrite u32_id; lia).
    rewrite E3. cbn [bind]. cbn zeta in Ed |- *. rewrite Ed. reflexivity. }
  destruct Hd as (D1 & D2 & D3 & D4 & D5). split; auto. split; auto. split; auto. split; auto. split.
  { intros x y I. destruct (pixel_exists g x y Hg I) as (v & P). destruct (A3 x y I) as (u & P' & Fu & Eu).
    exists v. eexists. split; auto. rewrite D4, P, P' by auto. split; [reflexivity|].
    assert (I0 := I). destruct I0 as [Ix Iy].
    rewrite square_mean in Eu by (auto; lia). fold (blur_error f r M g) in Eu.
    set (q := average (square g r x y)) in *.
    assert (Bq : Rabs q <= M) by (apply (square_bound f); auto; lia).
    destruct (Hb x y v I P) as [Fv Bv].
    assert (e0 : 0 <= blur_error f r M g) by (eapply Rle_trans; [apply Rabs_pos|exact Eu]).
    pose proof (Rabs_pos (val scale)) as S0.
    split; [destruct (if down then _ else _); auto|]. cbn zeta. intros T.
    rewrite <- (decision f St down scale v u q (blur_error f r M g) (Rabs (val scale) * (M + blur_error f r M g)));
      auto; try (apply Rmult_le_compat_l; lra).
    destruct (if down then _ else _); split; auto; discriminate. }
  split; auto. split; auto.
  destruct Lm as [(_ & _ & _ & _ & X & _) _]. destruct Lw as [(_ & _ & _ & _ & Y & _) _]. rewrite X, Y. auto.
Qed.
End Top.

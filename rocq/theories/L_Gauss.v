(** Gaussian kernels over exact real numbers. *)
From Coq Require Import Reals Lra.
From Flocq Require Import Core.
From Verif Require Import Base BaseFacts M_Image M_Convolve M_Otsu M_Config M_Kernel S_Stats S_Kernel L_Kernel.
Open Scope Z_scope.

(** ** sigma and radius *)
Lemma Rle_true a b : (a <= b)%R -> d_le reals a b = true.
Proof. intros H. cbn. destruct (Rle_dec a b); auto; lra. Qed.
Lemma Rle_false a b : (b < a)%R -> d_le reals a b = false.
Proof. intros H. cbn. destruct (Rle_dec a b); auto; lra. Qed.
Lemma Rlt_true a b : (a < b)%R -> d_lt reals a b = true.
Proof. intros H. cbn. destruct (Rlt_dec a b); auto; lra. Qed.
Lemma Rlt_false a b : (b <= a)%R -> d_lt reals a b = false.
Proof. intros H. cbn. destruct (Rlt_dec a b); auto; lra. Qed.

Lemma spread_real order : spread_factor reals order = (5 + 4 / 5 * IZR order)%R.
Proof. reflexivity. Qed.

Lemma spread_pos order : -6 <= order -> (0 < 5 + 4 / 5 * IZR order)%R.
Proof. intros H. apply IZR_le in H. lra. Qed.

Lemma sigma_real radius order : (0 < radius)%R ->
  sigmaForRadius reals radius order = Ok ((radius * 2 + 1) / (5 + 4 / 5 * IZR order))%R.
Proof. intros H. unfold sigmaForRadius. rewrite Rle_false by (cbn; lra). reflexivity. Qed.
Lemma sigma_throw radius order : (radius <= 0)%R -> sigmaForRadius reals radius order = Throw.
Proof. intros H. unfold sigmaForRadius. rewrite Rle_true by (cbn; lra). reflexivity. Qed.

Lemma radius_real sigma order : (0 < sigma)%R ->
  let z := Zceil (((5 + 4 / 5 * IZR order) * sigma - 1) / 2) in
  -2147483648 <= z <= 2147483647 -> radiusForSigma reals real_ceil sigma order = Ok z.
Proof.
  intros H z Hz. unfold radiusForSigma. rewrite Rle_false by (cbn; lra). unfold real_ceil.
  rewrite spread_real.
  change (d_sub reals (d_mul reals (5 + 4 / 5 * IZR order)%R sigma) (d_of reals 1)) with ((5 + 4 / 5 * IZR order) * sigma - 1)%R.
  change (d_div reals ((5 + 4 / 5 * IZR order) * sigma - 1)%R (d_of reals 2)) with (((5 + 4 / 5 * IZR order) * sigma - 1) / 2)%R.
  fold z.
  destruct (Z.leb_spec (ity_min S32) z) as [_|A]; [|change (ity_min S32) with (-2147483648) in A; lia].
  destruct (Z.leb_spec z (ity_max S32)) as [_|A]; [|change (ity_max S32) with 2147483647 in A; lia]. reflexivity.
Qed.
Lemma radius_overflow sigma order : (0 < sigma)%R -> 2147483647 < Zceil (((5 + 4 / 5 * IZR order) * sigma - 1) / 2) ->
  radiusForSigma reals real_ceil sigma order = Undef.
Proof.
  intros H Hz. unfold radiusForSigma. rewrite Rle_false by (cbn; lra). unfold real_ceil.
  rewrite spread_real.
  change (d_sub reals (d_mul reals (5 + 4 / 5 * IZR order)%R sigma) (d_of reals 1)) with ((5 + 4 / 5 * IZR order) * sigma - 1)%R.
  change (d_div reals ((5 + 4 / 5 * IZR order) * sigma - 1)%R (d_of reals 2)) with (((5 + 4 / 5 * IZR order) * sigma - 1) / 2)%R.
  set (z := Zceil _) in *. change (ity_max S32) with 2147483647. replace (z <=? 2147483647) with false by lia. now rewrite andb_false_r.
Qed.
Lemma radius_throw sigma order ce : (sigma <= 0)%R -> radiusForSigma reals ce sigma order = Throw.
Proof. intros H. unfold radiusForSigma. rewrite Rle_true by (cbn; lra). reflexivity. Qed.

(** For a radius that is not an integer the next integer comes back. *)
Lemma round_trip radius order : (0 < radius <= 2147483647)%R -> -6 <= order ->
  exists s, sigmaForRadius reals radius order = Ok s /\ (0 < s)%R /\
    radiusForSigma reals real_ceil s order = Ok (Zceil radius).
Proof.
  intros H Ho. apply spread_pos in Ho.
  exists ((radius * 2 + 1) / (5 + 4 / 5 * IZR order))%R. split; [apply sigma_real; lra|].
  assert (P : (0 < (radius * 2 + 1) / (5 + 4 / 5 * IZR order))%R) by (apply Rdiv_lt_0_compat; lra).
  split; auto.
  assert (E : (((5 + 4 / 5 * IZR order) * ((radius * 2 + 1) / (5 + 4 / 5 * IZR order)) - 1) / 2 = radius)%R)
    by (field; lra).
  rewrite radius_real; rewrite ?E; auto.
  split.
  - apply Z.le_trans with 0; [lia|]. apply le_IZR. pose proof (Zceil_ub radius). lra.
  - apply Zceil_glb. lra.
Qed.
Lemma round_trip_int r order : 0 < r <= 2147483647 -> -6 <= order ->
  exists s, sigmaForRadius reals (IZR r) order = Ok s /\ (0 < s)%R /\ radiusForSigma reals real_ceil s order = Ok r.
Proof.
  intros H Ho. destruct (round_trip (IZR r) order) as (s & A & B & C); auto.
  - destruct H. split; [apply IZR_lt; auto|apply IZR_le; auto].
  - exists s. rewrite Zceil_IZR in C. auto.
Qed.

(** ** The width and sigma used *)
Lemma chosen_pos sigma width s w : chosen sigma width s w -> (0 < s)%R /\ 0 < w.
Proof.
  intros [(A & -> & B)|(A & B & -> & ->)].
  - split; auto. destruct B as [(B & ->)|(B & ->)]; auto.
    assert (-1 < Zceil ((5 * sigma - 1) / 2)); [|lia].
    apply lt_IZR. pose proof (Zceil_ub ((5 * sigma - 1) / 2)). lra.
  - split; [|lia]. assert (0 <= IZR (width / 2))%R by (apply IZR_le, Z.div_pos; lia).
    apply Rdiv_lt_0_compat; lra.
Qed.

Lemma size_chosen sigma width s w : chosen sigma width s w -> w <= 2147483647 ->
  gaussian_size reals real_ceil sigma width = Ok (s, w).
Proof.
  intros C Hw. pose proof (chosen_pos _ _ _ _ C) as (Ps & Pw). unfold gaussian_size.
  destruct C as [(A & -> & B)|(A & B & -> & ->)].
  - destruct (Z.leb_spec width 0) as [L|L].
    + destruct B as [(B & _)|(_ & ->)]; [lia|].
      assert (E : ((5 + 4 / 5 * 0) * sigma - 1)%R = (5 * sigma - 1)%R) by lra.
      rewrite radius_real by (auto; rewrite E; lia). rewrite E. cbn [bind].
      unfold arith_result. cbn [ity_signed]. set (z := Zceil _) in *.
      destruct (Z.leb_spec (ity_min S32) (z * 2 + 1)) as [_|X]; [|change (ity_min S32) with (-2147483648) in X; lia].
      destruct (Z.leb_spec (z * 2 + 1) (ity_max S32)) as [_|X]; [|change (ity_max S32) with 2147483647 in X; lia].
      cbn. do 2 f_equal. lia.
    + destruct B as [(_ & ->)|(B & _)]; [|lia]. rewrite Rle_false by (cbn; lra). reflexivity.
  - destruct (Z.leb_spec width 0); [lia|]. rewrite Rle_true by (cbn; lra).
    assert (0 < IZR (width / 2))%R.
    { apply IZR_lt. assert (1 <= width / 2); [|lia]. apply Z.div_le_lower_bound; lia. }
    rewrite sigma_real by (cbn; lra). cbn. do 2 f_equal. field.
Qed.

(** ** gaussian1D *)
Lemma bell_pos s x : (0 < bell s x)%R.
Proof. apply exp_pos. Qed.
Lemma bell_sum_pos s w : 0 < w -> (0 < rsum (table w (fun j => bell s (place w j))))%R.
Proof.
  intros H. apply rsum_pos.
  - intros E. assert (L : zlen (table w (fun j => bell s (place w j))) = 0) by (now rewrite E).
    rewrite table_zlen in L; lia.
  - intros v I. apply table_In in I as (i & _ & <-). apply bell_pos.
Qed.

Lemma pdf_place s w i : (0 < s)%R ->
  computePDF reals exp (d_of reals 0) s
    (d_add reals (d_of reals (i - w / 2)) (if w mod 2 =? 1 then d_of reals 0 else d_half reals)) =
  (bell s (place w i) / (s * sqrt_2_pi reals))%R.
Proof.
  intros H. unfold computePDF, bell.
  assert (P : d_sub reals (d_add reals (d_of reals (i - w / 2)) (if w mod 2 =? 1 then d_of reals 0 else d_half reals)) (d_of reals 0)
     = place w i).
  { unfold place. pose proof (Z.div_mod w 2 ltac:(lia)) as D. pose proof (Z.mod_pos_bound w 2 ltac:(lia)).
    apply (f_equal IZR) in D. rewrite plus_IZR, mult_IZR in D.
    destruct (Z.eqb_spec (w mod 2) 1) as [E|E]; cbn.
    - rewrite E in D. rewrite minus_IZR. lra.
    - replace (w mod 2) with 0 in D by lia. unfold d_half; cbn. rewrite minus_IZR. lra. }
  rewrite P. cbn. do 2 f_equal. field. lra.
Qed.

Lemma sqrt_2_pi_pos : (0 < sqrt_2_pi reals)%R.
Proof. unfold sqrt_2_pi. cbn. lra. Qed.

Lemma gaussian_raw s w K : (0 < s)%R -> 0 < w -> kernel1_width 0%R w = Ok K ->
  for_range 0 w (fun i K =>
    k_put K i ((fun x => x) (computePDF reals exp (d_of reals 0) s
      (d_add reals (d_of reals (i - w / 2)) (if w mod 2 =? 1 then d_of reals 0 else d_half reals))))) K =
  Ok (mkKernel w (w / 2) (table w (fun i => bell s (place w i) / (s * sqrt_2_pi reals))%R)).
Proof.
  intros Hs Hw E. unfold kernel1_width, kernel1_new in E.
  destruct (Z.leb_spec w (w / 2)); [discriminate|]. injection E as <-. rewrite table_repeat.
  apply fill_all; [apply table_zlen; lia|].
  intros i e Hi Le _. rewrite pdf_place by auto. apply put_in. lia.
Qed.
Lemma half_lt w : 0 < w -> 0 <= w / 2 < w.
Proof. intros H. split; [apply Z.div_pos; lia|apply Z.div_lt; lia]. Qed.
Lemma kernel1_width_ok {S} (z : S) w : 0 < w -> kernel1_width z w = Ok (mkKernel w (w / 2) (repeat z (Z.to_nat w))).
Proof.
  intros H. unfold kernel1_width, kernel1_new. destruct (Z.leb_spec w (w / 2)); auto.
  pose proof (half_lt w H). lia.
Qed.
Lemma kernel1_width_throw {S} (z : S) : kernel1_width z 0 = Throw.
Proof. reflexivity. Qed.

Lemma gaussian1D_ok sigma width s w : chosen sigma width s w -> w <= 2147483647 ->
  gaussian1D reals reals (fun x => x) exp real_ceil sigma width = Ok (mkKernel w (w / 2) (table w (gauss_coef s w))).
Proof.
  intros C Hw. pose proof (chosen_pos _ _ _ _ C) as (Ps & Pw).
  unfold gaussian1D. rewrite (size_chosen _ _ _ _ C) by auto. cbn [bind].
  change (d_of reals 0) with 0%R at 1.
  rewrite (kernel1_width_ok _ w Pw). cbn [bind].
  rewrite gaussian_raw by (auto; now apply kernel1_width_ok). cbn [bind].
  rewrite normalize_real by (apply table_zlen; lia). do 2 f_equal.
  rewrite table_map. apply table_ext. intros i Hi. unfold gauss_coef.
  rewrite <- (table_map w (fun j => bell s (place w j)) (fun v => (v / (s * sqrt_2_pi reals))%R)), rsum_div.
  pose proof (bell_sum_pos s w Pw). pose proof sqrt_2_pi_pos. field. repeat split; lra.
Qed.

Lemma gaussian1D_throw sigma width : (sigma <= 0)%R -> width <= 1 ->
  gaussian1D reals reals (fun x => x) exp real_ceil sigma width = Throw.
Proof.
  intros H W. unfold gaussian1D, gaussian_size. destruct (Z.leb_spec width 0).
  - rewrite radius_throw by auto. reflexivity.
  - replace width with 1 by lia. rewrite Rle_true by (cbn; lra). rewrite sigma_throw; [reflexivity|].
    change (d_of reals (1 / 2)) with 0%R. lra.
Qed.

(** ** Shape of the coefficients *)
Lemma gauss_sum s w : 0 < w -> rsum (table w (gauss_coef s w)) = 1%R.
Proof.
  intros H. unfold gauss_coef.
  rewrite <- (table_map w (fun j => bell s (place w j)) (fun v => (v / rsum (table w (fun j => bell s (place w j))))%R)).
  rewrite rsum_div. pose proof (bell_sum_pos s w H). field. lra.
Qed.
Lemma gauss_pos s w i : 0 < w -> (0 < gauss_coef s w i)%R.
Proof. intros H. apply Rdiv_lt_0_compat; [apply bell_pos|now apply bell_sum_pos]. Qed.
Lemma place_sym w i : place w (w - 1 - i) = (- place w i)%R.
Proof. unfold place. rewrite !minus_IZR. lra. Qed.
Lemma gauss_sym s w i : gauss_coef s w (w - 1 - i) = gauss_coef s w i.
Proof. unfold gauss_coef. f_equal. rewrite place_sym. unfold bell. f_equal. f_equal. lra. Qed.
Lemma bell_le s x y : (0 < s)%R -> (x * x <= y * y)%R -> (bell s y <= bell s x)%R.
Proof.
  intros H L. unfold bell.
  assert (P : (0 < / (2 * (s * s)))%R) by (apply Rinv_0_lt_compat; nra).
  assert (D : (- (y * y) / (2 * (s * s)) <= - (x * x) / (2 * (s * s)))%R).
  { unfold Rdiv. apply Rmult_le_compat_r; lra. }
  destruct D as [D|D]; [left; now apply exp_increasing|right; now rewrite D].
Qed.
Lemma bell_lt s x y : (0 < s)%R -> (x * x < y * y)%R -> (bell s y < bell s x)%R.
Proof.
  intros H L. unfold bell. apply exp_increasing.
  assert (P : (0 < / (2 * (s * s)))%R) by (apply Rinv_0_lt_compat; nra).
  unfold Rdiv. apply Rmult_lt_compat_r; lra.
Qed.
Lemma gauss_le s w i j : (0 < s)%R -> 0 < w -> Z.abs (2 * i - (w - 1)) <= Z.abs (2 * j - (w - 1)) ->
  (gauss_coef s w j <= gauss_coef s w i)%R.
Proof.
  intros Hs Hw L. unfold gauss_coef, Rdiv. apply Rmult_le_compat_r.
  - left. apply Rinv_0_lt_compat. now apply bell_sum_pos.
  - apply bell_le; auto. unfold place.
    assert (X : (IZR (2 * i - (w - 1)) * IZR (2 * i - (w - 1)) <= IZR (2 * j - (w - 1)) * IZR (2 * j - (w - 1)))%R).
    { rewrite <- !mult_IZR. apply IZR_le. rewrite <- (Z.abs_square (2 * i - (w - 1))), <- (Z.abs_square (2 * j - (w - 1))).
      apply Z.mul_le_mono_nonneg; lia. }
    rewrite !minus_IZR, !mult_IZR in X. nra.
Qed.
Lemma gauss_lt s w i j : (0 < s)%R -> 0 < w -> Z.abs (2 * i - (w - 1)) < Z.abs (2 * j - (w - 1)) ->
  (gauss_coef s w j < gauss_coef s w i)%R.
Proof.
  intros Hs Hw L. unfold gauss_coef, Rdiv. apply Rmult_lt_compat_r.
  - apply Rinv_0_lt_compat. now apply bell_sum_pos.
  - apply bell_lt; auto. unfold place.
    assert (X : (IZR (2 * i - (w - 1)) * IZR (2 * i - (w - 1)) < IZR (2 * j - (w - 1)) * IZR (2 * j - (w - 1)))%R).
    { rewrite <- !mult_IZR. apply IZR_lt. rewrite <- (Z.abs_square (2 * i - (w - 1))), <- (Z.abs_square (2 * j - (w - 1))).
      apply Z.mul_lt_mono_nonneg; lia. }
    rewrite !minus_IZR, !mult_IZR in X. nra.
Qed.

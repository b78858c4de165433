(** Accuracy of normalized convolution and Gaussian blur of float and double images: C105, C106. *)
From Coq Require Import Reals Lia Lra.
From Coq Require Import Floats.SpecFloat.
From Flocq Require Import Core BinarySingleNaN.
From Verif Require Import Base BaseFacts M_Image S_Image M_Convolve S_Convolve M_Normalized M_Blur M_Float S_Ieee.
From Verif Require Import S_FConv S_FNorm L_Ieee L_PointF L_FNorm.

(** C105.  Every pixel is the exact weighted mean of the pixels under the kernel, up to a bound that depends only on the
    number of coefficients, the magnitude of the pixels and the weight inside the image. *)
Theorem C105_horizontal : forall f, standard f ->
  forall (K : kernel spec_float) (g out : gray spec_float) (M : R),
  wf g -> wf out -> kernel1_ok K -> g_width out = g_width g -> g_height out = g_height g ->
  0 < g_width g <= 1073741824 -> 0 < g_height g <= 1073741824 -> zlen (g_data g) < 2147483648 ->
  nonneg_numbers f (k_data K) -> bounded_numbers f g M -> few f (length (k_data K)) ->
  (forall x, 0 <= x < g_width g -> safe_mean f (length (k_data K)) M (line_weight K (g_width g) x)) ->
  exists out', normalized_h (float_narith f) K g out = Ok out' /\
    approximates f g out out' (row_mean K g) (fun x y => mean_error f (length (k_data K)) M (line_weight K (g_width g) x)).
Proof. exact fnorm_h. Qed.
Print Assumptions C105_horizontal.
Theorem C105_vertical : forall f, standard f ->
  forall (K : kernel spec_float) (g out : gray spec_float) (M : R),
  wf g -> wf out -> kernel1_ok K -> g_width out = g_width g -> g_height out = g_height g ->
  0 < g_width g <= 1073741824 -> 0 < g_height g <= 1073741824 -> zlen (g_data g) < 2147483648 ->
  nonneg_numbers f (k_data K) -> bounded_numbers f g M -> few f (length (k_data K)) ->
  (forall y, 0 <= y < g_height g -> safe_mean f (length (k_data K)) M (line_weight K (g_height g) y)) ->
  exists out', normalized_v (float_narith f) K g out = Ok out' /\
    approximates f g out out' (col_mean K g) (fun x y => mean_error f (length (k_data K)) M (line_weight K (g_height g) y)).
Proof. exact fnorm_v. Qed.
Print Assumptions C105_vertical.

(** C106.  Both passes, as [convolve] and the Gaussian blur run them. *)
Theorem C106_convolve : forall f, standard f ->
  forall (K : kernel spec_float) (g out work : gray spec_float) (M w0 w1 : R),
  wf g -> wf out -> wf work -> kernel1_ok K ->
  g_sub out = false \/ (g_width out = g_width g /\ g_height out = g_height g) ->
  g_sub work = false \/ (g_width work = g_width g /\ g_height work = g_height g) ->
  0 < g_width g <= 1073741824 -> 0 < g_height g <= 1073741824 ->
  zlen (g_data g) < 2147483648 -> zlen (g_data work) < 2147483648 ->
  nonneg_numbers f (k_data K) -> bounded_numbers f g M -> few f (length (k_data K)) ->
  line_weights K (g_width g) w0 w1 -> line_weights K (g_height g) w0 w1 ->
  safe_passes f (length (k_data K)) M w0 w1 ->
  exists o w out' work', gray_reshape (S754_zero false) out (g_width g) (g_height g) = Ok o /\
    gray_reshape (S754_zero false) work (g_width g) (g_height g) = Ok w /\
    normalized_2 (float_narith f) (S754_zero false) K g out work = Ok (out', work') /\
    leaves w work' /\ approximates f g o out' (both_mean K g) (fun _ _ => two_pass_error f (length (k_data K)) M w0).
Proof. exact fnorm_2. Qed.
Print Assumptions C106_convolve.
Theorem C106_gaussian : forall f, standard f ->
  forall (K : kernel spec_float) (g out work : gray spec_float) (M w0 w1 : R),
  wf g -> wf out -> wf work -> kernel1_ok K ->
  g_sub out = false \/ (g_width out = g_width g /\ g_height out = g_height g) ->
  g_sub work = false \/ (g_width work = g_width g /\ g_height work = g_height g) ->
  0 < g_width g <= 1073741824 -> 0 < g_height g <= 1073741824 ->
  zlen (g_data g) < 2147483648 -> zlen (g_data work) < 2147483648 ->
  nonneg_numbers f (k_data K) -> bounded_numbers f g M -> few f (length (k_data K)) ->
  line_weights K (g_width g) w0 w1 -> line_weights K (g_height g) w0 w1 ->
  safe_passes f (length (k_data K)) M w0 w1 ->
  exists o w out' work', gray_reshape (S754_zero false) out (g_width g) (g_height g) = Ok o /\
    gray_reshape (S754_zero false) work (g_width g) (g_height g) = Ok w /\
    blur_gaussian (float_narith f) (S754_zero false) K g out work = Ok (out', work') /\
    leaves w work' /\ approximates f g o out' (both_mean K g) (fun _ _ => two_pass_error f (length (k_data K)) M w0).
Proof. exact fgauss. Qed.
Print Assumptions C106_gaussian.

(** A 3x2 image and the kernel 1 2 1. *)
Definition z32 (z : Z) : spec_float := float_of_Z F32 z.
Lemma z32_ok z : Z.abs z <= 16777216 -> finite F32 (z32 z) /\ val (z32 z) = IZR z.
Proof. intros H. exact (float_of_Z_exact F32 (standard_wfty F32 (or_introl eq_refl)) z H). Qed.
Definition eg : gray spec_float := mkGray 3 2 1 4 true (map z32 [9; 10; 20; 30; 9; 40; 50; 60]).
Definition eo : gray spec_float := mkGray 3 2 0 3 false (map z32 [0; 0; 0; 0; 0; 0]).
Definition ek : kernel spec_float := mkKernel 3 1 [z32 1; z32 2; z32 1].
Lemma eg_wf : wf eg.
Proof. unfold wf; cbn; unfold zlen; cbn [length]; repeat split; try lia; intros; discriminate. Qed.
Lemma eo_wf : wf eo.
Proof. unfold wf; cbn; unfold zlen; cbn [length]; repeat split; lia. Qed.
Lemma ek_num : nonneg_numbers F32 (k_data ek).
Proof.
  intros c [<-|[<-|[<-|[]]]]; split; try (apply z32_ok; lia).
  - rewrite (proj2 (z32_ok 1 ltac:(lia))). lra.
  - rewrite (proj2 (z32_ok 2 ltac:(lia))). lra.
  - rewrite (proj2 (z32_ok 1 ltac:(lia))). lra.
Qed.
Lemma eg_num : bounded_numbers F32 eg 60.
Proof.
  assert (A : forall z, 0 <= z <= 60 -> finite F32 (z32 z) /\ (Rabs (val (z32 z)) <= 60)%R).
  { intros z Hz. destruct (z32_ok z ltac:(lia)) as [F V]. split; auto. rewrite V. rewrite <- abs_IZR. apply IZR_le. lia. }
  intros x y p _ P. unfold pixel in P. destruct (_ && _); [|discriminate]. apply znth_In in P.
  apply in_map_iff in P as (z & <- & Hz). apply A. cbn in Hz. lia.
Qed.
Lemma ek_few : few F32 (length (k_data ek)).
Proof. unfold few. destruct (unit_small F32 (or_introl eq_refl)) as [_ U]. cbn [ek k_data length INR]. lra. Qed.
Lemma ek_weights n : 2 <= n <= 3 -> line_weights ek n 3 4.
Proof.
  intros Hn x Hx. unfold line_weight, ek. cbn [k_data k_offset rweight].
  rewrite (proj2 (z32_ok 1 ltac:(lia))), (proj2 (z32_ok 2 ltac:(lia))).
  cbn zeta.
  destruct (_ && _) eqn:C1; destruct ((0 <=? x - 1 + (0 + 1)) && _) eqn:C2; destruct ((0 <=? x - 1 + (0 + 1 + 1)) && _) eqn:C3;
    try lra; exfalso; lia.
Qed.
Lemma ek_safe M : (0 <= M <= 100)%R -> forall w0 w1, (3 <= w0 <= w1)%R -> (w1 <= 4)%R -> safe_passes F32 (length (k_data ek)) M w0 w1.
Proof.
  intros HM w0 w1 H1 H2. unfold safe_passes, mean_error. cbn [ek k_data length INR].
  destruct (unit_small F32 (or_introl eq_refl)) as [U0 U]. destruct (tiny_small F32 (or_introl eq_refl)) as [T0 T].
  pose proof (huge_big F32 (or_introl eq_refl)) as H.
  set (u := unit_error F32) in *. set (t := tiny_error F32) in *.
  assert (I0 : (0 < / w0)%R) by (apply Rinv_0_lt_compat; lra).
  assert (I1 : (/ w0 <= / 3)%R) by (apply Rinv_le_contravar; lra).
  unfold Rdiv. set (v := (/ w0)%R) in *.
  assert (B1 : (0 <= (6 * (1 + 1 + 1) + 4) * u * M <= 1)%R) by (split; [apply Rmult_le_pos; nra|nra]).
  assert (B2 : (0 <= (2 * (1 + 1 + 1) * v + 1) * t <= 1)%R) by (split; [apply Rmult_le_pos; nra|nra]).
  set (a := ((6 * (1 + 1 + 1) + 4) * u * M)%R) in *. set (b := ((2 * (1 + 1 + 1) * v + 1) * t)%R) in *.
  split; [lra|]. split; [lra|]. split; [|lra].
  assert ((M + (a + b)) * w1 <= 102 * 4)%R by (apply Rmult_le_compat; lra). lra.
Qed.
Example C105_example : wf eg /\ kernel1_ok ek /\ nonneg_numbers F32 (k_data ek) /\ bounded_numbers F32 eg 60 /\
  few F32 (length (k_data ek)) /\
  (forall x, 0 <= x < g_width eg -> safe_mean F32 (length (k_data ek)) 60 (line_weight ek (g_width eg) x)) /\
  row_mean ek eg 0 0 = (40 / 3)%R /\
  exists out' v, normalized_h (float_narith F32) ek eg eo = Ok out' /\ pixel out' 0 0 = Some v /\
    Rabs (val v - 40 / 3) = (/ 3 * / 1048576)%R.
Proof.
  split; [exact eg_wf|]. split; [unfold kernel1_ok; cbn; unfold zlen; cbn [length]; lia|].
  split; [exact ek_num|]. split; [exact eg_num|]. split; [exact ek_few|].
  split.
  { intros x Hx. pose proof (ek_weights 3 ltac:(lia) x Hx) as B. cbn [eg g_width] in *.
    destruct (ek_safe 60 ltac:(lra) (line_weight ek 3 x) (line_weight ek 3 x)) as (S1 & S2 & S3 & S4); try lra.
    assert (E : (0 <= mean_error F32 (length (k_data ek)) 60 (line_weight ek 3 x))%R) by (apply first_error_pos; lra).
    split; [lra|]. split; [lra|]. split.
    - eapply Rle_lt_trans; [|exact S3]. apply Rmult_le_compat_l; [lra|]. apply Rplus_le_compat_r. apply Rmult_le_compat_r; lra.
    - eapply Rle_lt_trans; [|exact S4]. lra. }
  split.
  { unfold row_mean, rmean, ek, rpixel. cbn [k_data k_offset rtotal rweight].
    change (pixel eg (0 - 1 + 0) 0) with (@None spec_float). change (pixel eg (0 - 1 + (0 + 1)) 0) with (Some (z32 10)).
    change (pixel eg (0 - 1 + (0 + 1 + 1)) 0) with (Some (z32 20)). cbn [option_map].
    rewrite (proj2 (z32_ok 1 ltac:(lia))), (proj2 (z32_ok 2 ltac:(lia))), (proj2 (z32_ok 10 ltac:(lia))),
      (proj2 (z32_ok 20 ltac:(lia))). lra. }
  eexists. exists (S754_finite false 13981013 (-20)).
  split; [vm_compute; reflexivity|]. split; [reflexivity|]. replace (val (S754_finite false 13981013 (-20))) with (13981013 / 1048576)%R.
  - rewrite Rabs_left; lra.
  - unfold val, SF2R, F2R. cbn [cond_Zopp Fnum Fexp]. unfold bpow. change (Z.pow_pos radix2 20) with 1048576. lra.
Qed.
Example C106_example : wf eg /\ wf eo /\ kernel1_ok ek /\ nonneg_numbers F32 (k_data ek) /\ bounded_numbers F32 eg 60 /\
  few F32 (length (k_data ek)) /\ line_weights ek (g_width eg) 3 4 /\ line_weights ek (g_height eg) 3 4 /\
  safe_passes F32 (length (k_data ek)) 60 3 4 /\
  (two_pass_error F32 (length (k_data ek)) 60 3 <= / 5000)%R.
Proof.
  split; [exact eg_wf|]. split; [exact eo_wf|]. split; [unfold kernel1_ok; cbn; unfold zlen; cbn [length]; lia|].
  split; [exact ek_num|]. split; [exact eg_num|]. split; [exact ek_few|].
  split; [apply ek_weights; cbn; lia|]. split; [apply ek_weights; cbn; lia|].
  split; [apply ek_safe; lra|].
  unfold two_pass_error, mean_error. cbn [ek k_data length INR].
  destruct (unit_small F32 (or_introl eq_refl)) as [U0 U]. destruct (tiny_small F32 (or_introl eq_refl)) as [T0 T].
  set (u := unit_error F32) in *. set (t := tiny_error F32) in *. nra.
Qed.

(** Constant images do not stay constant: seven equal coefficients, all pixels 8388610, one unit is lost. *)
Theorem C105_constant_refuted : exists (K : kernel spec_float) (g out out' : gray spec_float) v,
  kernel1_ok K /\ (forall c, In c (k_data K) -> val c = 1%R) /\ wf g /\ wf out /\
  (forall x y p, pixel g x y = Some p -> val p = 8388610%R) /\
  normalized_h (float_narith F32) K g out = Ok out' /\ pixel out' 3 0 = Some v /\ val v = 8388609%R.
Proof.
  exists (mkKernel 7 3 (repeat (z32 1) 7)), (mkGray 7 1 0 7 false (repeat (z32 8388610) 7)),
    (mkGray 7 1 0 7 false (repeat (z32 0) 7)), (mkGray 7 1 0 7 false
      [z32 8388610; z32 8388610; z32 8388609; z32 8388609; z32 8388609; z32 8388610; z32 8388610]), (z32 8388609).
  split; [unfold kernel1_ok; cbn; unfold zlen; cbn [length]; lia|].
  split; [intros c Hc; apply repeat_spec in Hc as ->; apply z32_ok; lia|].
  split; [unfold wf; cbn; unfold zlen; cbn [length]; repeat split; lia|].
  split; [unfold wf; cbn; unfold zlen; cbn [length]; repeat split; lia|].
  split.
  { intros x y p P. unfold pixel in P. destruct (_ && _); [|discriminate]. apply znth_In in P.
    apply repeat_spec in P as ->. apply z32_ok. lia. }
  split; [vm_compute; reflexivity|]. split; [reflexivity|]. apply z32_ok. lia.
Qed.
Print Assumptions C105_constant_refuted.

(** Accuracy of the mean filter on float and double images: C107. *)
From Coq Require Import Reals Lia Lra.
From Coq Require Import Floats.SpecFloat.
From Flocq Require Import Core BinarySingleNaN.
From Verif Require Import Base BaseFacts M_Image S_Image M_Convolve S_Convolve M_Normalized M_Blur M_Float S_Ieee.
From Verif Require Import S_FConv S_FNorm S_FBlur L_Ieee L_PointF L_FBlur.

(** C107.  The mean filter keeps a running total along the line.  Every pixel is the exact mean of the pixels in its window,
    up to a bound that grows with the position along the line. *)
Theorem C107_horizontal : forall f, standard f ->
  forall (r : Z) (M : R) (g out : gray spec_float),
  0 < r -> 2 * r + 1 <= 1073741824 -> wf g -> wf out -> g_width out = g_width g -> g_height out = g_height g ->
  0 < g_width g <= 1073741824 -> 0 < g_height g <= 1073741824 -> zlen (g_data g) < 2147483648 ->
  bounded_numbers f g M -> safe_line f r M (g_width g) ->
  exists out', mean_h (float_narith f) (float_marith f) (mean_coefficient f (2 * r + 1)) r g out = Ok out' /\
    approximates f g out out' (box_row g r) (fun x y => line_error f r M (g_width g) x).
Proof. exact mean_h_float. Qed.
Print Assumptions C107_horizontal.
Theorem C107_vertical : forall f, standard f ->
  forall (r : Z) (M : R) (g out : gray spec_float),
  0 < r -> 2 * r + 1 <= 1073741824 -> wf g -> wf out -> g_width out = g_width g -> g_height out = g_height g ->
  0 < g_width g <= 1073741824 -> 0 < g_height g <= 1073741824 -> zlen (g_data g) < 2147483648 ->
  bounded_numbers f g M ->
  g_width g < 2 * r + 1 \/ 2 * r + 1 <= g_height g ->
  g_offset g + g_width g + g_height g * g_stride g <= 4294967296 ->
  safe_line f r M (g_height g) ->
  exists out', mean_v (float_narith f) (float_marith f) (mean_coefficient f (2 * r + 1)) r g out = Ok out' /\
    approximates f g out out' (box_col g r) (fun x y => column_error f r M (g_width g) (g_height g) y).
Proof. exact mean_v_float. Qed.
Print Assumptions C107_vertical.
(** Both passes, as the mean blur runs them. *)
Theorem C107_blur : forall f, standard f ->
  forall (r : Z) (M : R) (g out work : gray spec_float),
  0 < r -> 2 * r + 1 <= 1073741824 -> wf g -> wf out -> wf work ->
  0 < g_width g <= 1073741824 -> 0 < g_height g <= 1073741824 ->
  zlen (g_data g) < 2147483648 -> zlen (g_data work) < 2147483648 ->
  g_sub out = false \/ (g_width out = g_width g /\ g_height out = g_height g) ->
  (g_sub work = false /\ g_width g * (g_height g + 1) <= 4294967296) \/
    (g_width work = g_width g /\ g_height work = g_height g /\
     g_offset work + g_width work + g_height work * g_stride work <= 4294967296) ->
  g_width g < 2 * r + 1 \/ 2 * r + 1 <= g_height g ->
  bounded_numbers f g M -> safe_line f r M (g_width g) ->
  safe_line f r (M + longest_error f r M (g_width g)) (g_height g) ->
  exists o w out' work', gray_reshape (S754_zero false) out (g_width g) (g_height g) = Ok o /\
    gray_reshape (S754_zero false) work (g_width g) (g_height g) = Ok w /\
    blur_mean (float_narith f) (float_marith f) (S754_zero false) (mean_coefficient f (2 * r + 1)) r g out work = Ok (out', work') /\
    leaves w work' /\ approximates f g o out' (box_both g r) (fun _ _ => longest_error f r M (g_width g) +
      longest_error f r (M + longest_error f r M (g_width g)) (g_height g))%R.
Proof. exact blur_mean_float. Qed.
Print Assumptions C107_blur.

(** A 4x3 view and radius 1. *)
Definition z32 (z : Z) : spec_float := float_of_Z F32 z.
Lemma z32_ok z : Z.abs z <= 16777216 -> finite F32 (z32 z) /\ val (z32 z) = IZR z.
Proof. intros H. exact (float_of_Z_exact F32 (standard_wfty F32 (or_introl eq_refl)) z H). Qed.
Definition eg : gray spec_float :=
  mkGray 4 3 1 5 true (map z32 [9; 10; 20; 30; 61; 9; 40; 50; 60; 62; 9; 70; 80; 90; 63]).
Definition eo : gray spec_float := mkGray 4 3 0 4 false (repeat (z32 0) 12).
Lemma eg_wf : wf eg.
Proof. unfold wf; cbn; unfold zlen; cbn [length]; repeat split; try lia; intros; discriminate. Qed.
Lemma eo_wf : wf eo.
Proof. unfold wf; cbn; unfold zlen; cbn [length]; repeat split; lia. Qed.
Lemma eg_num : bounded_numbers F32 eg 90.
Proof.
  assert (A : forall z, 0 <= z <= 90 -> finite F32 (z32 z) /\ (Rabs (val (z32 z)) <= 90)%R).
  { intros z Hz. destruct (z32_ok z ltac:(lia)) as [F V]. split; auto. rewrite V. rewrite <- abs_IZR. apply IZR_le. lia. }
  intros x y p _ P. unfold pixel in P. destruct (_ && _); [|discriminate]. apply znth_In in P.
  apply in_map_iff in P as (z & <- & Hz). apply A. cbn in Hz. lia.
Qed.
Lemma power_small n : (n <= 20)%nat -> (1 <= (1 + unit_error F32) ^ n <= 1 + / 1000)%R.
Proof.
  intros Hn. destruct (unit_small F32 (or_introl eq_refl)) as [U0 U]. split; [apply pow_R1_Rle; lra|].
  apply Rle_trans with ((1 + / 8388608) ^ 20)%R.
  - apply Rle_trans with ((1 + unit_error F32) ^ 20)%R; [apply Rle_pow; [lra|lia]|]. apply pow_incr. split; [lra|].
    apply Rplus_le_compat_l. change (unit_error F32) with (bpow radix2 (-24)). unfold bpow. change (Z.pow_pos radix2 24) with 16777216. lra.
  - lra.
Qed.
Lemma longest_small M n : (0 <= M <= 100)%R -> 0 <= n <= 8 -> (0 <= longest_error F32 1 M n <= 1)%R.
Proof.
  intros HM Hn. unfold longest_error, slide_error, end_error. cbn zeta. change (2 * 1 + 1) with 3.
  destruct (unit_small F32 (or_introl eq_refl)) as [U0 U]. destruct (tiny_small F32 (or_introl eq_refl)) as [T0 T].
  pose proof (power_small (Z.to_nat (2 * n + 2)) ltac:(lia)) as P. set (G := ((1 + unit_error F32) ^ _)%R) in *.
  set (u := unit_error F32) in *. set (t := tiny_error F32) in *.
  assert (A : (0 <= (G - 1) * M <= / 10)%R) by (split; [apply Rmult_le_pos; lra|nra]).
  assert (B : (0 <= (6 * 3 + 4) * u * M <= / 2)%R) by (split; [apply Rmult_le_pos; lra|nra]).
  split; [eapply Rle_trans; [|apply Rmax_l]; lra|]. apply Rmax_lub; lra.
Qed.
Lemma line_safe M n : (0 <= M <= 100)%R -> 0 <= n <= 8 -> safe_line F32 1 M n.
Proof.
  intros HM Hn. unfold safe_line, few. change (Z.to_nat (2 * 1 + 1)) with 3%nat. change (2 * 1 + 1) with 3.
  destruct (unit_small F32 (or_introl eq_refl)) as [U0 U]. pose proof (huge_big F32 (or_introl eq_refl)) as H.
  pose proof (power_small (Z.to_nat (2 * n)) ltac:(lia)) as P. cbn [INR].
  split; [lra|]. split; [lra|].
  assert (3 * M * (1 + unit_error F32) ^ Z.to_nat (2 * n) <= 300 * 2)%R by (apply Rmult_le_compat; lra). lra.
Qed.

Example C107_example : wf eg /\ wf eo /\ bounded_numbers F32 eg 90 /\ 2 * 1 + 1 <= g_height eg /\
  safe_line F32 1 90 (g_width eg) /\ safe_line F32 1 (90 + longest_error F32 1 90 (g_width eg)) (g_height eg) /\
  box_row eg 1 2 0 = 37%R /\
  exists out' v, mean_h (float_narith F32) (float_marith F32) (mean_coefficient F32 3) 1 eg eo = Ok out' /\
    pixel out' 2 0 = Some v /\ val v = 37%R.
Proof.
  split; [exact eg_wf|]. split; [exact eo_wf|]. split; [exact eg_num|]. split; [cbn; lia|].
  split; [apply line_safe; [lra|cbn; lia]|].
  split.
  { pose proof (longest_small 90 (g_width eg) ltac:(lra) ltac:(cbn; lia)). apply line_safe; [lra|cbn; lia]. }
  split.
  { unfold box_row, rpixel. change (Z.to_nat (2 * 1 + 1)) with 3%nat. cbn [rpresent].
    change (pixel eg (2 - 1) 0) with (Some (z32 20)). change (pixel eg (2 - 1 + 1) 0) with (Some (z32 30)).
    change (pixel eg (2 - 1 + 1 + 1) 0) with (Some (z32 61)). cbn [option_map].
    unfold average. cbn [fold_right length INR].
    rewrite (proj2 (z32_ok 20 ltac:(lia))), (proj2 (z32_ok 30 ltac:(lia))), (proj2 (z32_ok 61 ltac:(lia))). lra. }
  eexists. exists (S754_finite false 9699328 (-18)).
  split; [vm_compute; reflexivity|]. split; [reflexivity|].
  unfold val, SF2R, F2R. cbn [cond_Zopp Fnum Fexp]. unfold bpow. change (Z.pow_pos radix2 18) with 262144. lra.
Qed.

(** The running total does not recover from a large pixel: where the whole window holds ones, the filter answers less than
    34/100 although the pixel 2^24 left the window earlier. *)
Theorem C107_window_refuted : exists (g out out' : gray spec_float) v,
  wf g /\ wf out /\ g_width g = g_width out /\ g_height g = g_height out /\
  (forall x, 1 <= x < g_width g -> exists p, pixel g x 0 = Some p /\ val p = 1%R) /\
  mean_h (float_narith F32) (float_marith F32) (mean_coefficient F32 3) 1 g out = Ok out' /\
  pixel out' 4 0 = Some v /\ (0 < val v < 34 / 100)%R.
Proof.
  exists (mkGray 7 1 0 7 false (map z32 [16777216; 1; 1; 1; 1; 1; 1])), (mkGray 7 1 0 7 false (repeat (z32 0) 7)).
  eexists. exists (S754_finite false 11184811 (-25)).
  split; [unfold wf; cbn; unfold zlen; cbn [length]; repeat split; lia|].
  split; [unfold wf; cbn; unfold zlen; cbn [length]; repeat split; lia|].
  split; [reflexivity|]. split; [reflexivity|].
  split.
  { intros x Hx. cbn in Hx. exists (z32 1). split; [|apply z32_ok; lia].
    assert (x = 1 \/ x = 2 \/ x = 3 \/ x = 4 \/ x = 5 \/ x = 6) as [->|[->|[->|[->|[->| ->]]]]] by lia; reflexivity. }
  split; [vm_compute; reflexivity|]. split; [reflexivity|].
  unfold val, SF2R, F2R. cbn [cond_Zopp Fnum Fexp]. unfold bpow. change (Z.pow_pos radix2 25) with 33554432. lra.
Qed.
Print Assumptions C107_window_refuted.

(** Thresholding of float and double images by blocks: C111. *)
From Coq Require Import Reals QArith Lia Lra.
From Coq Require Import Floats.SpecFloat.
From Verif Require Import Base BaseFacts M_Image S_Image L_Image M_Convolve S_Convolve M_Float M_Otsu M_Config M_Block S_Block.
From Flocq Require Import Core.
From Verif Require Import S_Ieee S_FNorm S_FBlur S_FStats S_FBlock L_Ieee L_PointF L_BlockBad L_FBlock P_FBlur.
Open Scope Z_scope.

(** C111.  Mean: a pixel is classified as the exact mean of the scaled means of the blocks around it demands, unless it is so
    close to that level that rounding can tip the decision. *)
Theorem C111_mean : forall f, standard f -> forall scale local down (c : clen spec_float) g o req st0 M n, fits double c g o req ->
  ready (block_mean (float_bmean f scale) (S754_zero false) local down) st0 -> finite f scale -> bounded_numbers f g M ->
  (forall b, is_block g req b -> zlen (block_pixels g req b) <= n) ->
  (40 * (Rabs (val scale) + 1) * (IZR n * M + 1) * (1 + unit_error f) ^ Z.to_nat (n + 16) < huge f)%R ->
  exists st out low, block_process (block_mean (float_bmean f scale) (S754_zero false) local down) double c st0 g o = Ok (st, out) /\
    ready (block_mean (float_bmean f scale) (S754_zero false) local down) st /\
    holds g o out (fun x y => Some (side down (low x y))) /\
    forall x y v, pixel g x y = Some v ->
      let t := level (val scale) g req local (home g req x y) in let e := level_error f n (val scale) M in
      ((val v < t - e)%R -> low x y = true) /\ ((t + e < val v)%R -> low x y = false).
Proof. exact mean_near_real. Qed.
Print Assumptions C111_mean.

(** C111.  Min-max: where the region has a value that is not below the smallest positive number of full precision, a pixel of a
    flat region is 1, and in other regions it is compared with the scaled middle of the range, up to rounding. *)
Theorem C111_minmax : forall f, standard f -> forall spread scale local down (c : clen spec_float) g o req st0 M, fits double c g o req ->
  cols g req * rows g req * 2 < 4294967296 ->
  ready (block_minmax (float_bminmax f spread scale) (S754_zero false) local down) st0 -> finite f spread -> finite f scale ->
  bounded_numbers f g M -> (4 * (Rabs (val scale) + 1) * (M + 1) < huge f)%R ->
  exists st out bit, block_process (block_minmax (float_bminmax f spread scale) (S754_zero false) local down) double c st0 g o = Ok (st, out) /\
    ready (block_minmax (float_bminmax f spread scale) (S754_zero false) local down) st /\
    holds g o out (fun x y => Some (bit x y)) /\ (forall x y, bit x y = 0 \/ bit x y = 1) /\
    forall x y v lo hi, pixel g x y = Some v -> spans (near_pixels g req local (home g req x y)) lo hi -> (smallest_normal f <= hi)%R ->
      ((hi - lo <= val spread)%R -> bit x y = 1) /\
      ((val spread < (1 - unit_error f) * (hi - lo))%R ->
        let t := (val scale * middle lo hi)%R in let e := middle_error f (val scale) lo hi in
        ((val v < t - e)%R -> bit x y = side down true) /\ ((t + e < val v)%R -> bit x y = side down false)).
Proof. exact minmax_near_real. Qed.
Print Assumptions C111_minmax.

(** The view of C107 with blocks of one pixel: the level at the corner is (10+20+40+50)/4 = 30, the range is 10 to 50. *)
Definition bo : gray Z := mkGray 4 3 0 4 false (repeat 7 12).
Lemma eg_fits : fits double (clen_fixed double (db 1 1)) eg bo 1.
Proof.
  unfold fits. split; [exact eg_wf|]. split; [unfold wf; cbn; unfold zlen; cbn [length]; repeat split; lia|].
  repeat (split; [vm_compute; congruence|]). split; cbn; lia.
Qed.
Lemma eg_blocks b : is_block eg 1 b -> zlen (block_pixels eg 1 b) <= 1.
Proof.
  destruct b as [i j]. intros [H1 H2]. change (cols eg 1) with 4 in H1. change (rows eg 1) with 3 in H2. cbn [fst snd] in *.
  assert (i = 0 \/ i = 1 \/ i = 2 \/ i = 3) as [->|[->|[->| ->]]] by lia;
    assert (j = 0 \/ j = 1 \/ j = 2) as [->|[->| ->]] by lia; vm_compute; congruence.
Qed.
Lemma eg_level : level 1 eg 1 true (home eg 1 0 0) = 30%R.
Proof.
  assert (E : near_blocks eg 1 true (home eg 1 0 0) = [(0, 0); (1, 0); (0, 1); (1, 1)]) by reflexivity.
  unfold level. rewrite E. cbn [map].
  assert (E1 : block_pixels eg 1 (0, 0) = [z32 10]) by reflexivity. assert (E2 : block_pixels eg 1 (1, 0) = [z32 20]) by reflexivity.
  assert (E3 : block_pixels eg 1 (0, 1) = [z32 40]) by reflexivity. assert (E4 : block_pixels eg 1 (1, 1) = [z32 50]) by reflexivity.
  rewrite E1, E2, E3, E4. unfold average. cbn [map fold_right length INR].
  rewrite (proj2 (z32_ok 10 ltac:(lia))), (proj2 (z32_ok 20 ltac:(lia))), (proj2 (z32_ok 40 ltac:(lia))), (proj2 (z32_ok 50 ltac:(lia))). lra.
Qed.
Lemma one_val : val (z32 1) = 1%R.
Proof. apply z32_ok. lia. Qed.
Lemma eg_level_error : (level_error F32 1 1 90 <= 1)%R.
Proof.
  unfold level_error. change (Z.to_nat (1 + 16)) with 17%nat. pose proof (power_small 17 ltac:(lia)) as P.
  destruct (tiny_small F32 (or_introl eq_refl)) as [T0 T]. rewrite Rabs_R1. lra.
Qed.
Example C111_mean_example : fits double (clen_fixed double (db 1 1)) eg bo 1 /\ finite F32 (z32 1) /\ bounded_numbers F32 eg 90 /\
  (forall b, is_block eg 1 b -> zlen (block_pixels eg 1 b) <= 1) /\
  (40 * (Rabs (val (z32 1)) + 1) * (1 * 90 + 1) * (1 + unit_error F32) ^ Z.to_nat (1 + 16) < huge F32)%R /\
  pixel eg 0 0 = Some (z32 10) /\
  (val (z32 10) < level (val (z32 1)) eg 1 true (home eg 1 0 0) - level_error F32 1 (val (z32 1)) 90)%R /\
  exists st0 st out, block_init (block_mean (float_bmean F32 (z32 1)) (S754_zero false) true true) = Ok st0 /\
    block_process (block_mean (float_bmean F32 (z32 1)) (S754_zero false) true true) double (clen_fixed double (db 1 1)) st0 eg bo = Ok (st, out) /\
    g_data out = [1; 1; 1; 0; 1; 1; 0; 0; 0; 0; 0; 1].
Proof.
  split; [exact eg_fits|]. split; [apply z32_ok; lia|]. split; [exact eg_num|]. split; [exact eg_blocks|].
  rewrite one_val, eg_level, (proj2 (z32_ok 10 ltac:(lia))), Rabs_R1. pose proof eg_level_error.
  pose proof (power_small 17 ltac:(lia)) as P. pose proof (huge_big F32 (or_introl eq_refl)) as H'.
  split; [change (Z.to_nat (1 + 16)) with 17%nat; lra|]. split; [reflexivity|]. split; [lra|].
  eexists _, _, _. split; [vm_compute; reflexivity|]. split; [vm_compute; reflexivity|]. vm_compute; reflexivity.
Qed.
Example C111_minmax_example : cols eg 1 * rows eg 1 * 2 < 4294967296 /\ finite F32 (z32 5) /\
  (4 * (Rabs (val (z32 1)) + 1) * (90 + 1) < huge F32)%R /\ spans (near_pixels eg 1 true (home eg 1 0 0)) 10 50 /\
  (smallest_normal F32 <= 50)%R /\ (val (z32 5) < (1 - unit_error F32) * (50 - 10))%R /\
  (val (z32 10) < val (z32 1) * middle 10 50 - middle_error F32 (val (z32 1)) 10 50)%R /\
  exists st0 st out, block_init (block_minmax (float_bminmax F32 (z32 5) (z32 1)) (S754_zero false) true true) = Ok st0 /\
    block_process (block_minmax (float_bminmax F32 (z32 5) (z32 1)) (S754_zero false) true true) double (clen_fixed double (db 1 1)) st0 eg bo
      = Ok (st, out) /\ g_data out = [1; 1; 1; 0; 1; 1; 0; 0; 0; 0; 0; 1].
Proof.
  split; [vm_compute; reflexivity|]. split; [apply z32_ok; lia|].
  rewrite one_val, Rabs_R1, (proj2 (z32_ok 10 ltac:(lia))), (proj2 (z32_ok 5 ltac:(lia))). pose proof (huge_big F32 (or_introl eq_refl)) as H'.
  split; [lra|]. split.
  { assert (E : near_pixels eg 1 true (home eg 1 0 0) = map z32 [10; 20; 40; 50]) by reflexivity. rewrite E. split; [|split].
    - exists (z32 10). split; [now left|apply z32_ok; lia].
    - exists (z32 50). split; [cbn; auto|apply z32_ok; lia].
    - intros v Hv. apply in_map_iff in Hv as (z & <- & Hz). cbn in Hz. rewrite (proj2 (z32_ok z ltac:(lia))). split; apply IZR_le; lia. }
  split. { unfold smallest_normal. apply Rle_trans with (bpow radix2 0); [apply bpow_le; cbn; lia|cbn; lra]. }
  destruct (unit_small F32 (or_introl eq_refl)) as [U0 U]. destruct (tiny_small F32 (or_introl eq_refl)) as [T0 T].
  split; [lra|]. split.
  { unfold middle_error. rewrite Rabs_R1. replace (middle 10 50) with 30%R by (unfold middle; lra). rewrite (Rabs_pos_eq 30) by lra.
    pose proof (power_small 3 ltac:(lia)). lra. }
  eexists _, _, _. split; [vm_compute; reflexivity|]. split; [vm_compute; reflexivity|]. vm_compute; reflexivity.
Qed.

(** Close to the level the decision can be wrong: in a constant image every pixel equals the mean, but none is found at or
    below it. *)
Theorem C111_constant_refuted : exists (g : gray spec_float) (o : gray Z) st0 st out,
  let F := block_mean (float_bmean F32 (z32 1)) (S754_zero false) true true in
  fits double (clen_fixed double (db 3 1)) g o 3 /\ (forall x y, inside g x y -> pixel g x y = Some (z32 8388610)) /\
  block_init F = Ok st0 /\ block_process F double (clen_fixed double (db 3 1)) st0 g o = Ok (st, out) /\
  forall x y, inside g x y -> pixel out x y = Some 0.
Proof.
  exists (gray_new (z32 8388610) 3 3), (gray_new 7 3 3). eexists _, _, (mkGray 3 3 0 3 false (repeat 0 9)). cbn zeta. split.
  { unfold fits. repeat split; try (vm_compute; congruence); unfold wf; vm_compute; intuition congruence. }
  assert (A : forall x y, inside (gray_new (z32 8388610) 3 3) x y ->
    pixel (gray_new (z32 8388610) 3 3) x y = Some (z32 8388610) /\ pixel (mkGray 3 3 0 3 false (repeat 0 9)) x y = Some 0).
  { intros x y [[X1 X2] [Y1 Y2]]. cbn in X2, Y2. assert (x = 0 \/ x = 1 \/ x = 2) as [->|[->| ->]] by lia;
      assert (y = 0 \/ y = 1 \/ y = 2) as [->|[->| ->]] by lia; split; reflexivity. }
  split; [intros x y I; apply A; auto|]. split; [vm_compute; reflexivity|]. split; [vm_compute; reflexivity|]. intros x y I. apply A; auto.
Qed.
Print Assumptions C111_constant_refuted.

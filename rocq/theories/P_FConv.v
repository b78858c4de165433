(** Accuracy of convolution of float and double images: C103, C104. *)
From Coq Require Import Reals Lia Lra.
From Coq Require Import Floats.SpecFloat.
From Verif Require Import Base BaseFacts M_Image S_Image M_Border S_Border M_Convolve S_Convolve M_Float S_Ieee.
From Verif Require Import S_FConv L_Ieee L_PointF L_FConv.

(** C103.  Every pixel is the exact sum up to an error that depends on the number of coefficients and the magnitude of the
    products, not on the size or the content of the image elsewhere. *)
Theorem C103_horizontal : forall f, standard f ->
  forall (K : kernel spec_float) (b : border spec_float) (g out : gray spec_float),
  wf g -> wf out -> g_width g <= 1073741824 -> g_height g <= 1073741824 ->
  g_sub out = false \/ (g_width out = g_width g /\ g_height out = g_height g) ->
  kernel1_ok K -> fits b (g_width g) K ->
  (forall c, In c (k_data K) -> finite f c) -> numbers f b g ->
  (forall x y, inside g x y ->
    safe_magnitude f (length (k_data K)) (rmag (k_data K) (fun i => rextended b g (x - k_offset K + i) y) 0)) ->
  exists o out', gray_reshape (S754_zero false) out (g_width g) (g_height g) = Ok o /\
    convolve_h (float_arith f) (S754_zero false) K b g out = Ok out' /\
    approximates f g o out' (fun x y => rdot (k_data K) (fun i => rextended b g (x - k_offset K + i) y) 0)
      (fun x y => sum_error f (length (k_data K)) (rmag (k_data K) (fun i => rextended b g (x - k_offset K + i) y) 0)).
Proof. exact fconv_h. Qed.
Print Assumptions C103_horizontal.
Theorem C103_vertical : forall f, standard f ->
  forall (K : kernel spec_float) (b : border spec_float) (g out : gray spec_float),
  wf g -> wf out -> g_width g <= 1073741824 -> g_height g <= 1073741824 ->
  g_sub out = false \/ (g_width out = g_width g /\ g_height out = g_height g) ->
  kernel1_ok K -> fits b (g_height g) K ->
  (forall c, In c (k_data K) -> finite f c) -> numbers f b g ->
  (forall x y, inside g x y ->
    safe_magnitude f (length (k_data K)) (rmag (k_data K) (fun i => rextended b g x (y - k_offset K + i)) 0)) ->
  exists o out', gray_reshape (S754_zero false) out (g_width g) (g_height g) = Ok o /\
    convolve_v (float_arith f) (S754_zero false) K b g out = Ok out' /\
    approximates f g o out' (fun x y => rdot (k_data K) (fun i => rextended b g x (y - k_offset K + i)) 0)
      (fun x y => sum_error f (length (k_data K)) (rmag (k_data K) (fun i => rextended b g x (y - k_offset K + i)) 0)).
Proof. exact fconv_v. Qed.
Print Assumptions C103_vertical.
Theorem C103_convolve : forall f, standard f ->
  forall (K : kernel spec_float) (b : border spec_float) (g out : gray spec_float),
  wf g -> wf out -> g_width g <= 1073741824 -> g_height g <= 1073741824 ->
  g_sub out = false \/ (g_width out = g_width g /\ g_height out = g_height g) ->
  kernel2_ok K -> fits b (g_width g) K -> fits b (g_height g) K ->
  (forall c, In c (k_data K) -> finite f c) -> numbers f b g ->
  (forall x y, inside g x y -> safe_magnitude f (length (k_data K)) (rmag (k_data K) (fun i =>
     rextended b g (x - k_offset K + i mod k_width K) (y - k_offset K + i / k_width K)) 0)) ->
  exists o out', gray_reshape (S754_zero false) out (g_width g) (g_height g) = Ok o /\
    convolve_2 (float_arith f) (S754_zero false) K b g out = Ok out' /\
    approximates f g o out'
      (fun x y => rdot (k_data K) (fun i =>
         rextended b g (x - k_offset K + i mod k_width K) (y - k_offset K + i / k_width K)) 0)
      (fun x y => sum_error f (length (k_data K)) (rmag (k_data K) (fun i =>
         rextended b g (x - k_offset K + i mod k_width K) (y - k_offset K + i / k_width K)) 0)).
Proof. exact fconv_2. Qed.
Print Assumptions C103_convolve.

(** The bits of the result, for all pixels and coefficients, infinities and not-a-numbers included. *)
Theorem C103_bits : forall f (K : kernel spec_float) (b : border spec_float) (g out : gray spec_float),
  wf g -> wf out -> g_width g <= 1073741824 -> g_height g <= 1073741824 ->
  g_sub out = false \/ (g_width out = g_width g /\ g_height out = g_height g) ->
  (kernel1_ok K -> fits b (g_width g) K -> exists o out', gray_reshape (S754_zero false) out (g_width g) (g_height g) = Ok o /\
     convolve_h (float_arith f) (S754_zero false) K b g out = Ok out' /\
     holds g o out' (fun x y => ieee_sum f (S754_zero false) (k_data K) (fun i => extended b g (x - k_offset K + i) y) 0)) /\
  (kernel1_ok K -> fits b (g_height g) K -> exists o out', gray_reshape (S754_zero false) out (g_width g) (g_height g) = Ok o /\
     convolve_v (float_arith f) (S754_zero false) K b g out = Ok out' /\
     holds g o out' (fun x y => ieee_sum f (S754_zero false) (k_data K) (fun i => extended b g x (y - k_offset K + i)) 0)) /\
  (kernel2_ok K -> fits b (g_width g) K -> fits b (g_height g) K ->
     exists o out', gray_reshape (S754_zero false) out (g_width g) (g_height g) = Ok o /\
     convolve_2 (float_arith f) (S754_zero false) K b g out = Ok out' /\
     holds g o out' (fun x y => ieee_sum f (S754_zero false) (k_data K) (fun i =>
       extended b g (x - k_offset K + i mod k_width K) (y - k_offset K + i / k_width K)) 0)).
Proof. exact bits_all. Qed.
Print Assumptions C103_bits.
(** An infinite pixel times a zero coefficient gives not-a-number; minus zero gives plus zero. *)
Example C103_bits_ex :
  ieee_sum F32 (S754_zero false) [S754_zero false] (fun _ => Some (S754_infinity false)) 0 = Some S754_nan /\
  ieee_sum F32 (S754_zero false) [S754_zero true] (fun _ => Some (float_of_Z F32 1)) 0 = Some (S754_zero false).
Proof. split; vm_compute; reflexivity. Qed.

(** C104.  Integer pixels and coefficients stored as float or double: exactly the integer result, for the same kernels and
    borders as C15 to C17 with 2^24 or 2^53 in place of the largest integer. *)
Theorem C104_horizontal : forall f, standard f ->
  forall (K : kernel spec_float) (b : border spec_float) (g out : gray spec_float),
  wf g -> wf out -> g_width g <= 1073741824 -> g_height g <= 1073741824 ->
  g_sub out = false \/ (g_width out = g_width g /\ g_height out = g_height g) ->
  forall P cs M, kernel1_ok K -> fits b (g_width g) K ->
  integer_kernel f K cs -> shows f b g (fun x y => IZR (P x y)) ->
  (forall x y, Z.abs (P x y) <= M) -> zabs_sum cs * M <= 2 ^ f_prec f ->
  exists o out', gray_reshape (S754_zero false) out (g_width g) (g_height g) = Ok o /\
    convolve_h (float_arith f) (S754_zero false) K b g out = Ok out' /\
    exactly f g o out' (fun x y => zdot cs (fun i => P (x - k_offset K + i) y) 0).
Proof. exact iconv_h. Qed.
Print Assumptions C104_horizontal.
Theorem C104_vertical : forall f, standard f ->
  forall (K : kernel spec_float) (b : border spec_float) (g out : gray spec_float),
  wf g -> wf out -> g_width g <= 1073741824 -> g_height g <= 1073741824 ->
  g_sub out = false \/ (g_width out = g_width g /\ g_height out = g_height g) ->
  forall P cs M, kernel1_ok K -> fits b (g_height g) K ->
  integer_kernel f K cs -> shows f b g (fun x y => IZR (P x y)) ->
  (forall x y, Z.abs (P x y) <= M) -> zabs_sum cs * M <= 2 ^ f_prec f ->
  exists o out', gray_reshape (S754_zero false) out (g_width g) (g_height g) = Ok o /\
    convolve_v (float_arith f) (S754_zero false) K b g out = Ok out' /\
    exactly f g o out' (fun x y => zdot cs (fun i => P x (y - k_offset K + i)) 0).
Proof. exact iconv_v. Qed.
Print Assumptions C104_vertical.
Theorem C104_convolve : forall f, standard f ->
  forall (K : kernel spec_float) (b : border spec_float) (g out : gray spec_float),
  wf g -> wf out -> g_width g <= 1073741824 -> g_height g <= 1073741824 ->
  g_sub out = false \/ (g_width out = g_width g /\ g_height out = g_height g) ->
  forall P cs M, kernel2_ok K -> fits b (g_width g) K -> fits b (g_height g) K ->
  integer_kernel f K cs -> shows f b g (fun x y => IZR (P x y)) ->
  (forall x y, Z.abs (P x y) <= M) -> zabs_sum cs * M <= 2 ^ f_prec f ->
  exists o out', gray_reshape (S754_zero false) out (g_width g) (g_height g) = Ok o /\
    convolve_2 (float_arith f) (S754_zero false) K b g out = Ok out' /\
    exactly f g o out' (fun x y => zdot cs (fun i =>
      P (x - k_offset K + i mod k_width K) (y - k_offset K + i / k_width K)) 0).
Proof. exact iconv_2. Qed.
Print Assumptions C104_convolve.

Notation z32 := (float_of_Z F32).
Lemma z32_ok z : Z.abs z <= 2 ^ 24 -> finite F32 (z32 z) /\ val (z32 z) = IZR z.
Proof. exact (float_of_Z_exact F32 (standard_wfty F32 (or_introl eq_refl)) z). Qed.

Definition fimg : gray spec_float := mkGray 3 1 0 3 false [z32 10; z32 (-20); z32 30].
Definition fker : kernel spec_float := mkKernel 3 1 [z32 1; z32 2; z32 (-1)].
Definition fpix (x y : Z) : Z := if (y =? 0) then (if x =? 0 then 10 else if x =? 1 then -20 else if x =? 2 then 30 else 7) else 7.
Example C103_ex : standard F32 /\ wf fimg /\ kernel1_ok fker /\ fits (BValue (z32 7)) (g_width fimg) fker /\
  (forall c, In c (k_data fker) -> finite F32 c) /\ numbers F32 (BValue (z32 7)) fimg /\
  integer_kernel F32 fker [1; 2; -1] /\ shows F32 (BValue (z32 7)) fimg (fun x y => IZR (fpix x y)) /\
  (forall x y, Z.abs (fpix x y) <= 30) /\ zabs_sum [1; 2; -1] * 30 <= 2 ^ f_prec F32 /\
  convolve_h (float_arith F32) (S754_zero false) fker (BValue (z32 7)) fimg (gray_new (S754_zero false) 0 0) =
    Ok (mkGray 3 1 0 3 false [z32 47; z32 (-60); z32 33]).
Proof.
  split; [left; reflexivity|]. split; [unfold wf; cbn; unfold zlen; cbn [length]; repeat split; lia|].
  split; [unfold kernel1_ok; cbn; unfold zlen; cbn [length]; lia|]. split; [exact I|].
  assert (K : forall c, In c (k_data fker) -> finite F32 c).
  { intros c [<-|[<-|[<-|[]]]]; apply z32_ok; lia. }
  split; [exact K|].
  assert (S : shows F32 (BValue (z32 7)) fimg (fun x y => IZR (fpix x y))).
  { intros x y. cbn [extended]. cbn [g_width g_height fimg].
    destruct ((0 <=? x) && (x <? 3) && (0 <=? y) && (y <? 1))%bool eqn:C.
    - rewrite !andb_true_iff in C. assert (y = 0) as -> by lia.
      assert (x = 0 \/ x = 1 \/ x = 2) as [->|[->| ->]] by lia; (eexists; split; [reflexivity|apply z32_ok; cbn; lia]).
    - exists (z32 7). split; [reflexivity|].
      replace (fpix x y) with 7; [apply z32_ok; lia|]. unfold fpix.
      destruct (y =? 0) eqn:E1; auto. destruct (x =? 0) eqn:E2; [lia|]. destruct (x =? 1) eqn:E3; [lia|].
      destruct (x =? 2) eqn:E4; [lia|]. reflexivity. }
  split.
  { split.
    - intros x y p I E. destruct (S x y) as (q & E1 & E2 & _). unfold extended in E1.
      destruct I as [I1 I2]. rewrite !(proj2 (Z.leb_le _ _)), !(proj2 (Z.ltb_lt _ _)) in E1 by lia. cbn in E1.
      rewrite E in E1. injection E1 as ->. exact E2.
    - intros v E. assert (v = z32 7) as -> by congruence. apply z32_ok. lia. }
  split; [repeat constructor; apply z32_ok; lia|].
  split; [exact S|]. split; [|split; [vm_compute; discriminate|vm_compute; reflexivity]].
  intros x y. unfold fpix. destruct (y =? 0), (x =? 0), (x =? 1), (x =? 2); lia.
Qed.

(** The bound on the products is met with room to spare by ordinary images: nine coefficients up to 1 and pixels up to 255. *)
Example C103_safe : safe_magnitude F32 9 2295.
Proof.
  unfold safe_magnitude. destruct (unit_small F32 (or_introl eq_refl)) as [U1 U2].
  destruct (tiny_small F32 (or_introl eq_refl)) as [T1 T2].
  pose proof (huge_big F32 (or_introl eq_refl)) as H.
  assert (P : ((1 + unit_error F32) ^ (9 + 1) <= 2 ^ 10)%R) by (apply pow_incr; lra).
  assert (Q : (0 < (1 + unit_error F32) ^ (9 + 1))%R) by (apply pow_lt; lra).
  replace (2 ^ 10)%R with 1024%R in P by (cbn; lra).
  replace (INR 9) with 9%R by (cbn; lra).
  apply Rlt_le_trans with (2296 * 1024)%R; [|lra].
  apply Rle_lt_trans with ((2295 + 9 * tiny_error F32) * 1024)%R; [apply Rmult_le_compat_l; lra|].
  apply Rmult_lt_compat_r; lra.
Qed.

(** Beyond 2^24 the float version is no longer exact, though the 32-bit integer version is. *)
Theorem C104_limit_refuted : exists (K : kernel spec_float) (g : gray spec_float) (KZ : kernel Z) (gz outz : gray Z),
  g_data g = map z32 (g_data gz) /\ k_data K = map z32 (k_data KZ) /\
  convolve_h (int_arith S32 S32) 0 KZ (BValue 0) gz (gray_new 0 0 0) = Ok outz /\
  zabs_sum (k_data KZ) * 8388609 = 2 ^ 24 + 2 /\ Forall (fun v => Z.abs v <= 8388609) (g_data gz) /\
  exists out v, convolve_h (float_arith F32) (S754_zero false) K (BValue (z32 0)) g (gray_new (S754_zero false) 0 0) =
    Ok out /\ pixel outz 1 0 = Some 16777217 /\ pixel out 1 0 = Some v /\ val v = 16777216%R.
Proof.
  exists (mkKernel 2 1 [z32 1; z32 1]), (mkGray 2 1 0 2 false [z32 8388608; z32 8388609]),
    (mkKernel 2 1 [1; 1]), (mkGray 2 1 0 2 false [8388608; 8388609]), (mkGray 2 1 0 2 false [8388608; 16777217]).
  split; [reflexivity|]. split; [reflexivity|]. split; [vm_compute; reflexivity|]. split; [reflexivity|].
  split; [repeat constructor; cbn; lia|].
  exists (mkGray 2 1 0 2 false [z32 8388608; z32 16777216]), (z32 16777216).
  split; [vm_compute; reflexivity|]. split; [reflexivity|]. split; [reflexivity|]. apply z32_ok. lia.
Qed.
Print Assumptions C104_limit_refuted.

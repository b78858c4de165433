(** Properties of image convolution: C15, C16, C17, C18. *)
From Verif Require Import BaseFacts M_Image S_Image L_Image M_Border S_Border L_Border M_Convolve S_Convolve
  L_Convolve2 L_ConvolveInt.

(** C15, any arithmetic (integer or floating point instance).  [value_h .. = Some r] says that the sum at that pixel is
    defined (no overflow); then the call succeeds and every output pixel is that sum. *)
Theorem C15_horizontal : forall E S R (A : arith E S R) zero (K : kernel S) (b : border E) (g : gray E) (out : gray R),
  wf g -> wf out -> g_width g <= 1073741824 -> g_height g <= 1073741824 ->
  kernel1_ok K -> fits b (g_width g) K ->
  g_sub out = false \/ (g_width out = g_width g /\ g_height out = g_height g) ->
  (forall x y, inside g x y -> exists r, value_h A K b g x y = Some r) ->
  exists o out', gray_reshape zero out (g_width g) (g_height g) = Ok o /\
    convolve_h A zero K b g out = Ok out' /\ holds g o out' (value_h A K b g).
Proof. exact @convolve_h_ok. Qed.
Print Assumptions C15_horizontal.

(** C15 for integer pixels: the exact sum, reduced to the output type, as long as it cannot overflow. *)
Theorem C15_horizontal_int : forall t r zero (K : kernel Z) (b : border Z) (g out : gray Z) (P : Z -> Z -> Z) M,
  wf g -> wf out -> g_width g <= 1073741824 -> g_height g <= 1073741824 ->
  (forall x y, extended b g x y = Some (P x y) /\ Z.abs (P x y) <= M) ->
  zabs_sum (k_data K) * M <= ity_max (signed_type t) ->
  g_sub out = false \/ (g_width out = g_width g /\ g_height out = g_height g) ->
  kernel1_ok K -> fits b (g_width g) K ->
  exists o out', gray_reshape zero out (g_width g) (g_height g) = Ok o /\
    convolve_h (int_arith t r) zero K b g out = Ok out' /\
    holds g o out' (fun x y => Some (cast r (zdot (k_data K) (fun i => P (x - k_offset K + i) y) 0))).
Proof. exact convolve_h_int. Qed.
Print Assumptions C15_horizontal_int.

Definition img : gray Z := mkGray 5 2 1 6 true [9; 1;2;3;4;5; 9; 6;7;8;9;10; 9].
Definition ker : kernel Z := mkKernel 3 0 [1; 10; -100].
Definition outp : gray Z := gray_new 0 1 1.
Example C15_hypotheses :
  wf img /\ wf outp /\ kernel1_ok ker /\ fits (@BReflect Z) (g_width img) ker /\ g_sub outp = false /\
  (forall x y, extended BReflect img x y = Some (match extended BReflect img x y with Some v => v | None => 0 end)) /\
  zabs_sum (k_data ker) * 10 <= ity_max (signed_type U8) /\
  exists out', convolve_h (int_arith U8 S16) 0 ker BReflect img outp = Ok out' /\
    pixel out' 4 1 = Some (10 * 1 + 9 * 10 + 8 * -100).
Proof.
  assert (W : wf img) by (unfold wf; cbn; repeat split; try lia; intros; discriminate).
  split; auto. split; [apply wf_new; lia|]. 
  split; [unfold kernel1_ok; cbn; unfold zlen; cbn; lia|]. split; [cbn; lia|]. split; [reflexivity|]. split.
  - intros x y. destruct (extended_exists BReflect img x y W) as (v & ->); try (cbn; lia). reflexivity.
  - split; [cbn; lia|]. eexists; split; vm_compute; reflexivity.
Qed.

Theorem C16_vertical : forall E S R (A : arith E S R) zero (K : kernel S) (b : border E) (g : gray E) (out : gray R),
  wf g -> wf out -> g_width g <= 1073741824 -> g_height g <= 1073741824 ->
  kernel1_ok K -> fits b (g_height g) K ->
  g_sub out = false \/ (g_width out = g_width g /\ g_height out = g_height g) ->
  (forall x y, inside g x y -> exists r, value_v A K b g x y = Some r) ->
  exists o out', gray_reshape zero out (g_width g) (g_height g) = Ok o /\
    convolve_v A zero K b g out = Ok out' /\ holds g o out' (value_v A K b g).
Proof. exact @convolve_v_ok. Qed.
Print Assumptions C16_vertical.

Theorem C16_vertical_int : forall t r zero (K : kernel Z) (b : border Z) (g out : gray Z) (P : Z -> Z -> Z) M,
  wf g -> wf out -> g_width g <= 1073741824 -> g_height g <= 1073741824 ->
  (forall x y, extended b g x y = Some (P x y) /\ Z.abs (P x y) <= M) ->
  zabs_sum (k_data K) * M <= ity_max (signed_type t) ->
  g_sub out = false \/ (g_width out = g_width g /\ g_height out = g_height g) ->
  kernel1_ok K -> fits b (g_height g) K ->
  exists o out', gray_reshape zero out (g_width g) (g_height g) = Ok o /\
    convolve_v (int_arith t r) zero K b g out = Ok out' /\
    holds g o out' (fun x y => Some (cast r (zdot (k_data K) (fun i => P x (y - k_offset K + i)) 0))).
Proof. exact convolve_v_int. Qed.
Print Assumptions C16_vertical_int.

Definition imgT : gray Z := mkGray 2 4 0 3 true [1;5;0; 2;6;0; 3;7;0; 4;8].
Example C16_hypotheses :
  wf imgT /\ wf outp /\ kernel1_ok ker /\ fits (@BWrap Z) (g_height imgT) ker /\ g_sub outp = false /\
  (forall x y, inside imgT x y -> exists r, value_v (int_arith U8 S32) ker BWrap imgT x y = Some r) /\
  exists out', convolve_v (int_arith U8 S32) 0 ker BWrap imgT outp = Ok out' /\
    pixel out' 1 3 = Some (8 * 1 + 5 * 10 + 6 * -100).
Proof.
  split; [unfold wf; cbn; repeat split; try lia; intros; discriminate|].
  split; [apply wf_new; lia|]. 
  split; [unfold kernel1_ok; cbn; unfold zlen; cbn; lia|]. split; [cbn; lia|]. split; [reflexivity|]. split.
  - intros x y [[X1 X2] [Y1 Y2]]. cbn in X2, Y2.
    assert (x = 0 \/ x = 1) as [-> | ->] by lia;
    assert (y = 0 \/ y = 1 \/ y = 2 \/ y = 3) as [->|[->|[->| ->]]] by lia; vm_compute; eauto.
  - eexists; split; vm_compute; reflexivity.
Qed.

Theorem C17_convolve : forall E S R (A : arith E S R) zero (K : kernel S) (b : border E) (g : gray E) (out : gray R),
  wf g -> wf out -> g_width g <= 1073741824 -> g_height g <= 1073741824 ->
  kernel2_ok K -> fits b (g_width g) K -> fits b (g_height g) K ->
  g_sub out = false \/ (g_width out = g_width g /\ g_height out = g_height g) ->
  (forall x y, inside g x y -> exists r, value_2 A K b g x y = Some r) ->
  exists o out', gray_reshape zero out (g_width g) (g_height g) = Ok o /\
    convolve_2 A zero K b g out = Ok out' /\ holds g o out' (value_2 A K b g).
Proof. exact @convolve_2_ok. Qed.
Print Assumptions C17_convolve.

Theorem C17_convolve_int : forall t r zero (K : kernel Z) (b : border Z) (g out : gray Z) (P : Z -> Z -> Z) M,
  wf g -> wf out -> g_width g <= 1073741824 -> g_height g <= 1073741824 ->
  (forall x y, extended b g x y = Some (P x y) /\ Z.abs (P x y) <= M) ->
  zabs_sum (k_data K) * M <= ity_max (signed_type t) ->
  g_sub out = false \/ (g_width out = g_width g /\ g_height out = g_height g) ->
  kernel2_ok K -> fits b (g_width g) K -> fits b (g_height g) K ->
  exists o out', gray_reshape zero out (g_width g) (g_height g) = Ok o /\
    convolve_2 (int_arith t r) zero K b g out = Ok out' /\
    holds g o out' (fun x y => Some (cast r (zdot (k_data K) (fun i =>
       P (x - k_offset K + i mod k_width K) (y - k_offset K + i / k_width K)) 0))).
Proof. exact convolve_2_int. Qed.
Print Assumptions C17_convolve_int.

Definition ker2 : kernel Z := mkKernel 2 1 [1; 10; 100; 1000].
Definition img3 : gray Z := mkGray 3 3 0 3 false [1;2;3; 4;5;6; 7;8;9].
Example C17_hypotheses :
  wf img3 /\ wf outp /\ kernel2_ok ker2 /\ fits (BValue 5) (g_width img3) ker2 /\ g_sub outp = false /\
  (forall x y, inside img3 x y -> exists r, value_2 (int_arith U8 S32) ker2 (BValue 5) img3 x y = Some r) /\
  exists out', convolve_2 (int_arith U8 S32) 0 ker2 (BValue 5) img3 outp = Ok out' /\
    pixel out' 0 1 = Some (5 * 1 + 1 * 10 + 5 * 100 + 4 * 1000).
Proof.
  split; [unfold wf; cbn; repeat split; try lia; intros; discriminate|].
  split; [apply wf_new; lia|]. 
  split; [unfold kernel2_ok; cbn; unfold zlen; cbn; lia|]. split; [cbn; lia|]. split; [reflexivity|]. split.
  - intros x y [[X1 X2] [Y1 Y2]]. cbn in X2, Y2.
    assert (x = 0 \/ x = 1 \/ x = 2) as [->|[->| ->]] by lia;
    assert (y = 0 \/ y = 1 \/ y = 2) as [->|[->| ->]] by lia; vm_compute; eauto.
  - eexists; split; vm_compute; reflexivity.
Qed.

(** The output is a sub-image of another size: nothing is computed. *)
Theorem C15_wrong_subimage : forall E S R (A : arith E S R) zero (K : kernel S) (b : border E) (g : gray E)
  (out : gray R),
  g_sub out = true -> g_width out <> g_width g \/ g_height out <> g_height g ->
  convolve_h A zero K b g out = Throw /\ convolve_v A zero K b g out = Throw /\ convolve_2 A zero K b g out = Throw.
Proof. exact @convolve_throws. Qed.
Print Assumptions C15_wrong_subimage.
Example C15_wrong_subimage_case : g_sub img = true /\ g_width img <> g_width img3.
Proof. split; [reflexivity|cbn; lia]. Qed.

(** C18: with the extend and value borders the naive functions accept every kernel, however large. *)
Theorem C18_naive : forall E S R (A : arith E S R) (K : kernel S) (b : border E) (g : gray E) (o : gray R),
  wf g -> wf o -> g_width o = g_width g -> g_height o = g_height g ->
  g_width g <= 1073741824 -> g_height g <= 1073741824 ->
  b = BExtend \/ (exists v, b = BValue v) ->
  (kernel1_ok K -> (forall x y, inside g x y -> exists r, value_h A K b g x y = Some r) ->
    exists d, naive_h A K b g o (g_data o) = Ok d /\ holds g o (with_data o d) (value_h A K b g)) /\
  (kernel1_ok K -> (forall x y, inside g x y -> exists r, value_v A K b g x y = Some r) ->
    exists d, naive_v A K b g o (g_data o) = Ok d /\ holds g o (with_data o d) (value_v A K b g)) /\
  (kernel2_ok K -> (forall x y, inside g x y -> exists r, value_2 A K b g x y = Some r) ->
    exists d, naive_2 A K b g o (g_data o) = Ok d /\ holds g o (with_data o d) (value_2 A K b g)).
Proof. exact @naive_all. Qed.
Print Assumptions C18_naive.

Definition big : kernel Z := mkKernel 9 4 [1;1;1;1;1;1;1;1;1].
Definition tiny : gray Z := gray_new 7 2 1.
Example C18_hypotheses : wf tiny /\ kernel1_ok big /\
  (forall x y, inside tiny x y -> exists r, value_h (int_arith U8 U8) big BExtend tiny x y = Some r) /\
  naive_h (int_arith U8 U8) big BExtend tiny tiny (g_data tiny) = Ok [63; 63].
Proof.
  split; [apply wf_new; lia|].
  split; [unfold kernel1_ok; cbn; unfold zlen; cbn; lia|]. split; [|vm_compute; reflexivity].
  intros x y [[X1 X2] [Y1 Y2]]. cbn in X2, Y2.
  assert (x = 0 \/ x = 1) as [->| ->] by lia; assert (y = 0) as -> by lia; vm_compute; eauto.
Qed.

(** With reflect or wrap the same call reads outside the image. *)
Theorem C18_wrap_refuted : exists (K : kernel Z) (g : gray Z),
  kernel1_ok K /\ wf g /\ (forall x y, inside g x y -> exists r, value_h (int_arith U8 U8) K BWrap g x y = Some r) /\
  naive_h (int_arith U8 U8) K BWrap g g (g_data g) = Undef /\ convolve_h (int_arith U8 U8) 0 K BWrap g g = Undef.
Proof.
  exists (mkKernel 9 0 (k_data big)), tiny. destruct C18_hypotheses as (H1 & H2 & _).
  split; [unfold kernel1_ok; cbn; unfold zlen; cbn; lia|]. split; auto.
  split; [|split; vm_compute; reflexivity].
  intros x y [[X1 X2] [Y1 Y2]]. cbn in X2, Y2.
  assert (x = 0 \/ x = 1) as [->| ->] by lia; assert (y = 0) as -> by lia; vm_compute; eauto.
Qed.
Print Assumptions C18_wrap_refuted.
Theorem C18_reflect_refuted : exists (K : kernel Z) (g : gray Z),
  kernel1_ok K /\ wf g /\ (forall x y, inside g x y -> exists r, value_v (int_arith U8 U8) K BReflect g x y = Some r) /\
  naive_v (int_arith U8 U8) K BReflect g g (g_data g) = Undef /\ convolve_v (int_arith U8 U8) 0 K BReflect g g = Undef.
Proof.
  exists (mkKernel 9 8 (k_data big)), tiny. destruct C18_hypotheses as (H1 & H2 & _).
  split; [unfold kernel1_ok; cbn; unfold zlen; cbn; lia|]. split; auto.
  split; [|split; vm_compute; reflexivity].
  intros x y [[X1 X2] [Y1 Y2]]. cbn in X2, Y2.
  assert (x = 0 \/ x = 1) as [->| ->] by lia; assert (y = 0) as -> by lia; vm_compute; eauto.
Qed.
Print Assumptions C18_reflect_refuted.

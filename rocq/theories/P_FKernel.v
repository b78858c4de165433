(** Kernels of type float and double: C114. *)
From Coq Require Import Reals Lia Lra.
From Coq Require Import Floats.SpecFloat.
From Flocq Require Import Core BinarySingleNaN.
From Verif Require Import Base BaseFacts M_Float S_Ieee M_Convolve M_Otsu M_Config M_Block M_Kernel S_Kernel S_FKernel L_Ieee L_PointF L_Kernel L_FKernel.
Local Open Scope R_scope.

(** The extreme coefficients. *)
Theorem C114_extrema : forall f O, ops_of f O -> forall K : kernel spec_float, (forall v, In v (k_data K) -> finite f v) ->
  (k_data K = [] -> element_max O K = Throw /\ element_min O K = Throw /\ element_abs_max O K = Throw /\ element_abs_min O K = Throw) /\
  (k_data K <> [] ->
    (exists m, element_max O K = Ok m /\ In m (k_data K) /\ forall v, In v (k_data K) -> val v <= val m) /\
    (exists m, element_min O K = Ok m /\ In m (k_data K) /\ forall v, In v (k_data K) -> val m <= val v) /\
    (exists m, element_abs_max O K = Ok m /\ finite f m /\ (exists v, In v (k_data K) /\ val m = Rabs (val v)) /\
       forall v, In v (k_data K) -> Rabs (val v) <= val m) /\
    (exists m, element_abs_min O K = Ok m /\ finite f m /\ (exists v, In v (k_data K) /\ val m = Rabs (val v)) /\
       forall v, In v (k_data K) -> val m <= Rabs (val v))).
Proof. exact extrema. Qed.
Print Assumptions C114_extrema.

(** The sum. *)
Theorem C114_sum : forall f O, ops_of f O -> forall K : kernel spec_float, (forall v, In v (k_data K) -> finite f v) ->
  weight (k_data K) * (1 + unit_error f) ^ length (k_data K) < huge f ->
  exists s, k_sum O K = Ok s /\ finite f s /\
    Rabs (val s - total (k_data K)) <= ((1 + unit_error f) ^ length (k_data K) - 1) * weight (k_data K).
Proof. exact sum_fine. Qed.
Print Assumptions C114_sum.

(** Coefficients that are numbers: -2, 7, 3. *)
Definition c32 (z : Z) : spec_float := float_of_Z F32 z.
Lemma c32_ok z : (Z.abs z <= 16777216)%Z -> finite F32 (c32 z) /\ val (c32 z) = IZR z.
Proof. intros H. exact (float_of_Z_exact F32 (standard_wfty F32 (or_introl eq_refl)) z H). Qed.
Lemma c32_list l : (forall z, In z l -> (Z.abs z <= 16777216)%Z) -> map val (map c32 l) = map IZR l.
Proof. intros H. rewrite map_map. apply map_ext_in. intros z Hz. apply c32_ok. auto. Qed.
Definition mixed : kernel spec_float := mkKernel 3 1 (map c32 [-2; 7; 3]%Z).
Example C114_statistics : ops_of F32 single /\ (forall v, In v (k_data mixed) -> finite F32 v) /\ k_data mixed <> [] /\
  weight (k_data mixed) * (1 + unit_error F32) ^ length (k_data mixed) < huge F32 /\
  element_max single mixed = Ok (c32 7) /\ element_min single mixed = Ok (c32 (-2)) /\
  element_abs_max single mixed = Ok (c32 7) /\ element_abs_min single mixed = Ok (c32 2) /\ k_sum single mixed = Ok (c32 8).
Proof.
  split; [now left|]. split.
  { intros v H. apply in_map_iff in H as (z & <- & Hz). apply c32_ok. cbn in Hz. lia. }
  split; [discriminate|]. split; [|repeat split; vm_compute; reflexivity].
  unfold weight, mixed. cbn [k_data map length rsum fold_right].
  rewrite (proj2 (c32_ok (-2) ltac:(lia))), (proj2 (c32_ok 7 ltac:(lia))), (proj2 (c32_ok 3 ltac:(lia))), <- !abs_IZR. cbn [Z.abs].
  destruct (unit_small F32 (or_introl eq_refl)) as [U0 U]. pose proof (huge_big F32 (or_introl eq_refl)) as H.
  assert (P : (1 + unit_error F32) ^ 3 <= 2 ^ 3) by (apply pow_incr; lra).
  cbn [pow] in *. lra.
Qed.

(** Dividing by the sum: each coefficient and the new sum up to rounding. *)
Theorem C114_normalize : forall f O, ops_of f O -> forall w off d, (0 < w <= 1048576)%Z -> zlen d = w -> smoothing f d ->
  exists d', normalize O (mkKernel w off d) = Ok (mkKernel w off d') /\ zlen d' = w /\
    (forall i v, znth d i = Some v -> exists v', znth d' i = Some v' /\ finite f v' /\ 0 <= val v' /\
       Rabs (val v' - val v / total d) <= 2 * (IZR w + 1) * unit_error f * (val v / total d) + tiny_error f) /\
    Rabs (total d' - 1) <= 2 * (IZR w + 1) * unit_error f + IZR w * tiny_error f.
Proof. exact normalize_fine. Qed.
Print Assumptions C114_normalize.
Example C114_normalize_case : smoothing F32 (map c32 [1; 0; 6; 3]%Z) /\ zlen (map c32 [1; 0; 6; 3]%Z) = 4%Z.
Proof.
  split; [|reflexivity]. split.
  { intros v H. apply in_map_iff in H as (z & <- & Hz). cbn in Hz. destruct (c32_ok z ltac:(lia)) as [F V]. split; auto.
    rewrite V. apply (IZR_le 0). lia. }
  unfold total. rewrite c32_list by (intros z Hz; cbn in Hz; lia). pose proof (huge_big F32 (or_introl eq_refl)) as H.
  cbn [map rsum fold_right]. lra.
Qed.

(** Mean kernels: every coefficient is the number nearest to one over the width ... *)
Theorem C114_mean : forall f O, ops_of f O -> forall w, (0 < w <= 2 ^ f_prec f)%Z ->
  exists c, mean1D O w = Ok (mkKernel w (w / 2) (table w (fun _ => c))) /\ nearest_float f (/ IZR w) c.
Proof. intros f O Ho w H. eexists. exact (mean_fine f O Ho w H). Qed.
Print Assumptions C114_mean.
Example C114_mean_case : (0 < 3 <= 2 ^ f_prec F32)%Z /\
  mean1D single 3 = Ok (mkKernel 3 1 (repeat (S754_finite false 11184811 (-25)) 3)).
Proof. split; [|vm_compute; reflexivity]. change (2 ^ f_prec F32)%Z with 16777216%Z. lia. Qed.
(** ... up to a width from which on the sum of ones no longer grows and the coefficients are too large. *)
Theorem C114_mean_saturates : forall f O, ops_of f O -> forall w, (2 ^ f_prec f <= w)%Z ->
  exists d, mean1D O w = Ok (mkKernel w (w / 2) d) /\ total d = IZR w / IZR (2 ^ f_prec f).
Proof. intros f O Ho w. exact (mean_saturates f O w Ho). Qed.
Print Assumptions C114_mean_saturates.
Theorem C114_mean_refuted : exists w d, (0 < w < 4294967296)%Z /\ mean1D single w = Ok (mkKernel w (w / 2) d) /\ total d = 255.
Proof.
  assert (H : (2 ^ f_prec F32 <= 4278190080)%Z) by (vm_compute; congruence).
  assert (B : (0 < 4278190080 < 4294967296)%Z) by lia.
  destruct (mean_saturates F32 single 4278190080 (or_introl (conj eq_refl eq_refl)) H) as (d & E & T).
  exists 4278190080%Z, d. refine (conj B (conj E _)). clear E. rewrite T. change (2 ^ f_prec F32)%Z with 16777216%Z. lra.
Qed.
Print Assumptions C114_mean_refuted.

(** Gaussian kernels, whatever [exp] of the library returns: mirror images of themselves, bit by bit. *)
Theorem C114_symmetric : forall {E} (OE : dops E) narrow ex ce sigma width K, (width <= 2147483647)%Z ->
  gaussian1D double OE narrow ex ce sigma width = Ok K ->
  forall i, znth (k_data K) i = znth (k_data K) (k_width K - 1 - i).
Proof. exact @gaussian_sym. Qed.
Print Assumptions C114_symmetric.
(** If the sampled curve can be divided by its sum, the coefficients are in the proportions of the curve and add up to one. *)
Theorem C114_gaussian : forall f O, ops_of f O -> forall narrow ex ce sigma width s w,
  gaussian_size double ce sigma width = Ok (s, w) -> (0 < w <= 1048576)%Z ->
  let adjust := if (w mod 2 =? 1)%Z then d_of double 0 else d_half double in
  let curve := table w (fun i => narrow (computePDF double ex (d_of double 0) s (d_add double (d_of double (i - w / 2)) adjust))) in
  smoothing f curve ->
  exists d, gaussian1D double O narrow ex ce sigma width = Ok (mkKernel w (w / 2) d) /\ zlen d = w /\
    (forall i v, znth curve i = Some v -> exists v', znth d i = Some v' /\ finite f v' /\ 0 <= val v' /\
       Rabs (val v' - val v / total curve) <= 2 * (IZR w + 1) * unit_error f * (val v / total curve) + tiny_error f) /\
    Rabs (total d - 1) <= 2 * (IZR w + 1) * unit_error f + IZR w * tiny_error f.
Proof. intros f O Ho. exact (gaussian_fine f O Ho double). Qed.
Print Assumptions C114_gaussian.

(** Width 4, sigma 1 and the function 1/(1-x) in place of [exp]. *)
Definition rational (x : spec_float) : spec_float := fdiv F64 (float_of_Z F64 1) (fsub F64 (float_of_Z F64 1) x).
Definition one64 : spec_float := float_of_Z F64 1.
Definition curve4 : list spec_float :=
  table 4 (fun i => computePDF double rational (d_of double 0) one64 (d_add double (d_of double (i - 2)) (d_half double))).
Lemma curve4_is : exists a b, curve4 = [S754_finite false a (-55); S754_finite false b (-54); S754_finite false b (-54); S754_finite false a (-55)] /\
  (0 < Z.pos a < 2 ^ 53)%Z /\ (0 < Z.pos b < 2 ^ 53)%Z /\ finite F64 (S754_finite false a (-55)) /\ finite F64 (S754_finite false b (-54)).
Proof. do 2 eexists. split; [vm_compute; reflexivity|]. repeat split; vm_compute; congruence. Qed.
Lemma v_small a e : (0 < Z.pos a < 2 ^ 53)%Z -> (-60 <= e <= -53)%Z -> 0 < val (S754_finite false a e) < 1.
Proof.
  intros Ha He. unfold val, SF2R. cbn [cond_Zopp]. split; [apply F2R_gt_0; reflexivity|].
  apply Rlt_le_trans with (bpow radix2 (53 + e)); [|apply (bpow_le radix2 _ 0); lia]. rewrite bpow_plus. apply Rmult_lt_compat_r; [apply bpow_gt_0|].
  change (bpow radix2 53) with (IZR (2 ^ 53)). apply IZR_lt. apply Ha.
Qed.
Example C114_gaussian_case : forall ce, ops_of F64 double /\ gaussian_size double ce one64 4 = Ok (one64, 4%Z) /\ smoothing F64 curve4 /\
  (4 <= 2147483647)%Z /\
  exists K, gaussian1D double double (fun x => x) rational ce one64 4 = Ok K /\ znth (k_data K) 1 = znth (k_data K) 2 /\
    znth (k_data K) 0 <> znth (k_data K) 1.
Proof.
  intros ce. split; [now right|]. split; [reflexivity|]. split.
  - destruct curve4_is as (a & b & -> & Ha & Hb & Fa & Fb). pose proof (v_small a (-55) Ha ltac:(lia)) as Va.
    pose proof (v_small b (-54) Hb ltac:(lia)) as Vb. pose proof (huge_big F64 (or_intror eq_refl)) as H. split.
    + intros v [<-|[<-|[<-|[<-|[]]]]]; split; auto; lra.
    + unfold total. cbn [map rsum fold_right]. lra.
  - split; [lia|]. eexists. split; [vm_compute; reflexivity|]. split; [reflexivity|]. vm_compute. congruence.
Qed.

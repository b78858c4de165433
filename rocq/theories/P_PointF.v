(** Properties of Point2D with float and double coordinates: C102. *)
From Coq Require Import Reals Lia Lra.
From Coq Require Import Floats.SpecFloat.
From Verif Require Import Base M_Float S_Ieee M_PointF S_PointF L_Ieee L_PointF.

(** C102.  The distance does not depend on which of the two points is asked, bit for bit, infinities and not-a-number
    included; the distance of a point to itself is +0. *)
Theorem C102_symmetric : forall f p q, fdistanceSq_point f p q = fdistanceSq_point f q p.
Proof. exact dist_sym. Qed.
Print Assumptions C102_symmetric.
Theorem C102_self : forall f p, finite_point f p -> fdistanceSq_point f p p = S754_zero false.
Proof. exact dist_self. Qed.
Print Assumptions C102_self.

(** Integer coordinates: exact up to 2^24 (float) and 2^53 (double). *)
Theorem C102_exact : forall f, standard f -> forall p q a b, at_integers f p a -> at_integers f q b ->
  zdist a b <= 2 ^ f_prec f ->
  finite f (fdistanceSq_point f p q) /\ val (fdistanceSq_point f p q) = IZR (zdist a b).
Proof. exact dist_exact. Qed.
Print Assumptions C102_exact.

(** All coordinates, unless the result is near overflow: four rounding errors and what underflow adds. *)
Theorem C102_error : forall f, standard f -> forall p q, finite_point f p -> finite_point f q ->
  (2 * rdist p q < huge f)%R ->
  finite f (fdistanceSq_point f p q) /\
  (Rabs (val (fdistanceSq_point f p q) - rdist p q) <=
    ((1 + unit_error f) ^ 4 - 1) * rdist p q + 3 * tiny_error f)%R.
Proof. exact dist_error. Qed.
Print Assumptions C102_error.

Definition origin : spec_float * spec_float := (S754_zero false, S754_zero false).
Definition at_Z (x y : Z) : spec_float * spec_float := (float_of_Z F32 x, float_of_Z F32 y).
Lemma at_Z_ok x y : Z.abs x <= 2 ^ 24 -> Z.abs y <= 2 ^ 24 -> at_integers F32 (at_Z x y) (x, y).
Proof.
  intros X Y. assert (W : wfty F32) by (apply standard_wfty; left; reflexivity).
  destruct (float_of_Z_exact F32 W x X) as [A1 A2]. destruct (float_of_Z_exact F32 W y Y) as [B1 B2].
  repeat split; try apply A1; try apply B1; auto.
Qed.
Example C102_ex : standard F32 /\ at_integers F32 (at_Z 7 (-3)) (7, -3) /\ at_integers F32 (at_Z 10 1) (10, 1) /\
  zdist (7, -3) (10, 1) = 25 /\ zdist (7, -3) (10, 1) <= 2 ^ f_prec F32 /\
  fdistanceSq_point F32 (at_Z 7 (-3)) (at_Z 10 1) = float_of_Z F32 25 /\
  (2 * rdist (at_Z 7 (-3)) (at_Z 10 1) < huge F32)%R.
Proof.
  assert (H1 : at_integers F32 (at_Z 7 (-3)) (7, -3)) by (apply at_Z_ok; lia).
  assert (H2 : at_integers F32 (at_Z 10 1) (10, 1)) by (apply at_Z_ok; lia).
  split; [left; reflexivity|]. split; [exact H1|]. split; [exact H2|].
  split; [reflexivity|]. split; [vm_compute; discriminate|]. split; [vm_compute; reflexivity|].
  destruct H1 as (_ & V1 & V2), H2 as (_ & V3 & V4). unfold rdist. rewrite V1, V2, V3, V4. cbn [fst snd].
  apply Rlt_le_trans with 16777216%R; [lra|]. apply huge_big. left; reflexivity.
Qed.

(** Two different points can have distance zero ... *)
Theorem C102_zero_refuted : exists p q, finite_point F32 p /\ finite_point F32 q /\ val (fst p) <> val (fst q) /\
  fdistanceSq_point F32 p q = S754_zero false.
Proof.
  exists origin, (S754_finite false 8388608 (-123), S754_zero false).
  split; [repeat split; reflexivity|]. split; [repeat split; reflexivity|]. split; [|vm_compute; reflexivity].
  cbn [fst]. unfold val. cbn [BinarySingleNaN.SF2R origin fst]. apply Rlt_not_eq.
  apply Float_prop.F2R_gt_0. reflexivity.
Qed.
Print Assumptions C102_zero_refuted.

(** ... and the nearer of two points can be reported as the farther one. *)
Theorem C102_order_refuted : exists p q a b, at_integers F32 p a /\ at_integers F32 q b /\
  zdist (0, 0) a < zdist (0, 0) b /\
  SFltb (fdistanceSq_point F32 origin q) (fdistanceSq_point F32 origin p) = true.
Proof.
  exists (at_Z 18055 17001), (at_Z 18004 17055), (18055, 17001), (18004, 17055).
  split; [apply at_Z_ok; lia|]. split; [apply at_Z_ok; lia|]. split; vm_compute; reflexivity.
Qed.
Print Assumptions C102_order_refuted.

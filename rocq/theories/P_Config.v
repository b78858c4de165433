(** C47, C70, C71: fixed and relative lengths. *)
From Coq Require Import QArith Floats.SpecFloat.
From Verif Require Import Base M_Otsu M_Float M_Config S_Otsu S_Config L_Config.
Open Scope Z_scope.

Theorem C47_relative : forall (c : clen Q) total, (0 <= cl_fraction c)%Q ->
  (clen_compute exact c total == larger (cl_length c) (cl_fraction c * total))%Q.
Proof. exact compute_relative. Qed.
Print Assumptions C47_relative.

Theorem C47_fixed : forall (c : clen Q) total, (cl_fraction c < 0)%Q -> clen_compute exact c total = cl_length c.
Proof. exact compute_fixed. Qed.
Print Assumptions C47_fixed.

(** Lengths made by the two factories: a fixed number of pixels whatever the total, in exact arithmetic and in doubles; a
    fraction of the total but not less than the minimum. *)
Theorem C47_made_fixed : forall p total : Q,
  clen_compute exact (clen_fixed exact p) total = p /\ clen_isFixed exact (clen_fixed exact p) = true.
Proof. split; reflexivity. Qed.
Print Assumptions C47_made_fixed.
Theorem C47_made_double : forall p total : spec_float,
  clen_compute double (clen_fixed double p) total = p /\ clen_isFixed double (clen_fixed double p) = true.
Proof. split; reflexivity. Qed.
Print Assumptions C47_made_double.
Theorem C47_made_relative : forall (f total : Q) (minimum : Z), (0 <= f)%Q ->
  (clen_compute exact (clen_relative exact f minimum) total == larger (inject_Z minimum) (f * total))%Q.
Proof. intros f total minimum H. exact (compute_relative (clen_relative exact f minimum) total H). Qed.
Print Assumptions C47_made_relative.

(** A tenth of 78 pixels but at least 5, or at least 9. *)
Example C47_lengths :
  (clen_compute exact (clen_relative exact (1 # 10) 5) 78 == 78 # 10)%Q /\
  (clen_compute exact (clen_relative exact (1 # 10) 9) 78 == 9)%Q /\
  clen_compute exact (clen_fixed exact 11%Q) 78%Q = 11%Q.
Proof. split; [reflexivity|split; reflexivity]. Qed.

(** [nearest q z] is z - 1/2 <= q < z + 1/2: halves are rounded up. *)
Theorem C47_computeI : forall (c : clen Q) total, let size := clen_compute exact c total in
  (0 <= size)%Q -> (size < 2147483647 + (1 # 2))%Q ->
  exists z, clen_computeI exact c total = Ok z /\ nearest size z.
Proof. exact computeI_nearest. Qed.
Print Assumptions C47_computeI.

Example C47_rounding : clen_computeI exact (clen_relative exact (1 # 10) 5) 75%Q = Ok 8 /\
  clen_computeI exact (clen_relative exact (1 # 10) 5) 74%Q = Ok 7.
Proof. split; reflexivity. Qed.

Theorem C47_negative : forall (c : clen Q) total, (clen_compute exact c total < 0)%Q -> clen_computeI exact c total = Ok (-1).
Proof. exact computeI_negative. Qed.
Print Assumptions C47_negative.

(** A larger length does not fit the result and is undefined. *)
Theorem C47_large : forall (c : clen Q) total, (2147483647 + (1 # 2) <= clen_compute exact c total)%Q ->
  clen_computeI exact c total = Undef.
Proof. exact computeI_large. Qed.
Print Assumptions C47_large.

Example C47_extremes : clen_computeI exact (clen_default exact) 75%Q = Ok (-1) /\
  clen_computeI exact (clen_fixed exact 3000000000%Q) 75%Q = Undef.
Proof. split; reflexivity. Qed.

(** Exactly one of the two modes holds, in exact arithmetic and for every double but NaN. *)
Theorem C47_modes : forall c : clen Q, clen_isFixed exact c = negb (clen_isRelative exact c).
Proof. exact one_mode. Qed.
Print Assumptions C47_modes.
Theorem C47_modes_double : forall c : clen spec_float, cl_fraction c <> S754_nan ->
  clen_isFixed double c = negb (clen_isRelative double c).
Proof. exact one_mode_double. Qed.
Print Assumptions C47_modes_double.

Example C47_modes_case : clen_isFixed double (clen_default double) = true /\
  clen_isRelative double (clen_relative double (S754_zero true) 3) = true.
Proof. split; reflexivity. Qed.

Theorem C47_validity : forall c : clen Q,
  clen_checkValidity exact c = Throw <-> (cl_length c < 0 /\ cl_fraction c < 0)%Q.
Proof. exact validity. Qed.
Print Assumptions C47_validity.
(** The default length: no fraction, no length, so every computation yields -1 and the check refuses it. *)
Theorem C47_default :
  (forall total, clen_compute exact (clen_default exact) total = inject_Z (-1) /\ clen_computeI exact (clen_default exact) total = Ok (-1)) /\
  (forall total, clen_compute double (clen_default double) total = float_of_Z F64 (-1) /\
     clen_computeI double (clen_default double) total = Ok (-1)) /\
  clen_isFixed exact (clen_default exact) = true /\ clen_isFixed double (clen_default double) = true /\
  clen_checkValidity exact (clen_default exact) = Throw /\ clen_checkValidity double (clen_default double) = Throw.
Proof. exact default_length. Qed.
Print Assumptions C47_default.

Theorem C47_validity_cases : forall {D} (O : dops D) c, clen_checkValidity O c = Throw \/ clen_checkValidity O c = Ok tt.
Proof. exact @validity_cases. Qed.
Print Assumptions C47_validity_cases.

Example C47_validity_case : clen_checkValidity exact (clen_default exact) = Throw /\
  clen_checkValidity exact (clen_fixed exact 0%Q) = Ok tt.
Proof. split; reflexivity. Qed.

(** C70: computed in doubles, a length below one half becomes 1. *)
Theorem C70_refuted : exists (c : clen spec_float) total size z,
  clen_checkValidity double c = Ok tt /\ float_value (clen_compute double c total) = Some size /\
  clen_computeI double c total = Ok z /\ ~ nearest size z.
Proof.
  exists (clen_fixed double below_half), (float_of_Z F64 0), (9007199254740991 # 18014398509481984)%Q, 1.
  destruct below_half_up as (A & B & C). split; [reflexivity|]. split; [rewrite B; exact C|]. split; [exact A|].
  intros [H _]. vm_compute in H. now apply H.
Qed.
Print Assumptions C70_refuted.

(** C71: the two integer lengths of a fixed configuration agree, but only if the length is not negative. *)
Theorem C71_nonnegative : forall (c : clen Q) total, (cl_fraction c < 0)%Q -> (0 <= cl_length c)%Q ->
  clen_getLengthI exact c = clen_computeI exact c total.
Proof. exact getLengthI_fixed. Qed.
Print Assumptions C71_nonnegative.

Example C71_case : clen_getLengthI exact (clen_fixed exact (7 # 2)) = Ok 4.
Proof. reflexivity. Qed.

Theorem C71_refuted : exists (c : clen Q) total, clen_isFixed exact c = true /\
  clen_computeI exact c total = Ok (-1) /\ clen_getLengthI exact c = Ok 0.
Proof. exists (clen_default exact), 75%Q. split; [reflexivity|split; reflexivity]. Qed.
Print Assumptions C71_refuted.

(** Facts about lengths. *)
From Coq Require Import QArith Qround Lqa Floats.SpecFloat.
From Verif Require Import Base BaseFacts M_Otsu M_Config M_Float S_Otsu S_Config L_Otsu L_BlockInt.
Open Scope Z_scope.

Lemma compute_relative c total : (0 <= cl_fraction c)%Q ->
  (clen_compute exact c total == larger (cl_length c) (cl_fraction c * total))%Q.
Proof.
  intros H. unfold clen_compute, d_max, larger. cbn [exact d_le d_of d_lt d_mul].
  apply Qle_bool_iff in H. change (inject_Z 0) with 0%Q. rewrite H.
  set (a := (cl_fraction c * total)%Q). set (l := cl_length c).
  assert (R : Qle_bool a a = true) by (apply Qle_bool_iff; apply Qle_refl). rewrite R.
  destruct (Qle_bool l a) eqn:E1; cbn [negb]; apply Qeq_refl.
Qed.
Lemma compute_fixed c total : (cl_fraction c < 0)%Q -> clen_compute exact c total = cl_length c.
Proof.
  intros H. unfold clen_compute. cbn [exact d_le d_of]. destruct (Qle_bool (inject_Z 0) (cl_fraction c)) eqn:E; auto.
  apply Qle_bool_iff in E. change (inject_Z 0) with 0%Q in E. lra.
Qed.

Lemma half_exact : d_half exact = (1 # 2).
Proof. reflexivity. Qed.

Lemma nearest_floor q : nearest q (Qfloor (q + (1 # 2))).
Proof.
  unfold nearest. pose proof (Qfloor_le (q + (1 # 2))). pose proof (Qlt_floor (q + (1 # 2))) as U.
  rewrite inject_Z_plus in U. change (inject_Z 1) with 1%Q in U. lra.
Qed.

Lemma computeI_nearest c total : let size := clen_compute exact c total in
  (0 <= size)%Q -> (size < 2147483647 + (1 # 2))%Q -> exists z, clen_computeI exact c total = Ok z /\ nearest size z.
Proof.
  intros size H L. unfold clen_computeI. fold size.
  assert (E : d_le exact (d_of exact 0) size = true) by (apply Qle_bool_iff; exact H). rewrite E.
  rewrite half_exact. cbn [exact d_add].
  exists (Qfloor (size + (1 # 2))). split; [|apply nearest_floor].
  apply d_to_exact_t; [lra|]. apply floor_le. change (inject_Z (ity_max S32 + 1)) with 2147483648%Q. lra.
Qed.
Lemma computeI_negative c total : (clen_compute exact c total < 0)%Q -> clen_computeI exact c total = Ok (-1).
Proof.
  intros H. unfold clen_computeI. destruct (d_le exact (d_of exact 0) (clen_compute exact c total)) eqn:E; auto.
  apply Qle_bool_iff in E. change (d_of exact 0) with 0%Q in E. lra.
Qed.
Lemma computeI_large c total : (2147483647 + (1 # 2) <= clen_compute exact c total)%Q -> clen_computeI exact c total = Undef.
Proof.
  intros H. unfold clen_computeI. set (size := clen_compute exact c total) in *.
  assert (E : d_le exact (d_of exact 0) size = true) by (apply Qle_bool_iff; change (d_of exact 0) with 0%Q; lra). rewrite E.
  rewrite half_exact. cbn [exact d_add]. unfold d_to. rewrite d_int_exact by lra.
  assert (X : 2147483648 <= Qfloor (size + (1 # 2))).
  { rewrite <- (Qfloor_Z 2147483648). apply Qfloor_resp_le. change (inject_Z 2147483648) with 2147483648%Q. lra. }
  destruct (Z.leb_spec (Qfloor (size + (1 # 2))) (ity_max S32)) as [Y|Y]; [change (ity_max S32) with 2147483647 in Y; lia|]. now rewrite Bool.andb_false_r.
Qed.
Lemma getLengthI_fixed c total : (cl_fraction c < 0)%Q -> (0 <= cl_length c)%Q ->
  clen_getLengthI exact c = clen_computeI exact c total.
Proof.
  intros F H. unfold clen_computeI, clen_getLengthI. rewrite compute_fixed by auto.
  assert (E : d_le exact (d_of exact 0) (cl_length c) = true) by (apply Qle_bool_iff; exact H). now rewrite E.
Qed.

Lemma one_mode c : clen_isFixed exact c = negb (clen_isRelative exact c).
Proof. reflexivity. Qed.
Lemma one_mode_double (c : clen spec_float) : cl_fraction c <> S754_nan ->
  clen_isFixed double c = negb (clen_isRelative double c).
Proof.
  intros N. unfold clen_isFixed, clen_isRelative. cbn [double d_lt d_le d_of].
  change (float_of_Z F64 0) with (S754_zero false).
  destruct (cl_fraction c) as [[]|[]| |[] m e]; try reflexivity. congruence.
Qed.

Lemma validity c : clen_checkValidity exact c = Throw <-> (cl_length c < 0 /\ cl_fraction c < 0)%Q.
Proof.
  unfold clen_checkValidity. cbn [exact d_lt d_of]. change (inject_Z 0) with 0%Q.
  destruct (Qle_bool 0 (cl_length c)) eqn:A, (Qle_bool 0 (cl_fraction c)) eqn:B; cbn; split; intros H; try discriminate;
    try reflexivity; repeat match goal with
      | X : Qle_bool _ _ = true |- _ => apply Qle_bool_iff in X
      | X : Qle_bool ?a ?b = false |- _ => assert (~ (a <= b)%Q) by (rewrite <- Qle_bool_iff, X; discriminate); clear X
      end; lra || (split; lra).
Qed.
Lemma validity_cases {D} (O : dops D) c : clen_checkValidity O c = Throw \/ clen_checkValidity O c = Ok tt.
Proof. unfold clen_checkValidity. destruct (_ && _); auto. Qed.

(** A double just below one half. *)
Definition below_half : spec_float := S754_finite false 9007199254740991 (-54).
Lemma below_half_up : clen_computeI double (clen_fixed double below_half) (float_of_Z F64 0) = Ok 1 /\
  clen_compute double (clen_fixed double below_half) (float_of_Z F64 0) = below_half /\
  float_value below_half = Some (9007199254740991 # 18014398509481984)%Q.
Proof. split; [vm_compute; reflexivity|]. split; vm_compute; reflexivity. Qed.

Lemma default_length :
  (forall total, clen_compute exact (clen_default exact) total = inject_Z (-1) /\ clen_computeI exact (clen_default exact) total = Ok (-1)) /\
  (forall total, clen_compute double (clen_default double) total = float_of_Z F64 (-1) /\
     clen_computeI double (clen_default double) total = Ok (-1)) /\
  clen_isFixed exact (clen_default exact) = true /\ clen_isFixed double (clen_default double) = true /\
  clen_checkValidity exact (clen_default exact) = Throw /\ clen_checkValidity double (clen_default double) = Throw.
Proof. repeat split; reflexivity. Qed.

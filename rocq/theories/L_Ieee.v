(** The operations of [Coq.Floats.SpecFloat] and the real numbers: each result is the exact result rounded to nearest even,
    for every precision and exponent range. *)
From Coq Require Import Reals ZArith Bool Lia Lra Psatz.
From Coq Require Import Floats.SpecFloat.
From Flocq Require Import Core Relative Plus_error BinarySingleNaN.
From Verif Require Import Base M_Float S_Ieee.

Lemma nearest_equiv s m l : SpecFloat.round_nearest_even m l = choice_mode mode_NE s m l.
Proof.
  case l; [reflexivity|intro c]. case c; [|reflexivity..].
  now simpl; unfold Round.cond_incr; case Z.even.
Qed.

Section Bridge.
Variables prec emax : Z.
Context (Hp : FLX.Prec_gt_0 prec) (He : Prec_lt_emax prec emax).

Lemma round_aux_equiv sx mx ex lx :
  SpecFloat.binary_round_aux prec emax sx mx ex lx = BinarySingleNaN.binary_round_aux prec emax mode_NE sx mx ex lx.
Proof.
  unfold SpecFloat.binary_round_aux, BinarySingleNaN.binary_round_aux.
  set (mrse' := shr_fexp _ _ _ _ _). case mrse'; intros mrs' e'; simpl.
  now rewrite (nearest_equiv sx).
Qed.
Lemma round_equiv s m e : SpecFloat.binary_round prec emax s m e = BinarySingleNaN.binary_round prec emax mode_NE s m e.
Proof.
  unfold SpecFloat.binary_round, BinarySingleNaN.binary_round, shl_align_fexp.
  set (mez := shl_align _ _ _); case mez as [mz ez]. apply round_aux_equiv.
Qed.
Lemma normalize_equiv m e sz :
  SpecFloat.binary_normalize prec emax m e sz = B2SF (BinarySingleNaN.binary_normalize prec emax Hp He mode_NE m e sz).
Proof. case m as [|p|p]; [now simpl|simpl; rewrite B2SF_SF2B; apply round_equiv..]. Qed.

Lemma mul_equiv (x y : binary_float prec emax) : SFmul prec emax (B2SF x) (B2SF y) = B2SF (Bmult mode_NE x y).
Proof.
  destruct x as [sx|sx| |sx mx ex Bx]; destruct y as [sy|sy| |sy my ey By]; [now trivial..|].
  simpl. rewrite B2SF_SF2B. apply round_aux_equiv.
Qed.
Lemma add_equiv (x y : binary_float prec emax) : SFadd prec emax (B2SF x) (B2SF y) = B2SF (Bplus mode_NE x y).
Proof.
  destruct x as [sx|sx| |sx mx ex Bx]; destruct y as [sy|sy| |sy my ey By];
    [now (trivial || simpl; case Bool.eqb)..|].
  apply normalize_equiv.
Qed.
Lemma sub_equiv (x y : binary_float prec emax) : SFsub prec emax (B2SF x) (B2SF y) = B2SF (Bminus mode_NE x y).
Proof.
  destruct x as [sx|sx| |sx mx ex Bx]; destruct y as [sy|sy| |sy my ey By];
    [now (trivial || simpl; case Bool.eqb)..|].
  simpl. unfold Z.sub. rewrite <- cond_Zopp_negb. apply normalize_equiv.
Qed.
Lemma div_equiv (x y : binary_float prec emax) : SFdiv prec emax (B2SF x) (B2SF y) = B2SF (Bdiv mode_NE x y).
Proof.
  destruct x as [sx|sx| |sx mx ex Bx]; destruct y as [sy|sy| |sy my ey By];
    [now (trivial || simpl; case Bool.eqb)..|].
  simpl. rewrite B2SF_SF2B.
  set (melz := SFdiv_core_binary _ _ _ _ _ _). case melz as [[mz ez] lz]. apply round_aux_equiv.
Qed.
End Bridge.

(** ** Values *)

Definition wfty (f : fty) : Prop := 0 < f_prec f < f_emax f.
Lemma standard_wfty f : standard f -> wfty f.
Proof. intros [->| ->]; unfold wfty; cbn; lia. Qed.

Definition rnd (f : fty) (r : R) : R := round radix2 (SpecFloat.fexp (f_prec f) (f_emax f)) ZnearestE r.
Definition fmt (f : fty) (r : R) : Prop := generic_format radix2 (SpecFloat.fexp (f_prec f) (f_emax f)) r.

Section Values.
Variable f : fty.
Hypothesis W : wfty f.
#[local] Instance Hp : FLX.Prec_gt_0 (f_prec f). Proof. exact (proj1 W). Qed.
#[local] Instance He : Prec_lt_emax (f_prec f) (f_emax f). Proof. exact (proj2 W). Qed.
#[local] Instance Vx : Valid_exp (SpecFloat.fexp (f_prec f) (f_emax f)).
Proof. exact (fexp_correct _ _ _). Qed.
#[local] Instance Mx : Monotone_exp (SpecFloat.fexp (f_prec f) (f_emax f)).
Proof. exact (fexp_monotone _ _). Qed.
Local Open Scope R_scope.

Lemma finite_B x : finite f x ->
  exists b : binary_float (f_prec f) (f_emax f), x = B2SF b /\ BinarySingleNaN.is_finite b = true /\ val x = B2R b.
Proof.
  intros [V F]. exists (SF2B x V). rewrite B2SF_SF2B, is_finite_SF2B, B2R_SF2B. auto.
Qed.
Lemma B_finite (b : binary_float (f_prec f) (f_emax f)) : BinarySingleNaN.is_finite b = true ->
  finite f (B2SF b) /\ val (B2SF b) = B2R b.
Proof.
  intros F. split; [split; [apply valid_binary_B2SF|now rewrite is_finite_SF_B2SF]|]. apply SF2R_B2SF.
Qed.

Lemma finite_fmt x : finite f x -> fmt f (val x).
Proof. intros (b & -> & F & ->)%finite_B. apply generic_format_B2R. Qed.
Lemma finite_lt x : finite f x -> Rabs (val x) < huge f.
Proof. intros (b & -> & F & ->)%finite_B. apply abs_B2R_lt_emax. Qed.

Lemma fadd_fin x y : finite f x -> finite f y -> Rabs (rnd f (val x + val y)) < huge f ->
  finite f (fadd f x y) /\ val (fadd f x y) = rnd f (val x + val y).
Proof.
  intros (a & -> & Fa & Va)%finite_B (b & -> & Fb & Vb)%finite_B H. rewrite Va, Vb in *.
  unfold fadd. rewrite (add_equiv _ _ Hp He).
  pose proof (Bplus_correct _ _ Hp He mode_NE a b Fa Fb) as C.
  rewrite Rlt_bool_true in C by exact H. destruct C as (C1 & C2 & _).
  destruct (B_finite _ C2) as [G1 G2]. split; auto. rewrite G2. exact C1.
Qed.
Lemma fsub_fin x y : finite f x -> finite f y -> Rabs (rnd f (val x - val y)) < huge f ->
  finite f (fsub f x y) /\ val (fsub f x y) = rnd f (val x - val y).
Proof.
  intros (a & -> & Fa & Va)%finite_B (b & -> & Fb & Vb)%finite_B H. rewrite Va, Vb in *.
  unfold fsub. rewrite (sub_equiv _ _ Hp He).
  pose proof (Bminus_correct _ _ Hp He mode_NE a b Fa Fb) as C.
  rewrite Rlt_bool_true in C by exact H. destruct C as (C1 & C2 & _).
  destruct (B_finite _ C2) as [G1 G2]. split; auto. rewrite G2. exact C1.
Qed.
Lemma fmul_fin x y : finite f x -> finite f y -> Rabs (rnd f (val x * val y)) < huge f ->
  finite f (fmul f x y) /\ val (fmul f x y) = rnd f (val x * val y).
Proof.
  intros (a & -> & Fa & Va)%finite_B (b & -> & Fb & Vb)%finite_B H. rewrite Va, Vb in *.
  unfold fmul. rewrite (mul_equiv _ _ Hp He).
  pose proof (Bmult_correct _ _ Hp He mode_NE a b) as C.
  rewrite Rlt_bool_true in C by exact H. destruct C as (C1 & C2 & _).
  rewrite Fa, Fb in C2. destruct (B_finite _ C2) as [G1 G2]. split; auto. rewrite G2. exact C1.
Qed.
Lemma fdiv_fin x y : finite f x -> finite f y -> val y <> 0 -> Rabs (rnd f (val x / val y)) < huge f ->
  finite f (fdiv f x y) /\ val (fdiv f x y) = rnd f (val x / val y).
Proof.
  intros (a & -> & Fa & Va)%finite_B (b & -> & Fb & Vb)%finite_B Z H. rewrite Va, Vb in *.
  unfold fdiv. rewrite (div_equiv _ _ Hp He).
  pose proof (Bdiv_correct _ _ Hp He mode_NE a b Z) as C.
  rewrite Rlt_bool_true in C by exact H. destruct C as (C1 & C2 & _).
  rewrite Fa in C2. destruct (B_finite _ C2) as [G1 G2]. split; auto. rewrite G2. exact C1.
Qed.
Lemma float_of_Z_fin z : Rabs (rnd f (IZR z)) < huge f ->
  finite f (float_of_Z f z) /\ val (float_of_Z f z) = rnd f (IZR z).
Proof.
  intros H. unfold float_of_Z. rewrite (normalize_equiv _ _ Hp He).
  pose proof (binary_normalize_correct _ _ Hp He mode_NE z 0 false) as C. cbv zeta in C.
  assert (E : F2R (Float radix2 z 0) = IZR z) by (unfold F2R; cbn; ring).
  rewrite E in C. rewrite Rlt_bool_true in C by exact H. destruct C as (C1 & C2 & _).
  destruct (B_finite _ C2) as [G1 G2]. split; auto. rewrite G2. exact C1.
Qed.

(** ** Rounding *)

Lemma rnd_id r : fmt f r -> rnd f r = r.
Proof. intros F. apply round_generic; [apply valid_rnd_N|exact F]. Qed.
Lemma rnd_le a b : a <= b -> rnd f a <= rnd f b.
Proof. apply round_le; [apply Vx|apply valid_rnd_N]. Qed.
Lemma rnd_0 : rnd f 0 = 0.
Proof. apply round_0. apply valid_rnd_N. Qed.
Lemma rnd_opp r : rnd f (- r) = - rnd f r.
Proof. apply round_NE_opp. Qed.
Lemma rnd_abs r : Rabs (rnd f r) = rnd f (Rabs r).
Proof.
  unfold Rabs. destruct (Rcase_abs r) as [N|P].
  - assert (rnd f r <= 0) by (rewrite <- rnd_0; apply rnd_le; lra).
    rewrite rnd_opp. destruct (Rcase_abs (rnd f r)); lra.
  - assert (0 <= rnd f r) by (rewrite <- rnd_0; apply rnd_le; lra).
    destruct (Rcase_abs (rnd f r)); lra.
Qed.

Lemma rnd_err r : Rabs (rnd f r - r) <= unit_error f * Rabs r + tiny_error f.
Proof.
  destruct (error_N_FLT radix2 (3 - f_emax f - f_prec f) (f_prec f) (proj1 W) (fun x => negb (Z.even x)) r)
    as (e & t & E1 & E2 & _ & E3).
  assert (U : unit_error f = / 2 * bpow radix2 (- f_prec f + 1)).
  { unfold unit_error. rewrite bpow_plus. cbn. lra. }
  assert (T : tiny_error f = / 2 * bpow radix2 (3 - f_emax f - f_prec f)).
  { unfold tiny_error. replace (3 - f_emax f - f_prec f)%Z with (2 - f_emax f - f_prec f + 1)%Z by ring.
    rewrite bpow_plus. cbn. lra. }
  change (rnd f r) with (round radix2 (FLT_exp (3 - f_emax f - f_prec f) (f_prec f)) ZnearestE r).
  rewrite E3. replace (r * (1 + e) + t - r) with (r * e + t) by ring.
  eapply Rle_trans; [apply Rabs_triang|]. rewrite Rabs_mult, U, T.
  apply Rplus_le_compat; auto. rewrite Rmult_comm. apply Rmult_le_compat_r; auto. apply Rabs_pos.
Qed.
Lemma rnd_add_err a b : fmt f a -> fmt f b -> Rabs (rnd f (a + b) - (a + b)) <= unit_error f * Rabs (a + b).
Proof.
  intros Fa Fb.
  assert (U : unit_error f = u_ro radix2 (f_prec f)).
  { unfold unit_error, u_ro. rewrite bpow_plus. cbn. lra. }
  assert (UP : 0 < unit_error f) by apply bpow_gt_0.
  destruct (FLT_plus_error_N_ex radix2 (3 - f_emax f - f_prec f) (f_prec f) (fun x => negb (Z.even x)) a b Fa Fb)
    as (e & E1 & E2).
  change (rnd f (a + b)) with (round radix2 (FLT_exp (3 - f_emax f - f_prec f) (f_prec f)) ZnearestE (a + b)).
  rewrite E2. replace ((a + b) * (1 + e) - (a + b)) with ((a + b) * e) by ring.
  rewrite Rabs_mult, Rmult_comm. apply Rmult_le_compat_r; [apply Rabs_pos|].
  eapply Rle_trans; [exact E1|]. rewrite <- U. unfold Rdiv.
  rewrite <- (Rmult_1_r (unit_error f)) at 3. apply Rmult_le_compat_l; [lra|].
  rewrite <- Rinv_1. apply Rinv_le; lra.
Qed.

Lemma int_fmt z : (Z.abs z <= 2 ^ f_prec f)%Z -> fmt f (IZR z).
Proof.
  intros H. destruct W as [W1 W2].
  replace (IZR z) with (F2R (Float radix2 z 0)) by (unfold F2R; cbn; ring).
  destruct (Z.eq_dec (Z.abs z) (2 ^ f_prec f)) as [E|N].
  - assert (z = 2 ^ f_prec f \/ z = - 2 ^ f_prec f)%Z as D by lia.
    assert (G : fmt f (bpow radix2 (f_prec f))).
    { apply generic_format_bpow. unfold SpecFloat.fexp, SpecFloat.emin. lia. }
    assert (B : IZR (2 ^ f_prec f) = bpow radix2 (f_prec f)) by (apply (IZR_Zpower radix2); lia).
    unfold F2R; cbn [Fnum Fexp bpow]. rewrite Rmult_1_r. destruct D as [->| ->].
    + rewrite B. exact G.
    + rewrite opp_IZR, B. apply generic_format_opp. exact G.
  - apply generic_format_FLT. exists (Float radix2 z 0); auto; cbn; [lia|].
    unfold SpecFloat.emin. lia.
Qed.
Lemma int_exact z : (Z.abs z <= 2 ^ f_prec f)%Z -> rnd f (IZR z) = IZR z /\ Rabs (rnd f (IZR z)) < huge f.
Proof.
  intros H. pose proof (rnd_id _ (int_fmt z H)) as E. rewrite E. split; auto.
  destruct W as [W1 W2].
  rewrite <- abs_IZR. apply Rle_lt_trans with (bpow radix2 (f_prec f)); [|apply bpow_lt; lia].
  rewrite <- (IZR_Zpower radix2) by lia. apply IZR_le. exact H.
Qed.
Lemma float_of_Z_exact z : (Z.abs z <= 2 ^ f_prec f)%Z ->
  finite f (float_of_Z f z) /\ val (float_of_Z f z) = IZR z.
Proof. intros H. destruct (int_exact z H) as [E L]. rewrite <- E at 1. apply float_of_Z_fin. exact L. Qed.
End Values.

(** Facts about distances of floating point points. *)
From Coq Require Import Reals Bool Lia Lra Psatz.
From Coq Require Import Floats.SpecFloat.
From Flocq Require Import Core BinarySingleNaN.
From Verif Require Import Base M_Float S_Ieee L_Ieee M_PointF S_PointF.

(** ** Symmetry, bit for bit *)

Definition sf_opp (x : spec_float) : spec_float :=
  match x with
  | S754_zero s => S754_zero (negb s)
  | S754_infinity s => S754_infinity (negb s)
  | S754_nan => S754_nan
  | S754_finite s m e => S754_finite (negb s) m e
  end.
Definition upto_sign (x y : spec_float) : Prop := x = y \/ x = sf_opp y.

Lemma mul_upto f x y : upto_sign x y -> fmul f x x = fmul f y y.
Proof.
  intros [->| ->]; auto. unfold fmul. destruct y as [s|s| |s m e]; cbn; auto; rewrite ?xorb_nilpotent; auto.
Qed.

Lemma aux_opp p e s m x l : SpecFloat.binary_round_aux p e (negb s) m x l = sf_opp (SpecFloat.binary_round_aux p e s m x l).
Proof.
  unfold SpecFloat.binary_round_aux. destruct (shr_fexp p e m x l) as [mrs e'].
  destruct (shr_fexp p e _ e' _) as [mrs' e'']. destruct (shr_m mrs'); auto.
  destruct (e'' <=? e - p)%Z; auto.
Qed.
Lemma round_opp p e s m x : SpecFloat.binary_round p e (negb s) m x = sf_opp (SpecFloat.binary_round p e s m x).
Proof. unfold SpecFloat.binary_round. destruct (shl_align m x _). apply aux_opp. Qed.
Lemma norm_opp p e m x : upto_sign (SpecFloat.binary_normalize p e m x false) (SpecFloat.binary_normalize p e (- m) x false).
Proof.
  destruct m as [|m|m]; cbn; [left; auto|right..].
  - apply (round_opp p e true).
  - apply (round_opp p e false).
Qed.
Lemma sub_swap f x y : upto_sign (fsub f x y) (fsub f y x).
Proof.
  unfold fsub. destruct x as [s|s| |s m e], y as [t|t| |t n d]; cbn;
    try (left; reflexivity);
    try (destruct s, t; cbn; ((left; reflexivity) || (right; reflexivity)));
    try (right; cbn; rewrite ?negb_involutive; reflexivity).
  rewrite (Z.min_comm d e).
  match goal with |- upto_sign (_ _ _ ?a ?z _) (_ _ _ ?b _ _) => replace b with (- a)%Z by lia end.
  apply norm_opp.
Qed.
Lemma dist_sym f p q : fdistanceSq_point f p q = fdistanceSq_point f q p.
Proof.
  unfold fdistanceSq_point, fdistanceSq.
  rewrite (mul_upto f _ _ (sub_swap f (fst q) (fst p))), (mul_upto f _ _ (sub_swap f (snd q) (snd p))). reflexivity.
Qed.

Lemma sub_self f x : finite f x -> fsub f x x = S754_zero false.
Proof.
  intros [V F]. unfold fsub. destruct x as [s|s| |s m e]; try discriminate; cbn.
  - destruct s; reflexivity.
  - rewrite Z.sub_diag. reflexivity.
Qed.
Lemma dist_self f p : finite_point f p -> fdistanceSq_point f p p = S754_zero false.
Proof.
  intros [F1 F2]. unfold fdistanceSq_point, fdistanceSq. rewrite !sub_self by auto. reflexivity.
Qed.

(** ** Values *)
Section V.
Variable f : fty.
Hypothesis St : standard f.
Let W := standard_wfty f St.
Local Open Scope R_scope.

Lemma step_exact x y a b : finite f x -> finite f y -> val x = IZR a -> val y = IZR b ->
  ((b - a) * (b - a) <= 2 ^ f_prec f)%Z ->
  finite f (fmul f (fsub f y x) (fsub f y x)) /\
  val (fmul f (fsub f y x) (fsub f y x)) = IZR ((b - a) * (b - a)).
Proof.
  intros Fx Fy Vx Vy H.
  assert (Q : forall z P, (z * z <= P -> Z.abs z <= P)%Z) by (intros; nia).
  pose proof (Q _ _ H) as D.
  destruct (int_exact f W _ D) as [E1 L1]. rewrite minus_IZR in E1, L1.
  rewrite <- Vx, <- Vy in E1, L1.
  destruct (fsub_fin f W _ _ Fy Fx L1) as [G1 G2]. rewrite E1, Vx, Vy, <- minus_IZR in G2.
  assert (D2 : (Z.abs ((b - a) * (b - a)) <= 2 ^ f_prec f)%Z) by (rewrite Z.abs_eq; [auto|apply Z.square_nonneg]).
  destruct (int_exact f W _ D2) as [E2 L2]. rewrite mult_IZR, <- G2 in E2, L2.
  destruct (fmul_fin f W _ _ G1 G1 L2) as [K1 K2]. split; auto. rewrite K2, E2, G2, mult_IZR. reflexivity.
Qed.
Lemma dist_exact p q a b : at_integers f p a -> at_integers f q b -> (zdist a b <= 2 ^ f_prec f)%Z ->
  finite f (fdistanceSq_point f p q) /\ val (fdistanceSq_point f p q) = IZR (zdist a b).
Proof.
  intros ((P1 & P2) & P3 & P4) ((Q1 & Q2) & Q3 & Q4) H. unfold zdist in *.
  pose proof (Z.square_nonneg (fst b - fst a)). pose proof (Z.square_nonneg (snd b - snd a)).
  destruct (step_exact _ _ _ _ P1 Q1 P3 Q3) as [X1 X2]; [lia|].
  destruct (step_exact _ _ _ _ P2 Q2 P4 Q4) as [Y1 Y2]; [lia|].
  assert (D : (Z.abs ((fst b - fst a) * (fst b - fst a) + (snd b - snd a) * (snd b - snd a)) <= 2 ^ f_prec f)%Z) by lia.
  destruct (int_exact f W _ D) as [E L]. rewrite plus_IZR, <- X2, <- Y2 in E, L.
  unfold fdistanceSq_point, fdistanceSq.
  destruct (fadd_fin f W _ _ X1 Y1 L) as [G1 G2]. split; auto. rewrite G2, E, X2, Y2, plus_IZR. reflexivity.
Qed.

Lemma unit_small : 0 < unit_error f <= / 16777216.
Proof.
  split; [apply bpow_gt_0|]. destruct St as [->| ->]; unfold unit_error; cbn; lra.
Qed.
Lemma tiny_small : 0 < tiny_error f <= / 16777216.
Proof.
  split; [apply bpow_gt_0|]. replace (/ 16777216) with (bpow radix2 (-24)) by (cbn; lra).
  apply bpow_le. destruct St as [->| ->]; cbn; lia.
Qed.
Lemma huge_big : 16777216 <= huge f.
Proof.
  replace 16777216 with (bpow radix2 24) by (cbn; lra).
  apply bpow_le. destruct St as [->| ->]; cbn; lia.
Qed.

Lemma step_error x y d : finite f x -> finite f y -> d = val y - val x -> 2 * (d * d) < huge f ->
  let m := fmul f (fsub f y x) (fsub f y x) in
  finite f m /\ Rabs (val m - d * d) <= ((1 + unit_error f) ^ 3 - 1) * (d * d) + tiny_error f.
Proof.
  intros Fx Fy Hd Hs m. set (u := unit_error f). set (t := tiny_error f).
  pose proof unit_small as U. fold u in U. pose proof tiny_small as T. fold t in T. pose proof huge_big as HB.
  pose proof (finite_fmt f _ Fx) as Mx. pose proof (finite_fmt f _ Fy) as My.
  assert (E1 : Rabs (rnd f d - d) <= u * Rabs d).
  { rewrite Hd. apply (rnd_add_err f W (val y) (- val x)); auto. apply generic_format_opp; auto. }
  set (a := rnd f d) in *.
  assert (A0 : Rabs d * Rabs d = d * d) by (rewrite <- Rabs_mult; apply Rabs_pos_eq; nra).
  assert (AB : Rabs a <= (1 + u) * Rabs d).
  { replace a with (d + (a - d)) by ring. eapply Rle_trans; [apply Rabs_triang|]. lra. }
  pose proof (Rabs_pos d) as Pd. pose proof (Rabs_pos a) as Pa.
  assert (L1 : Rabs a < huge f).
  { destruct (Rle_lt_dec 1 (Rabs d)) as [G|G].
    - assert (Rabs d <= d * d) by nra. nra.
    - nra. }
  destruct (fsub_fin f W _ _ Fy Fx) as [G1 G2]; [rewrite <- Hd; exact L1|].
  rewrite <- Hd in G2. fold a in G2.
  assert (A2 : Rabs (a * a - d * d) <= ((1 + u) * (1 + u) - 1) * (d * d)).
  { replace (a * a - d * d) with ((a - d) * (a - d) + 2 * ((a - d) * d)) by ring.
    eapply Rle_trans; [apply Rabs_triang|]. rewrite !Rabs_mult, (Rabs_pos_eq 2) by lra.
    assert (Rabs (a - d) * Rabs (a - d) <= (u * Rabs d) * (u * Rabs d)).
    { apply Rmult_le_compat; auto; apply Rabs_pos. }
    assert (Rabs (a - d) * Rabs d <= (u * Rabs d) * Rabs d) by (apply Rmult_le_compat_r; auto).
    nra. }
  assert (A3 : a * a <= (1 + u) * (1 + u) * (d * d)).
  { replace (a * a) with (Rabs a * Rabs a) by (rewrite <- Rabs_mult; apply Rabs_pos_eq; nra).
    rewrite <- A0. replace ((1 + u) * (1 + u) * (Rabs d * Rabs d)) with (((1 + u) * Rabs d) * ((1 + u) * Rabs d)) by ring.
    apply Rmult_le_compat; auto. }
  pose proof (rnd_err f W (a * a)) as E2. fold u t in E2. rewrite (Rabs_pos_eq (a * a)) in E2 by nra.
  assert (E3 : Rabs (rnd f (a * a) - d * d) <= ((1 + u) ^ 3 - 1) * (d * d) + t).
  { replace (rnd f (a * a) - d * d) with ((rnd f (a * a) - a * a) + (a * a - d * d)) by ring.
    eapply Rle_trans; [apply Rabs_triang|].
    assert (u * (a * a) <= u * ((1 + u) * (1 + u) * (d * d))) by (apply Rmult_le_compat_l; lra).
    replace (((1 + u) ^ 3 - 1) * (d * d)) with
      (u * ((1 + u) * (1 + u) * (d * d)) + ((1 + u) * (1 + u) - 1) * (d * d)) by ring.
    lra. }
  assert (C3 : (1 + u) ^ 3 - 1 <= / 4) by (assert (u * u <= / 100) by nra; assert (u * u * u <= / 100) by nra; cbn; nra).
  assert (P2 : 0 <= d * d) by nra.
  assert (L2 : Rabs (rnd f (val (fsub f y x) * val (fsub f y x))) < huge f).
  { rewrite G2. replace (rnd f (a * a)) with (d * d + (rnd f (a * a) - d * d)) by ring.
    eapply Rle_lt_trans; [apply Rabs_triang|]. rewrite (Rabs_pos_eq (d * d)) by auto.
    assert (((1 + u) ^ 3 - 1) * (d * d) <= / 4 * (d * d)) by (apply Rmult_le_compat_r; auto). lra. }
  destruct (fmul_fin f W _ _ G1 G1 L2) as [K1 K2]. split; auto. rewrite G2 in K2. unfold m. rewrite K2. exact E3.
Qed.

Lemma dist_error p q : finite_point f p -> finite_point f q -> 2 * rdist p q < huge f ->
  finite f (fdistanceSq_point f p q) /\
  Rabs (val (fdistanceSq_point f p q) - rdist p q) <=
    ((1 + unit_error f) ^ 4 - 1) * rdist p q + 3 * tiny_error f.
Proof.
  intros [P1 P2] [Q1 Q2] H. unfold rdist in *.
  set (dx := val (fst q) - val (fst p)) in *. set (dy := val (snd q) - val (snd p)) in *.
  assert (X0 : 0 <= dx * dx) by nra. assert (Y0 : 0 <= dy * dy) by nra.
  destruct (step_error _ _ dx P1 Q1 eq_refl) as [X1 X2]; [lra|].
  destruct (step_error _ _ dy P2 Q2 eq_refl) as [Y1 Y2]; [lra|].
  unfold fdistanceSq_point, fdistanceSq.
  set (u := unit_error f) in *. set (t := tiny_error f) in *.
  pose proof unit_small as U. fold u in U. pose proof tiny_small as T. fold t in T. pose proof huge_big as HB.
  set (A := fmul f (fsub f (fst q) (fst p)) (fsub f (fst q) (fst p))) in *.
  set (B := fmul f (fsub f (snd q) (snd p)) (fsub f (snd q) (snd p))) in *.
  set (D := dx * dx + dy * dy) in *.
  assert (E1 : Rabs (val A + val B - D) <= ((1 + u) ^ 3 - 1) * D + 2 * t).
  { replace (val A + val B - D) with ((val A - dx * dx) + (val B - dy * dy)) by (unfold D; ring).
    eapply Rle_trans; [apply Rabs_triang|]. unfold D. lra. }
  pose proof (rnd_add_err f W _ _ (finite_fmt f _ X1) (finite_fmt f _ Y1)) as E2. fold u in E2.
  assert (E3 : Rabs (val A + val B) <= (1 + u) ^ 3 * D + 2 * t).
  { replace (val A + val B) with (D + (val A + val B - D)) by ring.
    eapply Rle_trans; [apply Rabs_triang|]. rewrite (Rabs_pos_eq D) by (unfold D; lra). lra. }
  assert (E4 : Rabs (rnd f (val A + val B) - D) <= ((1 + u) ^ 4 - 1) * D + 3 * t).
  { replace (rnd f (val A + val B) - D) with ((rnd f (val A + val B) - (val A + val B)) + (val A + val B - D)) by ring.
    eapply Rle_trans; [apply Rabs_triang|].
    assert (u * Rabs (val A + val B) <= u * ((1 + u) ^ 3 * D + 2 * t)) by (apply Rmult_le_compat_l; lra).
    assert (u * (2 * t) <= t) by nra.
    replace (((1 + u) ^ 4 - 1) * D) with (u * ((1 + u) ^ 3 * D) + ((1 + u) ^ 3 - 1) * D) by ring. lra. }
  assert (C4 : (1 + u) ^ 4 - 1 <= / 4).
  { assert (u * u <= / 100) by nra. assert (u * u * u <= / 100) by nra. assert (u * u * u * u <= / 100) by nra. cbn; nra. }
  destruct (fadd_fin f W A B X1 Y1) as [G1 G2].
  { replace (rnd f (val A + val B)) with (D + (rnd f (val A + val B) - D)) by ring.
    eapply Rle_lt_trans; [apply Rabs_triang|]. rewrite (Rabs_pos_eq D) by (unfold D; lra).
    assert (((1 + u) ^ 4 - 1) * D <= / 4 * D) by (apply Rmult_le_compat_r; unfold D; lra). unfold D in *. lra. }
  split; auto. rewrite G2. exact E4.
Qed.
End V.

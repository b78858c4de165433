(** Rounding errors of the separation of two classes. *)
From Coq Require Import Reals Lia Lra Psatz.
Local Open Scope R_scope.

Lemma near_abs a b k : Rabs (a - b) <= k -> Rabs a <= Rabs b + k.
Proof. intros H. replace a with (b + (a - b)) by ring. eapply Rle_trans; [apply Rabs_triang|lra]. Qed.
Lemma near_trans a b c j k : Rabs (a - b) <= j -> Rabs (b - c) <= k -> Rabs (a - c) <= j + k.
Proof. intros H1 H2. replace (a - c) with ((a - b) + (b - c)) by ring. eapply Rle_trans; [apply Rabs_triang|lra]. Qed.

(** A quotient by [A], multiplied out. *)
Lemma quotient_near u t A B B' m k : 0 <= u -> 0 <= t -> 1 <= A -> 0 <= B <= A -> Rabs (B' - B) <= k ->
  Rabs (m - B' / A) <= u * Rabs (B' / A) + t -> Rabs (A * m - B) <= k * (1 + u) + (u + t) * A.
Proof.
  intros Hu Ht HA HB Hk Hm.
  assert (E1 : Rabs (A * m - B') <= u * Rabs B' + t * A).
  { replace (A * m - B') with (A * (m - B' / A)) by (field; lra). rewrite Rabs_mult, (Rabs_pos_eq A) by lra.
    assert (Rabs B' = A * Rabs (B' / A)).
    { rewrite <- (Rabs_pos_eq A) at 1 by lra. rewrite <- Rabs_mult. f_equal. field. lra. }
    nra. }
  assert (E2 : Rabs B' <= A + k) by (apply near_abs in Hk; rewrite (Rabs_pos_eq B) in Hk by lra; lra).
  pose proof (near_trans _ _ _ _ _ E1 Hk). nra.
Qed.

Section Between.
Variables u t e N A C B F S' B' mB D mF d p q b : R.
Hypothesis Hu : 0 < u <= / 1000000.
Hypothesis Ht : 0 <= t <= u / 100.
Hypothesis He : 6 * u <= e.
Hypothesis HA : 1 <= A.
Hypothesis HC : 1 <= C.
Hypothesis HN : N = A + C.
Hypothesis HB : 0 <= B <= A.
Hypothesis HF : 0 <= F <= C.
Hypothesis HS' : Rabs (S' - (B + F)) <= e * N.
Hypothesis HB' : Rabs (B' - B) <= e * N.
Hypothesis HmB : Rabs (mB - B' / A) <= u * Rabs (B' / A) + t.
Hypothesis HD : Rabs (D - (S' - B')) <= u * Rabs (S' - B').
Hypothesis HmF : Rabs (mF - D / C) <= u * Rabs (D / C) + t.
Hypothesis Hd : Rabs (d - (mB - mF)) <= u * Rabs (mB - mF).
Hypothesis Hp : Rabs (p - A * C) <= u * Rabs (A * C) + t.
Hypothesis Hq : Rabs (q - p * d) <= u * Rabs (p * d) + t.
Hypothesis Hb : Rabs (b - q * d) <= u * Rabs (q * d) + t.

Lemma small_terms W : 0 <= W <= N -> u * W <= e * N / 6 /\ t * W <= e * N / 600 /\ e * N * u <= e * N / 1000000 /\ 0 <= e * N.
Proof.
  intros HW. assert (Ne : 0 <= N) by lra. assert (EN : 0 <= e * N) by (apply Rmult_le_pos; lra).
  assert (u * W <= u * N) by (apply Rmult_le_compat_l; lra). assert (u * N <= e / 6 * N) by (apply Rmult_le_compat_r; lra).
  assert (t * W <= u / 100 * W) by (apply Rmult_le_compat_r; lra).
  assert (e * N * u <= e * N * / 1000000) by (apply Rmult_le_compat_l; lra). repeat split; lra.
Qed.
Lemma low_near : Rabs (A * mB - B) <= 14 / 10 * (e * N).
Proof.
  pose proof (quotient_near u t A B B' mB (e * N) ltac:(lra) ltac:(lra) HA HB HB' HmB) as H.
  destruct (small_terms A ltac:(lra)) as (U1 & U2 & U3 & U4). lra.
Qed.
Lemma rest_near : Rabs (D - F) <= 23 / 10 * (e * N).
Proof.
  assert (E1 : Rabs ((S' - B') - F) <= 2 * (e * N)).
  { replace ((S' - B') - F) with ((S' - (B + F)) - (B' - B)) by ring.
    eapply Rle_trans; [apply Rabs_triang|]. rewrite Rabs_Ropp. lra. }
  pose proof (near_abs _ _ _ E1) as E2. rewrite (Rabs_pos_eq F) in E2 by lra.
  pose proof (near_trans _ _ _ _ _ HD E1) as E3.
  destruct (small_terms C ltac:(lra)) as (U1 & U2 & U3 & U4).
  assert (u * Rabs (S' - B') <= u * (C + 2 * (e * N))) by (apply Rmult_le_compat_l; lra). lra.
Qed.
Lemma high_near : Rabs (C * mF - F) <= 26 / 10 * (e * N).
Proof.
  pose proof (quotient_near u t C F D mF (23 / 10 * (e * N)) ltac:(lra) ltac:(lra) HC HF rest_near HmF) as H.
  destruct (small_terms C ltac:(lra)) as (U1 & U2 & U3 & U4). lra.
Qed.
Definition P := A * C.
Definition X := C * B - A * F.
Lemma P_ge : N / 2 <= P.
Proof. unfold P. nra. Qed.
Lemma P_le : P <= N * N / 4.
Proof. unfold P. subst N. pose proof (Rle_0_sqr (A - C)). unfold Rsqr in *. lra. Qed.
Lemma X_le : Rabs X <= P.
Proof. unfold X, P. apply Rabs_le. nra. Qed.
Definition K := 27 / 10 * (e * (N * N)).
Lemma K_pos : 0 <= K.
Proof. unfold K. assert (0 <= e * (N * N)); [|lra]. apply Rmult_le_pos; [lra|nra]. Qed.
Lemma diff_near : Rabs (P * d - X) <= K.
Proof.
  pose proof low_near as L. pose proof high_near as H. set (z := e * N) in *. assert (Z : 0 <= z) by (unfold z; nra).
  assert (E1 : Rabs (P * (mB - mF) - X) <= 26 / 10 * (z * N)).
  { unfold P, X. replace (A * C * (mB - mF) - (C * B - A * F)) with (C * (A * mB - B) - A * (C * mF - F)) by ring.
    eapply Rle_trans; [apply Rabs_triang|]. rewrite Rabs_Ropp, !Rabs_mult, (Rabs_pos_eq C), (Rabs_pos_eq A) by lra.
    apply Rle_trans with (C * (14 / 10 * z) + A * (26 / 10 * z)); [apply Rplus_le_compat; apply Rmult_le_compat_l; lra|].
    subst N. nra. }
  assert (E2 : Rabs (P * d - P * (mB - mF)) <= u * Rabs (P * (mB - mF))).
  { replace (P * d - P * (mB - mF)) with (P * (d - (mB - mF))) by ring. rewrite !Rabs_mult.
    assert (0 <= Rabs P) by apply Rabs_pos. nra. }
  pose proof (near_abs _ _ _ E1) as E3. pose proof X_le as XL. pose proof P_le as PL.
  pose proof (near_trans _ _ _ _ _ E2 E1) as E4.
  assert (zN : 0 <= z * N) by nra.
  assert (E5 : u * Rabs (P * (mB - mF)) <= u * (N * N / 4 + 26 / 10 * (z * N))) by (apply Rmult_le_compat_l; lra).
  assert (E6 : u * (N * N) <= z * N / 6).
  { unfold z. replace (e * N * N / 6) with ((e / 6) * (N * N)) by field. apply Rmult_le_compat_r; [nra|lra]. }
  assert (E7 : u * (z * N) <= z * N / 1000000) by nra.
  unfold K. replace (e * (N * N)) with (z * N) by (unfold z; ring). lra.
Qed.
Definition Z0 := P * (d * d).
Lemma P_pos : 1 <= P.
Proof. unfold P. nra. Qed.
Lemma square_near : Rabs (Z0 - X * X / P) <= 2 * K + K * K / P.
Proof.
  pose proof P_pos as Pp. pose proof diff_near as E. pose proof X_le as XL. pose proof K_pos as Kp.
  replace (Z0 - X * X / P) with ((P * d - X) * (P * d + X) / P) by (unfold Z0; field; lra).
  unfold Rdiv at 1. rewrite !Rabs_mult, (Rabs_pos_eq (/ P)) by (left; apply Rinv_0_lt_compat; lra).
  replace (2 * K + K * K / P) with (K * (2 * P + K) * / P) by (field; lra).
  apply Rmult_le_compat_r; [left; apply Rinv_0_lt_compat; lra|]. apply Rmult_le_compat; try apply Rabs_pos; auto.
  replace (P * d + X) with ((P * d - X) + 2 * X) by ring. eapply Rle_trans; [apply Rabs_triang|].
  rewrite Rabs_mult, (Rabs_pos_eq 2) by lra. lra.
Qed.
Definition E := 54 / 10 * (e * (N * N)) + 146 / 10 * (e * e * (N * N * N)).
Lemma E_ge : 2 * K + K * K / P <= E.
Proof.
  pose proof P_ge as PG. pose proof P_pos as Pp. assert (N1 : 0 < N) by lra.
  unfold E. apply Rplus_le_compat; [unfold K; lra|].
  apply Rle_trans with (K * K / (N / 2)).
  - unfold Rdiv. apply Rmult_le_compat_l; [apply Rle_0_sqr|]. apply Rinv_le_contravar; lra.
  - unfold K. replace (27 / 10 * (e * (N * N)) * (27 / 10 * (e * (N * N))) / (N / 2)) with (2 * 729 / 100 * (e * e * (N * N * N))) by (field; lra).
    apply Rmult_le_compat_r; [|lra]. apply Rmult_le_pos; [nra|]. apply Rmult_le_pos; nra.
Qed.
Lemma product_near : Rabs (b - Z0) <= 6 * u * Z0 + 3 * t.
Proof.
  pose proof P_pos as Pp. assert (Dd : 0 <= d * d) by apply Rle_0_sqr. assert (Zd : d * d <= Z0) by (unfold Z0; nra).
  assert (d1 : Rabs d <= 1 + Z0).
  { assert (Rabs d * Rabs d = d * d) by (rewrite <- Rabs_mult; apply Rabs_pos_eq; auto). pose proof (Rabs_pos d). nra. }
  fold P in Hp. rewrite (Rabs_pos_eq P) in Hp by lra.
  assert (E1 : Rabs (p * d * d - Z0) <= 2 * u * Z0).
  { unfold Z0. replace (p * d * d - P * (d * d)) with ((p - P) * (d * d)) by ring. rewrite Rabs_mult, (Rabs_pos_eq (d * d)) by auto.
    apply Rle_trans with (2 * u * P * (d * d)); [apply Rmult_le_compat_r; auto; nra|lra]. }
  pose proof (near_abs _ _ _ E1) as A1. rewrite (Rabs_pos_eq Z0) in A1 by lra.
  assert (E2 : Rabs (q * d - p * d * d) <= u * Rabs (p * d * d) + t * Rabs d).
  { replace (q * d - p * d * d) with ((q - p * d) * d) by ring. rewrite Rabs_mult, (Rabs_mult (p * d) d).
    apply Rle_trans with ((u * Rabs (p * d) + t) * Rabs d); [apply Rmult_le_compat_r; auto using Rabs_pos|lra]. }
  assert (E3 : Rabs (q * d - p * d * d) <= u * ((1 + 2 * u) * Z0) + t * (1 + Z0)).
  { eapply Rle_trans; [apply E2|]. apply Rplus_le_compat; apply Rmult_le_compat_l; lra. }
  pose proof (near_trans _ _ _ _ _ E3 E1) as E4.
  assert (UZ : 0 <= u * Z0) by (apply Rmult_le_pos; lra).
  assert (U2 : u * (u * Z0) <= / 1000000 * (u * Z0)) by (apply Rmult_le_compat_r; lra).
  assert (T1 : t * Z0 <= u / 100 * Z0) by (apply Rmult_le_compat_r; lra).
  assert (E5 : Rabs (q * d - Z0) <= 4 * u * Z0 + t) by lra.
  pose proof (near_abs _ _ _ E5) as A2. rewrite (Rabs_pos_eq Z0) in A2 by lra.
  pose proof (near_trans _ _ _ _ _ Hb E5) as E6.
  assert (u * Rabs (q * d) <= u * (Z0 + (4 * u * Z0 + t))) by (apply Rmult_le_compat_l; lra).
  assert (u * t <= / 1000000 * t) by (apply Rmult_le_compat_r; lra). lra.
Qed.
Lemma between_near : Rabs (b - X * X / P) <= (N * N) * (6 * e + 16 * (e * e) * N).
Proof.
  pose proof P_pos as Pp. pose proof product_near as E1. pose proof square_near as E2. pose proof E_ge as E3.
  pose proof (near_abs _ _ _ E2) as A2. pose proof P_le as PL. pose proof X_le as XL.
  assert (Q0 : 0 <= X * X / P <= N * N / 4).
  { assert (X * X <= P * P).
    { replace (X * X) with (Rabs X * Rabs X) by (rewrite <- Rabs_mult; apply Rabs_pos_eq, Rle_0_sqr). apply Rmult_le_compat; auto using Rabs_pos. }
    split.
    - apply Rmult_le_pos; [apply Rle_0_sqr|left; apply Rinv_0_lt_compat; lra].
    - apply Rmult_le_reg_r with P; [lra|]. unfold Rdiv. rewrite Rmult_assoc, Rinv_l by lra. nra. }
  rewrite (Rabs_pos_eq (X * X / P)) in A2 by lra.
  assert (Zp : 0 <= Z0) by (unfold Z0; apply Rmult_le_pos; [lra|apply Rle_0_sqr]).
  rewrite (Rabs_pos_eq Z0) in A2 by lra.
  pose proof (near_trans _ _ _ _ _ E1 E2) as E4.
  set (a := e * (N * N)) in *. set (c := e * e * (N * N * N)) in *.
  assert (NN : 4 <= N * N) by nra.
  assert (a0 : 0 <= a) by (unfold a; nra). assert (c0 : 0 <= c) by (unfold c; apply Rmult_le_pos; nra).
  assert (ua : u * (N * N) <= a / 6) by (unfold a; nra).
  assert (E5 : 6 * u * Z0 <= 6 * u * (N * N / 4 + E)) by (apply Rmult_le_compat_l; lra).
  replace (N * N * (6 * e + 16 * (e * e) * N)) with (6 * a + 16 * c) by (unfold a, c; ring).
  unfold E in *. fold a c in E5, E3 |- *.
  assert (u * a <= / 1000000 * a) by (apply Rmult_le_compat_r; lra).
  assert (u * c <= / 1000000 * c) by (apply Rmult_le_compat_r; lra).
  assert (t <= a / 2400) by nra. lra.
Qed.
End Between.

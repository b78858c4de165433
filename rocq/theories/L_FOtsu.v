(** Facts about Otsu's method in [double]. *)
From Coq Require Import QArith Reals Qreals Bool Lia Lra Psatz.
From Coq Require Import Floats.SpecFloat.
From Flocq Require Import Core BinarySingleNaN.
From Verif Require Import BaseFacts M_Image M_Convolve S_Image L_Image M_GrowArray L_GrowArray S_Blur L_Blur M_Stats S_Stats L_Stats S_Convolve M_Float
  M_Binary S_Binary L_Binary M_Otsu S_Otsu L_Otsu L_OtsuImage S_Ieee L_Ieee L_FStats S_FOtsu L_Between.
Local Open Scope R_scope.

(** ** Magnitudes of doubles *)
Notation u := (unit_error F64).
Notation tn := (tiny_error F64).
Lemma W64 : wfty F64.
Proof. apply standard_wfty. now right. Qed.
Lemma u_val : u = / 9007199254740992.
Proof. unfold unit_error, bpow. cbn [f_prec F64]. change (Z.pow_pos radix2 53) with 9007199254740992%Z. reflexivity. Qed.
Lemma tn_small : 0 <= tn <= u / 100.
Proof.
  split; [apply bpow_ge_0|]. apply Rle_trans with (bpow radix2 (-7) * u).
  - unfold tiny_error, unit_error. rewrite <- bpow_plus. apply bpow_le. cbn. lia.
  - assert (bpow radix2 (-7) <= / 100); [|pose proof u_val; pose proof (bpow_gt_0 radix2 (- f_prec F64)); unfold unit_error in *; nra].
    unfold bpow. change (Z.pow_pos radix2 7) with 128%Z. apply Rinv_le_contravar; lra.
Qed.

Definition mag (a : Z) (x : spec_float) : Prop := finite F64 x /\ Rabs (val x) <= bpow radix2 a.
Lemma rnd_mag a r : (0 <= a <= 1000)%Z -> Rabs r <= bpow radix2 a -> Rabs (rnd F64 r) <= bpow radix2 a /\ Rabs (rnd F64 r) < huge F64.
Proof.
  intros Ha Hr. assert (L : Rabs (rnd F64 r) <= bpow radix2 a).
  { rewrite (rnd_abs F64 W64). rewrite <- (rnd_id F64 (bpow radix2 a)); [now apply (rnd_le F64 W64)|].
    apply generic_format_bpow. unfold fexp, emin. cbn [f_prec f_emax F64]. lia. }
  split; auto. eapply Rle_lt_trans; [apply L|]. unfold huge. apply bpow_lt. cbn. lia.
Qed.
Lemma mul_mag a b c x y : mag a x -> mag b y -> (a + b = c)%Z -> (0 <= c <= 1000)%Z ->
  mag c (fmul F64 x y) /\ Rabs (val (fmul F64 x y) - val x * val y) <= u * Rabs (val x * val y) + tn.
Proof.
  intros [Fx Mx] [Fy My] <- Ha. destruct (rnd_mag (a + b) (val x * val y) Ha) as [R1 R2].
  { rewrite Rabs_mult, bpow_plus. apply Rmult_le_compat; auto using Rabs_pos. }
  destruct (fmul_fin F64 W64 x y Fx Fy R2) as [F E]. rewrite E. split; [split; [exact F|now rewrite E]|]. apply (rnd_err F64 W64).
Qed.
Lemma div_mag a x y : mag a x -> finite F64 y -> 1 <= val y -> (0 <= a <= 1000)%Z ->
  mag a (fdiv F64 x y) /\ Rabs (val (fdiv F64 x y) - val x / val y) <= u * Rabs (val x / val y) + tn.
Proof.
  intros [Fx Mx] Fy Hy Ha. destruct (rnd_mag a (val x / val y) Ha) as [R1 R2].
  { unfold Rdiv. rewrite Rabs_mult, (Rabs_pos_eq (/ val y)) by (left; apply Rinv_0_lt_compat; lra).
    rewrite <- (Rmult_1_r (bpow radix2 a)). apply Rmult_le_compat; auto using Rabs_pos; [left; apply Rinv_0_lt_compat; lra|].
    rewrite <- Rinv_1. apply Rinv_le_contravar; lra. }
  destruct (fdiv_fin F64 W64 x y Fx Fy ltac:(lra) R2) as [F E]. rewrite E. split; [split; [exact F|now rewrite E]|]. apply (rnd_err F64 W64).
Qed.
Lemma bpow_1 a : bpow radix2 (a + 1) = 2 * bpow radix2 a.
Proof. rewrite bpow_plus. change (bpow radix2 1) with 2. ring. Qed.
Lemma add_mag a b x y : mag a x -> mag a y -> (a + 1 = b)%Z -> (0 <= b <= 1000)%Z ->
  mag b (fadd F64 x y) /\ Rabs (val (fadd F64 x y) - (val x + val y)) <= u * Rabs (val x + val y).
Proof.
  intros [Fx Mx] [Fy My] <- Ha. destruct (rnd_mag (a + 1) (val x + val y) Ha) as [R1 R2].
  { rewrite bpow_1. eapply Rle_trans; [apply Rabs_triang|]. lra. }
  destruct (fadd_fin F64 W64 x y Fx Fy R2) as [F E]. rewrite E. split; [split; [exact F|now rewrite E]|].
  apply (rnd_add_err F64 W64); now apply finite_fmt.
Qed.
Lemma sub_mag a b x y : mag a x -> mag a y -> (a + 1 = b)%Z -> (0 <= b <= 1000)%Z ->
  mag b (fsub F64 x y) /\ Rabs (val (fsub F64 x y) - (val x - val y)) <= u * Rabs (val x - val y).
Proof.
  intros [Fx Mx] [Fy My] <- Ha. destruct (rnd_mag (a + 1) (val x - val y) Ha) as [R1 R2].
  { rewrite bpow_1. unfold Rminus. eapply Rle_trans; [apply Rabs_triang|]. rewrite Rabs_Ropp. lra. }
  destruct (fsub_fin F64 W64 x y Fx Fy R2) as [F E]. rewrite E. split; [split; [exact F|now rewrite E]|].
  unfold Rminus. apply (rnd_add_err F64 W64); [now apply finite_fmt|apply generic_format_opp; now apply finite_fmt].
Qed.
Lemma int_mag z : (0 <= z < 4294967296)%Z -> finite F64 (float_of_Z F64 z) /\ val (float_of_Z F64 z) = IZR z /\ mag 32 (float_of_Z F64 z).
Proof.
  intros Hz. destruct (float_of_Z_exact F64 W64 z) as [F E]; [cbn [f_prec F64]; change (2 ^ 53)%Z with 9007199254740992%Z; lia|].
  split; auto. split; auto. split; auto. rewrite E, Rabs_pos_eq by (apply IZR_le; lia).
  replace (bpow radix2 32) with (IZR 4294967296) by (unfold bpow; now change (Z.pow_pos radix2 32) with 4294967296%Z). apply IZR_le. lia.
Qed.
Lemma mag_le a b x : mag a x -> (a <= b)%Z -> mag b x.
Proof. intros [F M] H. split; auto. eapply Rle_trans; [apply M|]. now apply bpow_le. Qed.
Lemma mag_32 x : finite F64 x -> Rabs (val x) <= 8589934592 -> mag 33 x.
Proof.
  intros F H. split; [exact F|]. eapply Rle_trans; [apply H|]. unfold bpow. change (Z.pow_pos radix2 33) with 8589934592%Z. lra.
Qed.

Section Fixed.
Variable l : list Z.
Hypothesis Hl : counts l.
Hypothesis Hn : (0 < zlen l <= 2147483648)%Z.
Variable h : growarr Z.
Hypothesis Hh : holds_counts h l.
Notation pre i := (firstn (Z.to_nat i) l).
Notation suf i := (skipn (Z.to_nat i) l).
Notation n := (IZR (zlen l)).
Notation N := (IZR (zsum l)).
Notation e := (bins_error (zlen l)).

Lemma n_range : 1 <= n <= 2147483648.
Proof. split; apply IZR_le; lia. Qed.
Lemma N_range : 0 <= N < 4294967296.
Proof. destruct Hl as (F & B & _). pose proof (nonneg_sum l F). split; [apply IZR_le|apply IZR_lt]; lia. Qed.
Lemma e_eq : e = (2 * n + 4) * u.
Proof. unfold bins_error. rewrite plus_IZR, mult_IZR. reflexivity. Qed.
Lemma e_ge : 6 * u <= e.
Proof. rewrite e_eq. pose proof n_range. pose proof u_val. apply Rmult_le_compat_r; lra. Qed.
Lemma e_small : e <= / 1000000.
Proof. rewrite e_eq, u_val. pose proof n_range. lra. Qed.

(** One summand. *)
Lemma term_near i v : (0 <= i < zlen l)%Z -> znth l i = Some v ->
  let q := fmul F64 (fdiv F64 (float_of_Z F64 i) (float_of_Z F64 (zlen l))) (float_of_Z F64 v) in
  finite F64 q /\ Rabs (val q - IZR (i * v) / n) <= 4 * u * IZR v /\ 0 <= IZR (i * v) / n <= IZR v.
Proof.
  intros Hi Ev q. pose proof (nonneg_val l Hl i v Ev) as Hv. pose proof (sum_count l i v Hl Ev) as Hs. destruct Hl as (_ & Hb & _).
  destruct (int_mag i ltac:(lia)) as (F1 & V1 & M1). destruct (int_mag (zlen l) ltac:(lia)) as (F2 & V2 & M2).
  destruct (int_mag v ltac:(lia)) as (F3 & V3 & M3). pose proof n_range as Rn. pose proof u_val as Uv. pose proof tn_small as Tv.
  assert (Q0 : 0 <= IZR i / n <= 1).
  { assert (0 <= IZR i <= n) by (split; apply IZR_le; lia). split.
    - apply Rmult_le_pos; [lra|]. left. apply Rinv_0_lt_compat. lra.
    - apply Rmult_le_reg_r with n; [lra|]. unfold Rdiv. rewrite Rmult_assoc, Rinv_l by lra. lra. }
  assert (V0 : 0 <= IZR v) by (apply IZR_le; lia).
  destruct (div_mag 32 (float_of_Z F64 i) (float_of_Z F64 (zlen l)) M1 F2 ltac:(lra) ltac:(lia)) as (M4 & E4).
  rewrite V1, V2, (Rabs_pos_eq (IZR i / n)) in E4 by lra. set (d := fdiv F64 _ _) in *.
  assert (E5 : Rabs (val d - IZR i / n) <= 102 / 100 * u) by nra.
  destruct (mul_mag 32 32 64 d (float_of_Z F64 v) M4 M3 eq_refl ltac:(lia)) as (M5 & E6). fold q in M5, E6. rewrite V3 in E6.
  split; [apply M5|].
  assert (Eq : IZR (i * v) / n = IZR i / n * IZR v) by (rewrite mult_IZR; field; lra). rewrite Eq. split; [|nra].
  destruct (Z.eq_dec v 0) as [->|N0].
  - destruct (fmul_fin F64 W64 d (float_of_Z F64 0) (proj1 M4) F3) as [_ E].
    { rewrite V3, Rmult_0_r, (rnd_0 F64), Rabs_R0. apply bpow_gt_0. }
    unfold q. rewrite E, V3, Rmult_0_r, (rnd_0 F64), !Rmult_0_r, Rminus_0_r, Rabs_R0. lra.
  - assert (V1' : 1 <= IZR v) by (apply IZR_le; lia).
    pose proof (near_abs _ _ _ E5) as A5. rewrite (Rabs_pos_eq (IZR i / n)) in A5 by lra.
    assert (E7 : Rabs (val d * IZR v - IZR i / n * IZR v) <= 102 / 100 * u * IZR v).
    { rewrite <- Rmult_minus_distr_r, Rabs_mult, (Rabs_pos_eq (IZR v)) by lra. apply Rmult_le_compat_r; lra. }
    pose proof (near_trans _ _ _ _ _ E6 E7) as E8. rewrite Rabs_mult, (Rabs_pos_eq (IZR v)) in E8 by lra.
    assert (Rabs (val d) * IZR v <= 102 / 100 * IZR v) by (apply Rmult_le_compat_r; lra).
    assert (u * (Rabs (val d) * IZR v) <= u * (102 / 100 * IZR v)) by (apply Rmult_le_compat_l; lra).
    assert (tn <= u * IZR v / 100) by nra. lra.
Qed.

(** Prefix sums. *)
Definition prefix (i : Z) (s : spec_float) : Prop :=
  finite F64 s /\ Rabs (val s - IZR (moment 0 (pre i)) / n) <= u * (4 * IZR (zsum (pre i)) + 2 * IZR i * N).
Lemma moment_range i : (0 <= i <= zlen l)%Z -> 0 <= IZR (moment 0 (pre i)) / n <= IZR (zsum (pre i)).
Proof.
  intros Hi. pose proof n_range as Rn. assert (F : Forall (fun c => 0 <= c)%Z (pre i)).
  { destruct Hl as (F & _). rewrite <- (firstn_skipn (Z.to_nat i) l) in F. now apply Forall_app in F. }
  assert (M : (0 <= moment 0 (pre i) <= zlen l * zsum (pre i))%Z).
  { pose proof (nonneg_sum _ F). destruct (moment_bounds 0 (pre i) F ltac:(lia)) as [B|B]; [rewrite pre_len in B by auto; nia|].
    rewrite B in *. cbn. lia. }
  destruct M as [M1 M2]. apply IZR_le in M1, M2. rewrite mult_IZR in M2. split.
  - apply Rmult_le_pos; [lra|]. left. apply Rinv_0_lt_compat. lra.
  - apply Rmult_le_reg_r with n; [lra|]. unfold Rdiv. rewrite Rmult_assoc, Rinv_l by lra. lra.
Qed.
Lemma prefix_sum_le i : IZR (zsum (pre i)) <= N.
Proof. apply IZR_le. pose proof (split_sum l i). pose proof (nonneg_suf l Hl i). lia. Qed.
Lemma prefix_err i s : (0 <= i <= zlen l)%Z -> prefix i s -> Rabs (val s - IZR (moment 0 (pre i)) / n) <= e * N.
Proof.
  intros Hi [_ H]. eapply Rle_trans; [apply H|]. rewrite e_eq. pose proof (prefix_sum_le i). pose proof u_val. pose proof N_range.
  assert (IZR i <= n) by (apply IZR_le; lia). assert (IZR i * N <= n * N) by (apply Rmult_le_compat_r; lra).
  replace ((2 * n + 4) * u * N) with (u * (2 * (n * N) + 4 * N)) by ring. apply Rmult_le_compat_l; [lra|]. lra.
Qed.
Lemma prefix_mag i s : (0 <= i <= zlen l)%Z -> prefix i s -> mag 33 s.
Proof.
  intros Hi H. pose proof (prefix_err i s Hi H) as E. destruct H as [F _]. apply mag_32; auto. apply near_abs in E.
  destruct (moment_range i Hi) as [M1 M2]. rewrite (Rabs_pos_eq (IZR (moment 0 (pre i)) / n)) in E by lra. pose proof (prefix_sum_le i). pose proof N_range.
  pose proof e_small. pose proof e_ge. pose proof u_val. assert (e * N <= N) by nra. lra.
Qed.
Lemma prefix_step i v s : (0 <= i < zlen l)%Z -> znth l i = Some v -> prefix i s ->
  prefix (i + 1) (fadd F64 s (fmul F64 (fdiv F64 (float_of_Z F64 i) (float_of_Z F64 (zlen l))) (float_of_Z F64 v))).
Proof.
  intros Hi Ev H. destruct (term_near i v Hi Ev) as (Fq & Eq & Rq). set (q := fmul F64 _ _) in *.
  pose proof (prefix_mag i s ltac:(lia) H) as Ms. pose proof (nonneg_val l Hl i v Ev) as Hv. pose proof (sum_count l i v Hl Ev) as Hs.
  pose proof N_range as RN. pose proof u_val as Uv. assert (V0 : 0 <= IZR v <= N) by (split; apply IZR_le; lia).
  assert (Mq : mag 33 q).
  { apply mag_32; auto. apply near_abs in Eq. rewrite (Rabs_pos_eq (IZR (i * v) / n)) in Eq by lra. nra. }
  destruct (add_mag 33 34 s q Ms Mq eq_refl ltac:(lia)) as ((Fr & _) & Er). split; auto.
  pose proof (prefix_err i s ltac:(lia) H) as Ee. destruct H as [_ H].
  rewrite (pre_moment_step l i v), (pre_sum_step l i v), !plus_IZR by (auto; lia).
  assert (E1 : Rabs (val s + val q - (IZR (moment 0 (pre i)) / n + IZR (i * v) / n)) <=
    u * (4 * IZR (zsum (pre i)) + 2 * IZR i * N) + 4 * u * IZR v).
  { replace (val s + val q - (IZR (moment 0 (pre i)) / n + IZR (i * v) / n)) with
      ((val s - IZR (moment 0 (pre i)) / n) + (val q - IZR (i * v) / n)) by ring.
    eapply Rle_trans; [apply Rabs_triang|lra]. }
  assert (E2 : Rabs (val s + val q) <= 102 / 100 * N).
  { assert (E2 : Rabs (val s + val q - (IZR (moment 0 (pre i)) / n + IZR (i * v) / n)) <= e * N + 4 * u * N).
    { replace (val s + val q - (IZR (moment 0 (pre i)) / n + IZR (i * v) / n)) with
        ((val s - IZR (moment 0 (pre i)) / n) + (val q - IZR (i * v) / n)) by ring.
      eapply Rle_trans; [apply Rabs_triang|]. assert (4 * u * IZR v <= 4 * u * N) by (apply Rmult_le_compat_l; lra). lra. }
    apply near_abs in E2. destruct (moment_range (i + 1) ltac:(lia)) as [M1 M2].
    rewrite (pre_moment_step l i v), plus_IZR in M1, M2 by (auto; lia).
    assert (Es : (IZR (moment 0 (pre i)) + IZR (i * v)) / n = IZR (moment 0 (pre i)) / n + IZR (i * v) / n)
      by (field; pose proof n_range; lra).
    rewrite Es in M1, M2. rewrite (Rabs_pos_eq (IZR (moment 0 (pre i)) / n + IZR (i * v) / n)) in E2 by lra. pose proof (prefix_sum_le (i + 1)). pose proof e_small.
    assert (e * N <= / 1000000 * N) by (apply Rmult_le_compat_r; lra).
    assert (u * N <= / 1000000 * N) by (apply Rmult_le_compat_r; lra). lra. }
  pose proof (near_trans _ _ _ _ _ Er E1) as E3.
  assert (u * Rabs (val s + val q) <= u * (102 / 100 * N)) by (apply Rmult_le_compat_l; lra).
  assert (0 <= u * N) by nra.
  replace ((IZR (moment 0 (pre i)) + IZR (i * v)) / n) with (IZR (moment 0 (pre i)) / n + IZR (i * v) / n)
    by (field; pose proof n_range; lra).
  eapply Rle_trans; [apply E3|]. lra.
Qed.
Lemma prefix_0 s : s = float_of_Z F64 0 -> prefix 0 s.
Proof.
  intros ->. destruct (int_mag 0 ltac:(lia)) as (F & V & _). split; auto. rewrite V. change (IZR (moment 0 (pre 0))) with 0. change (IZR (zsum (pre 0))) with 0.
  unfold Rdiv. rewrite Rmult_0_l, Rminus_0_r, Rabs_R0. lra.
Qed.
Lemma total_near inc : (forall i, (0 <= i < zlen l)%Z -> exists z, inc (i + 1)%Z = Ok z) ->
  exists s, otsu_total double inc h = Ok s /\ prefix (zlen l) s.
Proof.
  intros Hinc. unfold otsu_total. destruct Hh as [Es _]. rewrite Es.
  destruct (for_range_inv (fun i s => prefix i s) 0 (zlen l)
    (fun i s => let* v := ga_idx h i in let* _ := inc (i + 1)%Z in
       Ok (d_add double s (d_mul double (d_div double (d_of double i) (d_of double (zlen l))) (d_of double v)))) (d_of double 0))
    as (s & E & I).
  - lia.
  - now apply prefix_0.
  - intros i s Hi I. destruct (idx_ok l h Hh i Hi) as (v & Ev & ->). destruct (Hinc i Hi) as (z & ->). cbn [bind].
    eexists. split; [reflexivity|]. now apply prefix_step.
  - eauto.
Qed.

(** ** One split *)
Definition sepR (i : Z) : R := Q2R (separation l i).
Definition loss : R := N * N * (6 * e + 16 * (e * e) * N).
Definition cB i := IZR (zsum (pre (i + 1))).
Definition cF i := IZR (zsum (suf (i + 1))).
Definition sB i := IZR (moment 0 (pre (i + 1))) / n.
Definition sF i := IZR (moment (i + 1) (suf (i + 1))) / n.
Lemma Q2R_inj z : Q2R (inject_Z z) = IZR z.
Proof. unfold Q2R. cbn. field. Qed.
Lemma mean_real a b : (0 < b)%Z -> Q2R (inject_Z a / inject_Z b) = IZR a / IZR b.
Proof. intros H. rewrite Q2R_div, !Q2R_inj; auto. now apply inj_neq, Z.neq_sym, Z.lt_neq. Qed.
Lemma means_real i : (0 < zsum (pre (i + 1)))%Z -> (0 < zsum (suf (i + 1)))%Z ->
  Q2R (low_mean l i) = n * (sB i / cB i) /\ Q2R (high_mean l i) = n * (sF i / cF i).
Proof.
  intros H1 H2. pose proof n_range as Rn. assert (P1 : 0 < cB i) by now apply IZR_lt. assert (P2 : 0 < cF i) by now apply IZR_lt.
  unfold low_mean, high_mean, below, above. rewrite !mean_real by auto. unfold sB, sF, cB, cF in *. split; field; lra.
Qed.
Lemma sep_real i : (0 < zsum (pre (i + 1)))%Z -> (0 < zsum (suf (i + 1)))%Z ->
  sepR i / (n * n) = X (cB i) (cF i) (sB i) (sF i) * X (cB i) (cF i) (sB i) (sF i) / P (cB i) (cF i).
Proof.
  intros H1 H2. destruct (means_real i H1 H2) as [M1 M2]. pose proof n_range as Rn.
  assert (P1 : 0 < cB i) by now apply IZR_lt. assert (P2 : 0 < cF i) by now apply IZR_lt.
  unfold sepR, separation. replace (_ || _) with false by (unfold below, above; lia).
  rewrite !Q2R_mult, Q2R_minus, M1, M2. unfold below, above. rewrite !Q2R_inj. fold (cB i) (cF i). unfold X, P. field. lra.
Qed.
Lemma sep_zero i : zsum (pre (i + 1)) = 0%Z \/ zsum (suf (i + 1)) = 0%Z -> sepR i / (n * n) = 0.
Proof. intros H. unfold sepR. rewrite (separation_zero l i H). unfold Q2R, Rdiv. cbn. ring. Qed.
Lemma sep_nonneg i : 0 <= sepR i / (n * n).
Proof.
  pose proof n_range as Rn. apply Rmult_le_pos; [|left; apply Rinv_0_lt_compat; nra].
  unfold sepR. rewrite <- RMicromega.Q2R_0. apply Qle_Rle. now apply separation_nonneg.
Qed.
Lemma loss_nonneg : 0 <= loss.
Proof.
  pose proof N_range as RN. pose proof e_ge as G. pose proof u_val as U. unfold loss. apply Rmult_le_pos; [nra|].
  apply Rplus_le_le_0_compat; [lra|]. apply Rmult_le_pos; [nra|lra].
Qed.
Lemma high_range i : (0 <= i < zlen l)%Z -> 0 <= sF i <= cF i.
Proof.
  intros Hi. pose proof n_range as Rn. assert (F : Forall (fun c => 0 <= c)%Z (suf (i + 1))).
  { destruct Hl as (F & _). rewrite <- (firstn_skipn (Z.to_nat (i + 1)) l) in F. now apply Forall_app in F. }
  assert (Ls : zlen (suf (i + 1)) = (zlen l - (i + 1))%Z) by (unfold zlen in *; rewrite skipn_length; lia).
  assert (M : (0 <= moment (i + 1) (suf (i + 1)) <= zlen l * zsum (suf (i + 1)))%Z).
  { pose proof (nonneg_sum _ F). destruct (moment_bounds (i + 1) (suf (i + 1)) F ltac:(lia)) as [B|B]; [rewrite Ls in B; nia|].
    rewrite B in *. cbn. lia. }
  destruct M as [M1 M2]. apply IZR_le in M1, M2. rewrite mult_IZR in M2. unfold sF, cF. split.
  - apply Rmult_le_pos; [lra|]. left. apply Rinv_0_lt_compat. lra.
  - apply Rmult_le_reg_r with n; [lra|]. unfold Rdiv. rewrite Rmult_assoc, Rinv_l by lra. lra.
Qed.

(** The values computed for one split. *)
Section Split.
Variables (sum sumB : spec_float) (i : Z).
Hypothesis Hi : (0 <= i < zlen l)%Z.
Hypothesis Hsum : prefix (zlen l) sum.
Hypothesis HsumB : prefix (i + 1) sumB.
Hypothesis Hlow : (0 < zsum (pre (i + 1)))%Z.
Hypothesis Hhigh : (0 < zsum (suf (i + 1)))%Z.
Notation fB := (float_of_Z F64 (zsum (pre (i + 1)))).
Notation fF := (float_of_Z F64 (zsum (suf (i + 1)))).
Notation mB := (fdiv F64 sumB fB).
Notation mF := (fdiv F64 (fsub F64 sum sumB) fF).
Notation diff := (fsub F64 mB mF).
Notation between := (fmul F64 (fmul F64 (fmul F64 fB fF) diff) diff).
Lemma split_near :
  mag 134 between /\ Rabs (val between - sepR i / (n * n)) <= loss /\
  mag 33 mB /\ mag 34 mF /\
  Rabs (cB i * val mB - sB i) <= 14 / 10 * (e * N) /\ Rabs (cF i * val mF - sF i) <= 26 / 10 * (e * N).
Proof.
  pose proof (split_sum l (i + 1)) as T. destruct Hl as (_ & Hb & _).
  destruct (int_mag (zsum (pre (i + 1))) ltac:(lia)) as (F1 & V1 & M1). destruct (int_mag (zsum (suf (i + 1))) ltac:(lia)) as (F2 & V2 & M2).
  assert (A1 : 1 <= cB i) by (apply IZR_le; lia). assert (C1 : 1 <= cF i) by (apply IZR_le; lia).
  fold (cB i) in V1. fold (cF i) in V2.
  assert (HN : N = cB i + cF i) by (unfold cB, cF; rewrite <- plus_IZR; f_equal; lia).
  pose proof (prefix_mag (zlen l) sum ltac:(lia) Hsum) as Ms. pose proof (prefix_mag (i + 1) sumB ltac:(lia) HsumB) as MsB.
  pose proof (prefix_err (zlen l) sum ltac:(lia) Hsum) as Es. pose proof (prefix_err (i + 1) sumB ltac:(lia) HsumB) as EsB. fold (sB i) in EsB.
  assert (Et : IZR (moment 0 (pre (zlen l))) / n = sB i + sF i).
  { replace (pre (zlen l)) with l by (symmetry; apply firstn_all2; unfold zlen; lia).
    rewrite <- (split_moment l (i + 1)) by lia. rewrite plus_IZR. unfold sB, sF. pose proof n_range. field. lra. }
  rewrite Et in Es.
  destruct (div_mag 33 sumB fB MsB F1 ltac:(lra) ltac:(lia)) as (Mm & Em).
  destruct (sub_mag 33 34 sum sumB Ms MsB eq_refl ltac:(lia)) as (Md & Ed).
  destruct (div_mag 34 (fsub F64 sum sumB) fF Md F2 ltac:(lra) ltac:(lia)) as (Mf & Ef).
  destruct (sub_mag 34 35 mB mF (mag_le 33 34 _ Mm ltac:(lia)) Mf eq_refl ltac:(lia)) as (Mx & Ex).
  destruct (mul_mag 32 32 64 fB fF M1 M2 eq_refl ltac:(lia)) as (Mp & Ep).
  destruct (mul_mag 64 35 99 _ diff Mp Mx eq_refl ltac:(lia)) as (Mq & Eq).
  destruct (mul_mag 99 35 134 _ diff Mq Mx eq_refl ltac:(lia)) as (Mb & Eb).
  rewrite V1 in Em, Ep. rewrite V2 in Ef, Ep.
  pose proof u_val as Uv. pose proof tn_small as Tv. pose proof e_ge as Ge. pose proof (moment_range (i + 1) ltac:(lia)) as RB.
  fold (sB i) (cB i) in RB. pose proof (high_range i Hi) as RF.
  assert (Hu : 0 < u <= / 1000000) by lra.
  split; [exact Mb|]. split; [|split; [exact Mm|split; [exact Mf|split]]].
  - rewrite sep_real by auto. unfold loss.
    exact (between_near u tn e N (cB i) (cF i) (sB i) (sF i) (val sum) (val sumB) (val mB) (val (fsub F64 sum sumB)) (val mF) (val diff)
      (val (fmul F64 fB fF)) (val (fmul F64 (fmul F64 fB fF) diff)) (val between)
      Hu Tv Ge A1 C1 HN RB RF Es EsB Em Ed Ef Ex Ep Eq Eb).
  - now apply (low_near u tn e N (cB i) (cF i) (sB i) (val sumB) (val mB)).
  - now apply (high_near u tn e N (cB i) (cF i) (sB i) (sF i) (val sum) (val sumB) (val (fsub F64 sum sumB)) (val mF)).
Qed.
End Split.

(** ** Main loop *)
Definition means_near (k : Z) (mB mF : spec_float) : Prop :=
  mag 33 mB /\ mag 34 mF /\ Rabs (cB k * val mB - sB k) <= 14 / 10 * (e * N) /\ Rabs (cF k * val mF - sF k) <= 26 / 10 * (e * N).
Definition finv (i : Z) (s : otsu spec_float) : Prop :=
  (0 <= i <= zlen l)%Z /\
  (if o_stop s then zsum (suf i) = 0%Z else o_wB s = zsum (pre i) /\ prefix i (o_sumB s)) /\
  mag 134 (o_variance s) /\
  ((val (o_variance s) = 0 /\ o_index s = 0%Z /\ o_mB s = float_of_Z F64 0 /\ o_mF s = float_of_Z F64 0) \/
   ((0 <= o_index s < i)%Z /\ 0 < val (o_variance s) /\ (0 < zsum (pre (o_index s + 1)))%Z /\ (0 < zsum (suf (o_index s + 1)))%Z /\
    Rabs (val (o_variance s) - sepR (o_index s) / (n * n)) <= loss /\ means_near (o_index s) (o_mB s) (o_mF s))) /\
  (forall k, (0 <= k < i)%Z -> sepR k / (n * n) <= val (o_variance s) + loss).

Lemma finv_zero i s s' : finv i s -> (i < zlen l)%Z -> sepR i / (n * n) = 0 ->
  o_variance s' = o_variance s -> o_index s' = o_index s -> o_mB s' = o_mB s -> o_mF s' = o_mF s ->
  (if o_stop s' then zsum (suf (i + 1)) = 0%Z else o_wB s' = zsum (pre (i + 1)) /\ prefix (i + 1) (o_sumB s')) ->
  finv (i + 1) s'.
Proof.
  intros (R & _ & Fv & I & U) Hi Ez E1 E2 E3 E4 S'. unfold finv. rewrite E1, E2, E3, E4. split; [lia|]. split; [exact S'|].
  split; [exact Fv|]. split.
  - destruct I as [I|(I1 & I2)]; [now left|]. right. split; [lia|exact I2].
  - intros k Hk. destruct (Z.eq_dec k i) as [->|]; [|apply U; lia]. rewrite Ez. pose proof loss_nonneg.
    destruct I as [(I & _)|(_ & I & _)]; lra.
Qed.
Lemma prefix_wait i s : (0 <= i < zlen l)%Z -> zsum (pre (i + 1)) = zsum (pre i) -> moment 0 (pre (i + 1)) = moment 0 (pre i) ->
  prefix i s -> prefix (i + 1) s.
Proof.
  intros Hi E1 E2 [F H]. split; auto. rewrite E1, E2. eapply Rle_trans; [apply H|]. rewrite plus_IZR. pose proof N_range as RN. pose proof u_val.
  apply Rmult_le_compat_l; [lra|]. lra.
Qed.

Lemma fstep sum i s : prefix (zlen l) sum -> (0 <= i < zlen l)%Z -> finv i s ->
  exists s', otsu_step double h (zsum l) sum i s = Ok s' /\ finv (i + 1) s'.
Proof.
  intros Hsum Hi I. unfold otsu_step. assert (I0 := I). destruct I0 as (R & Sx & Fv & V & U).
  destruct (o_stop s) eqn:St.
  - exists s. split; auto. destruct (idx_ok l h Hh i Hi) as (v & Ev & _).
    assert (Z0 : zsum (suf (i + 1)) = 0%Z).
    { pose proof (split_sum l i). pose proof (split_sum l (i + 1)). rewrite (pre_sum_step l i v) in * by (auto; lia).
      pose proof (nonneg_val l Hl i v Ev). pose proof (nonneg_suf l Hl (i + 1)). lia. }
    apply (finv_zero i s s); auto; try lia; [apply sep_zero; auto|]. rewrite St. auto.
  - destruct Sx as [Hw Hs]. destruct (idx_ok l h Hh i Hi) as (v & Ev & ->). cbn [bind]. pose proof (nonneg_val l Hl i v Ev) as Hv.
    pose proof (pre_sum_step l i v ltac:(lia) Ev) as P. pose proof (pre_moment_step l i v ltac:(lia) Ev) as Q1.
    pose proof (split_sum l (i + 1)) as T. pose proof (nonneg_pre l Hl (i + 1)) as N1. pose proof (nonneg_suf l Hl (i + 1)) as N2.
    pose proof (nonneg_pre l Hl i) as N3. destruct Hl as (_ & Hb & _).
    rewrite Hw. replace (u32 (zsum (pre i) + v)) with (zsum (pre (i + 1))) by (rewrite P; symmetry; apply u32_id; lia).
    destruct (Z.eqb_spec (zsum (pre (i + 1))) 0) as [E0|E0].
    { eexists. split; [reflexivity|]. apply (finv_zero i s); auto; try lia.
      - apply sep_zero; auto.
      - cbn [o_stop o_wB o_sumB]. split; auto. assert (v = 0)%Z by lia. subst v. apply prefix_wait; auto; lia. }
    replace (u32 (zsum l - zsum (pre (i + 1)))) with (zsum (suf (i + 1))) by (symmetry; rewrite u32_id by lia; lia).
    destruct (Z.eqb_spec (zsum (suf (i + 1))) 0) as [F0|F0].
    { eexists. split; [reflexivity|]. apply (finv_zero i s); auto; try lia. apply sep_zero; auto. }
    destruct Hh as [Es _]. rewrite Es. cbn [d_div d_of d_add d_mul d_sub d_lt double].
    pose proof (prefix_step i v (o_sumB s) Hi Ev Hs) as HB. set (sumB := fadd F64 (o_sumB s) _) in *.
    destruct (split_near sum sumB i Hi Hsum HB ltac:(lia) ltac:(lia)) as (Fb & Eb & Mn).
    set (mB := fdiv F64 sumB _) in *. set (mF := fdiv F64 (fsub F64 sum sumB) _) in *. set (bt := fmul F64 (fmul F64 (fmul F64 _ _) _) _) in *.
    rewrite (ltb_val F64) by (apply Fv || apply Fb). pose proof loss_nonneg as Ln. apply Rabs_le_inv in Eb as Eb'.
    assert (V0 : 0 <= val (o_variance s)) by (destruct V as [(V & _)|(_ & V & _)]; lra).
    destruct (Rlt_bool_spec (val (o_variance s)) (val bt)) as [C|C].
    + eexists. split; [reflexivity|]. unfold finv. cbn [o_stop o_wB o_sumB o_variance o_index o_mB o_mF].
      split; [lia|]. split; [auto|]. split; [exact Fb|]. split.
      * right. split; [lia|]. split; [lra|]. split; [lia|]. split; [lia|]. split; [exact Eb|exact Mn].
      * intros k Hk. destruct (Z.eq_dec k i) as [->|]; [lra|]. specialize (U k ltac:(lia)). lra.
    + eexists. split; [reflexivity|]. unfold finv. cbn [o_stop o_wB o_sumB o_variance o_index o_mB o_mF].
      split; [lia|]. split; [auto|]. split; [exact Fv|]. split.
      * destruct V as [V|(V1 & V2)]; [now left|]. right. split; [lia|exact V2].
      * intros k Hk. destruct (Z.eq_dec k i) as [->|]; [lra|]. apply U; lia.
Qed.
Lemma floop sum : prefix (zlen l) sum -> exists s, otsu_loop double h (zsum l) sum = Ok s /\ finv (zlen l) s.
Proof.
  intros Hsum. unfold otsu_loop. pose proof Hh as [Es _]. rewrite Es. apply (for_range_inv finv); [lia| |].
  - unfold finv. cbn [o_stop o_wB o_sumB o_variance o_index o_mB o_mF]. destruct (int_mag 0 ltac:(lia)) as (F & V & M).
    split; [lia|]. split; [split; [reflexivity|now apply prefix_0]|]. split; [apply (mag_le 32 134 _ M); lia|]. split; [left; auto|]. intros; lia.
  - intros i s Hi I. apply fstep; auto.
Qed.
Lemma loss_eq : separation_loss (zlen l) (zsum l) = n * n * (2 * loss).
Proof. unfold separation_loss, loss. ring. Qed.
Lemma finv_best s : finv (zlen l) s -> near_best l (o_index s) /\ mag 134 (o_variance s) /\ 0 <= val (o_variance s).
Proof.
  intros (_ & _ & Fv & V & U). pose proof n_range as Rn. pose proof loss_nonneg as Ln.
  assert (SC : forall a c, a / (n * n) <= c -> a <= n * n * c).
  { intros a c Hc. replace a with (n * n * (a / (n * n))) by (field; lra). apply Rmult_le_compat_l; [nra|auto]. }
  assert (SD : forall k, sepR k = n * n * (sepR k / (n * n))) by (intros; field; lra).
  split; [|split; [exact Fv|destruct V as [(V & _)|(_ & V & _)]; lra]].
  destruct V as [(V1 & V2 & _)|(V1 & V2 & _ & _ & V3 & _)].
  - rewrite V2. split; [lia|]. intros k Hk. specialize (U k Hk). rewrite V1 in U. fold (sepR k) (sepR 0). rewrite loss_eq.
    pose proof (sep_nonneg 0). rewrite (SD k), (SD 0%Z). rewrite <- Rmult_plus_distr_l. apply Rmult_le_compat_l; [nra|]. lra.
  - split; [lia|]. intros k Hk. specialize (U k Hk). apply Rabs_le_inv in V3. fold (sepR k) (sepR (o_index s)). rewrite loss_eq.
    rewrite (SD k), (SD (o_index s)). rewrite <- Rmult_plus_distr_l. apply Rmult_le_compat_l; [nra|]. lra.
Qed.
Lemma fotsu_1 : exists v t, otsu_1 double h (zsum l) = Ok (v, float_of_Z F64 t) /\ near_best l t /\ mag 134 v /\ 0 <= val v.
Proof.
  unfold otsu_1. destruct (total_near (fun i => Ok (u32 i))) as (s & Es & Hs); [eauto|]. rewrite Es. cbn [bind].
  destruct (floop s Hs) as (o & Eo & I). rewrite Eo. cbn [bind]. apply finv_best in I as (B & V). eexists _, _. split; [reflexivity|]. auto.
Qed.
(** ** The middle between the means *)
Lemma low_mean_near A m B k : 1 <= A -> Rabs (A * m - B) <= k -> Rabs (m - B / A) <= k * / A.
Proof.
  intros HA H. replace (m - B / A) with ((A * m - B) * / A) by (field; lra).
  rewrite Rabs_mult, (Rabs_pos_eq (/ A)) by (left; apply Rinv_0_lt_compat; lra). apply Rmult_le_compat_r; auto.
  left. apply Rinv_0_lt_compat. lra.
Qed.
Lemma middle_near k mB mF : (zlen l <= 65536)%Z -> (0 <= k < zlen l)%Z -> (0 < zsum (pre (k + 1)))%Z -> (0 < zsum (suf (k + 1)))%Z ->
  means_near k mB mF ->
  let q := fdiv F64 (fmul F64 (float_of_Z F64 (zlen l)) (fadd F64 mB mF)) (float_of_Z F64 2) in
  let G := e * N * (/ cB k + / cF k) in
  mag 67 q /\ Rabs (val q - n * ((sB k / cB k + sF k / cF k) / 2)) <= 15 / 10 * (n * G) /\
  0 <= (sB k / cB k + sF k / cF k) / 2 <= 1 /\ 24 * u <= G /\ n * G <= 1000000.
Proof.
  intros Hs Hk H1 H2 (M1 & M2 & E1 & E2) q G.
  assert (A1 : 1 <= cB k) by (apply IZR_le; lia). assert (C1 : 1 <= cF k) by (apply IZR_le; lia).
  pose proof (split_sum l (k + 1)) as T. assert (HN : N = cB k + cF k) by (unfold cB, cF; rewrite <- plus_IZR; f_equal; lia).
  pose proof (moment_range (k + 1) ltac:(lia)) as RB. fold (sB k) (cB k) in RB. pose proof (high_range k Hk) as RF.
  pose proof u_val as Uv. pose proof tn_small as Tv. pose proof e_ge as Ge. pose proof e_small as Se. pose proof n_range as Rn. pose proof N_range as RN.
  assert (iB : 0 < / cB k <= 1) by (split; [apply Rinv_0_lt_compat; lra|rewrite <- Rinv_1; apply Rinv_le_contravar; lra]).
  assert (iF : 0 < / cF k <= 1) by (split; [apply Rinv_0_lt_compat; lra|rewrite <- Rinv_1; apply Rinv_le_contravar; lra]).
  assert (eN : 0 <= e * N) by nra.
  assert (NG : 4 <= N * (/ cB k + / cF k)).
  { replace (N * (/ cB k + / cF k)) with (4 + (cB k - cF k) * (cB k - cF k) * (/ cB k * / cF k)) by (rewrite HN; field; lra).
    pose proof (Rle_0_sqr (cB k - cF k)) as Q. unfold Rsqr in Q. assert (0 <= / cB k * / cF k) by nra. nra. }
  assert (G24 : 24 * u <= G).
  { unfold G. rewrite Rmult_assoc. apply Rle_trans with (e * 4); [lra|]. apply Rmult_le_compat_l; lra. }
  assert (m01 : 0 <= sB k / cB k <= 1) by (unfold Rdiv; split; [nra|]; apply Rmult_le_reg_r with (cB k); [lra|]; rewrite Rmult_assoc, Rinv_l by lra; lra).
  assert (k01 : 0 <= sF k / cF k <= 1) by (unfold Rdiv; split; [nra|]; apply Rmult_le_reg_r with (cF k); [lra|]; rewrite Rmult_assoc, Rinv_l by lra; lra).
  apply low_mean_near in E1; auto. apply low_mean_near in E2; auto.
  set (m := sB k / cB k) in *. set (w := sF k / cF k) in *.
  assert (E3 : Rabs (val mB + val mF - (m + w)) <= 26 / 10 * G).
  { replace (val mB + val mF - (m + w)) with ((val mB - m) + (val mF - w)) by ring. eapply Rle_trans; [apply Rabs_triang|].
    unfold G. rewrite Rmult_plus_distr_l. assert (0 <= e * N * / cB k) by nra. lra. }
  pose proof (near_abs _ _ _ E3) as A3. rewrite (Rabs_pos_eq (m + w)) in A3 by lra.
  destruct (int_mag (zlen l) ltac:(lia)) as (Fl & Vl & Ml). destruct (int_mag 2 ltac:(lia)) as (F2 & V2 & _).
  destruct (add_mag 34 35 mB mF (mag_le 33 34 _ M1 ltac:(lia)) M2 eq_refl ltac:(lia)) as (Ms & Es).
  destruct (mul_mag 32 35 67 _ _ Ml Ms eq_refl ltac:(lia)) as (Mp & Ep). set (p := fmul F64 _ _) in *. set (s := fadd F64 mB mF) in *.
  destruct (div_mag 67 p (float_of_Z F64 2) Mp F2 ltac:(lra) ltac:(lia)) as (Mq & Eq). fold q in Mq, Eq. rewrite Vl in Ep. rewrite V2 in Eq.
  assert (G0 : 0 <= G) by lra. assert (uG : u * G <= / 1000000 * G) by (apply Rmult_le_compat_r; lra).
  assert (B1 : u * Rabs (val mB + val mF) <= u * (2 + 26 / 10 * G)) by (apply Rmult_le_compat_l; lra).
  assert (E4 : Rabs (val s - (m + w)) <= 269 / 100 * G).
  { pose proof (near_trans _ _ _ _ _ Es E3). lra. }
  pose proof (near_abs _ _ _ E4) as A4. rewrite (Rabs_pos_eq (m + w)) in A4 by lra.
  assert (E5 : Rabs (n * val s - n * (m + w)) <= n * (269 / 100 * G)).
  { rewrite <- Rmult_minus_distr_l, Rabs_mult, (Rabs_pos_eq n) by lra. apply Rmult_le_compat_l; lra. }
  assert (nG : G <= n * G) by nra.
  assert (B2 : u * Rabs (n * val s) <= n * (u * (2 + 269 / 100 * G))).
  { rewrite Rabs_mult, (Rabs_pos_eq n) by lra. replace (u * (n * Rabs (val s))) with (n * (u * Rabs (val s))) by ring.
    apply Rmult_le_compat_l; [lra|]. apply Rmult_le_compat_l; lra. }
  assert (B3 : n * (u * (2 + 269 / 100 * G)) <= n * (9 / 100 * G)) by (apply Rmult_le_compat_l; lra).
  assert (E6 : Rabs (val p - n * (m + w)) <= 28 / 10 * (n * G)).
  { pose proof (near_trans _ _ _ _ _ Ep E5). lra. }
  pose proof (near_abs _ _ _ E6) as A6. rewrite (Rabs_pos_eq (n * (m + w))) in A6 by nra.
  assert (E7 : Rabs (val p / 2 - n * ((m + w) / 2)) <= 14 / 10 * (n * G)).
  { replace (val p / 2 - n * ((m + w) / 2)) with ((val p - n * (m + w)) * / 2) by field. rewrite Rabs_mult, (Rabs_pos_eq (/ 2)) by lra. lra. }
  assert (A7 : Rabs (val p / 2) <= n * (m + w) / 2 + 14 / 10 * (n * G)).
  { unfold Rdiv. rewrite Rabs_mult, (Rabs_pos_eq (/ 2)) by lra. lra. }
  assert (nm : n * (m + w) <= n * 2) by (apply Rmult_le_compat_l; lra).
  assert (B4 : u * Rabs (val p / 2) <= u * (n + 14 / 10 * (n * G))) by (apply Rmult_le_compat_l; lra).
  assert (un : u * n <= n * G / 24) by (replace (u * n) with (n * u) by ring; unfold Rdiv; rewrite Rmult_assoc; apply Rmult_le_compat_l; lra).
  assert (unG : u * (n * G) <= / 1000000 * (n * G)) by (apply Rmult_le_compat_r; lra).
  split; [exact Mq|]. split; [|split; [lra|split; [lra|]]].
  - pose proof (near_trans _ _ _ _ _ Eq E7). lra.
  - assert (n65 : n <= 65536) by (apply IZR_le; lia). assert (Es2 : e <= 131076 * u) by (rewrite e_eq; apply Rmult_le_compat_r; lra).
    assert (eN1 : e * N <= 131076 * u * 4294967296) by (apply Rmult_le_compat; lra).
    assert (G <= 131076 * u * 4294967296 * 2) by (unfold G; apply Rmult_le_compat; lra).
    apply Rle_trans with (65536 * (131076 * u * 4294967296 * 2)); [apply Rmult_le_compat; lra|]. rewrite Uv. lra.
Qed.
Lemma fotsu_2 : (zlen l <= 65536)%Z -> exists v q o, otsu_2 double h (zsum l) = Ok (v, q) /\ finv (zlen l) o /\
  mag 134 v /\ 0 <= val v /\ q = fdiv F64 (fmul F64 (float_of_Z F64 (zlen l)) (fadd F64 (o_mB o) (o_mF o))) (float_of_Z F64 2).
Proof.
  intros Hz. unfold otsu_2. destruct (total_near (arith_result S32)) as (s & Es & Hs).
  { intros i Hi. exists (i + 1)%Z. apply arith_result_in. cbn. lia. }
  rewrite Es. cbn [bind]. destruct (floop s Hs) as (o & Eo & I). rewrite Eo. cbn [bind]. destruct (finv_best o I) as (_ & V1 & V2).
  destruct Hh as [El _]. rewrite El. eexists _, _, o. split; [reflexivity|]. auto.
Qed.
End Fixed.

(** ** The result as an integer *)
Lemma float_int_any x : is_finite_SF x = true -> 0 <= val x -> float_int x = Some (Zfloor (val x)).
Proof.
  intros F P. destruct x as [s|s| |s m x]; try discriminate.
  - cbn. unfold val, SF2R. now rewrite (Zfloor_IZR 0).
  - unfold val, SF2R in *. destruct s.
    + exfalso. change (0 <= F2R (Float radix2 (Z.neg m) x)) in P. assert (F2R (Float radix2 (Z.neg m) x) < 0) by now apply F2R_lt_0. lra.
    + cbn [cond_Zopp] in *. unfold float_int, F2R. cbn [Fnum Fexp]. f_equal. destruct (Z.leb_spec 0 x) as [L|L].
      * rewrite <- IZR_Zpower, <- mult_IZR by auto. symmetry. apply Zfloor_IZR.
      * replace (bpow radix2 x) with (/ IZR (2 ^ (- x))).
        { symmetry. apply Zfloor_div. assert (0 < 2 ^ (- x))%Z by (apply Z.pow_pos_nonneg; lia). lia. }
        change (2 ^ (- x))%Z with (Zpower radix2 (- x)). rewrite IZR_Zpower, <- bpow_opp by lia. f_equal. lia.
Qed.
Lemma float_int_val x : finite F64 x -> 0 <= val x -> float_int x = Some (Zfloor (val x)).
Proof. intros [_ F]. now apply float_int_any. Qed.
Definition half64 : spec_float := fdiv F64 (float_of_Z F64 1) (float_of_Z F64 2).
Lemma half_val : finite F64 half64 /\ val half64 = / 2.
Proof.
  split; [split; vm_compute; reflexivity|]. replace half64 with (S754_finite false 4503599627370496 (-53)) by (vm_compute; reflexivity).
  unfold val, SF2R, F2R. cbn [cond_Zopp Fnum Fexp]. unfold bpow. change (Z.pow_pos radix2 53) with 9007199254740992%Z. lra.
Qed.
(** Adding one half to a number rounds it to within half a unit. *)
Lemma add_half x : finite F64 x -> 0 <= val x <= 2147483648 ->
  finite F64 (fadd F64 x half64) /\ Rabs (val (fadd F64 x half64) - (val x + / 2)) <= u * (val x + / 2) /\ 0 <= val (fadd F64 x half64).
Proof.
  intros F R. destruct half_val as [Fh Vh]. assert (Mx : mag 33 x) by (apply mag_32; [exact F|rewrite Rabs_pos_eq; lra]).
  assert (Mh : mag 33 half64) by (apply mag_32; [exact Fh|rewrite Vh, Rabs_pos_eq; lra]).
  destruct (add_mag 33 34 x half64 Mx Mh eq_refl ltac:(lia)) as ((F1 & _) & E1). rewrite Vh in E1. rewrite (Rabs_pos_eq (val x + / 2)) in E1 by lra.
  split; [exact F1|]. split; [exact E1|]. apply Rabs_le_inv in E1. pose proof u_val. nra.
Qed.
Lemma zero_times x : finite F64 x -> forall z, finite F64 z -> val z = 0 -> finite F64 (fmul F64 z x) /\ val (fmul F64 z x) = 0.
Proof.
  intros Fx z Fz Vz. destruct (fmul_fin F64 W64 z x Fz Fx) as [F E].
  - rewrite Vz, Rmult_0_l, rnd_0, Rabs_R0. apply bpow_gt_0.
  - split; [exact F|]. now rewrite E, Vz, Rmult_0_l, rnd_0.
Qed.
Definition positive_part (r : R) : R := Rmax 0 r.
Lemma fcompute (two : bool) down h N v q : (if two then otsu_2 double h N else otsu_1 double h N) = Ok (v, q) ->
  mag 134 v -> 0 <= val v -> mag 100 q -> val q <= 2147483647 ->
  exists v' r, otsu_compute double two (d_of double 0) down (d_of double 1) h N = Ok (v', float_of_Z F64 (Zfloor r)) /\
    (0 <= Zfloor r <= 2147483647)%Z /\ Rabs (r - (positive_part (val q) + / 2)) <= u * (positive_part (val q) + / 2).
Proof.
  intros E Mv Pv Mq Lq. unfold otsu_compute. rewrite E. cbn [bind]. cbn [d_of d_div d_add d_mul d_lt double].
  fold half64. destruct half_val as [Fh Vh]. destruct (int_mag 0 ltac:(lia)) as (F0 & V0 & M0). destruct (int_mag 1 ltac:(lia)) as (F1 & V1 & M1).
  destruct (int_mag 1000 ltac:(lia)) as (Fk & Vk & Mk). pose proof u_val as Uv. pose proof tn_small as Tv.
  destruct (div_mag 32 _ _ M1 Fk ltac:(lra) ltac:(lia)) as (Mc & Ec). rewrite V1, Vk in Ec.
  rewrite (Rabs_pos_eq (1 / 1000)) in Ec by lra. set (c := fdiv F64 (float_of_Z F64 1) (float_of_Z F64 1000)) in *.
  apply Rabs_le_inv in Ec.
  destruct (add_mag 134 135 v c Mv (mag_le 32 134 c Mc ltac:(lia)) eq_refl ltac:(lia)) as ((Fw & _) & Ew). set (w := fadd F64 v c) in *.
  assert (Pw : 0 < val w).
  { rewrite (Rabs_pos_eq (val v + val c)) in Ew by lra. apply Rabs_le_inv in Ew. nra. }
  destruct Mq as [Fq Mq].
  destruct (zero_times q Fq _ F0 V0) as [Fa Va]. destruct (zero_times _ F0 _ Fa Va) as [Fb Vb]. destruct (zero_times q Fq _ Fb Vb) as [Fd Vd].
  set (p := fmul F64 (fmul F64 _ _) q) in *.
  destruct (fdiv_fin F64 W64 p w Fd Fw ltac:(lra)) as [Fe Ve].
  { unfold Rdiv. rewrite Vd, Rmult_0_l, rnd_0, Rabs_R0. apply bpow_gt_0. }
  unfold Rdiv in Ve. rewrite Vd, Rmult_0_l, rnd_0 in Ve. set (z := fdiv F64 p w) in *.
  destruct (add_half z Fe ltac:(lra)) as (Fs & Es & Ps). rewrite Ve in Es.
  assert (A : d_to double S32 (fadd F64 z half64) = Ok 0%Z).
  { unfold d_to. cbn [d_int double]. rewrite float_int_val by auto. replace (Zfloor (val (fadd F64 z half64))) with 0%Z; [reflexivity|].
    symmetry. apply Zfloor_imp. apply Rabs_le_inv in Es. change (IZR (0 + 1)) with 1. lra. }
  rewrite A. cbn [bind]. replace (if down then arith_result S32 (- 0) else Ok 0%Z) with (@Ok Z 0%Z) by now destruct down. cbn [bind].
  assert (Fadd : finite F64 (fadd F64 q (float_of_Z F64 0)) /\ val (fadd F64 q (float_of_Z F64 0)) = val q).
  { assert (E0 : rnd F64 (val q + val (float_of_Z F64 0)) = val q) by (rewrite V0, Rplus_0_r; apply rnd_id; now apply finite_fmt).
    destruct (fadd_fin F64 W64 q (float_of_Z F64 0) Fq F0) as [G1 G2]; [rewrite E0; now apply finite_lt|]. split; auto. congruence. }
  destruct Fadd as [Fr Vr]. set (r := fadd F64 q (float_of_Z F64 0)) in *. rewrite (ltb_val F64) by auto. rewrite V0, Vr.
  set (y := if Rlt_bool (val q) 0 then float_of_Z F64 0 else r).
  assert (Hy : finite F64 y /\ val y = positive_part (val q) /\ 0 <= val y <= 2147483647).
  { unfold y, positive_part. destruct (Rlt_bool_spec (val q) 0) as [C|C].
    - rewrite Rmax_left by lra. split; auto. split; auto. rewrite V0. lra.
    - rewrite Rmax_right by lra. split; auto. split; auto. rewrite Vr. lra. }
  destruct Hy as (Fy & Vy & Ry).
  assert (Fone : finite F64 (fmul F64 (float_of_Z F64 1) y) /\ val (fmul F64 (float_of_Z F64 1) y) = val y).
  { assert (E0 : rnd F64 (val (float_of_Z F64 1) * val y) = val y) by (rewrite V1, Rmult_1_l; apply rnd_id; now apply finite_fmt).
    destruct (fmul_fin F64 W64 (float_of_Z F64 1) y F1 Fy) as [G1 G2]; [rewrite E0; now apply finite_lt|]. split; auto. congruence. }
  destruct Fone as [Fo Vo]. destruct (add_half _ Fo ltac:(lra)) as (Ft & Et & Pt). rewrite Vo, Vy in Et.
  set (x := fadd F64 (fmul F64 (float_of_Z F64 1) y) half64) in *.
  assert (G : (0 <= Zfloor (val x) <= 2147483647)%Z).
  { split; [apply Zfloor_lub; exact Pt|]. apply Z.lt_succ_r. apply lt_IZR. eapply Rle_lt_trans; [apply Zfloor_lb|].
    apply Rabs_le_inv in Et. rewrite <- Vy in Et. change (IZR (Z.succ 2147483647)) with 2147483648. nra. }
  exists w, (val x). split; [|split; [exact G|exact Et]].
  unfold d_to. cbn [d_int double]. rewrite float_int_val by auto.
  replace ((ity_min S32 <=? Zfloor (val x)) && (Zfloor (val x) <=? ity_max S32))%Z with true; [reflexivity|].
  symmetry. apply andb_true_iff. cbn [ity_min ity_max]. lia.
Qed.

Lemma otsu_plain_double l h down : counts l -> holds_counts h l -> (0 < zlen l <= 2147483648)%Z ->
  exists v t, otsu_compute double false (d_of double 0) down (d_of double 1) h (zsum l) = Ok (v, d_of double t) /\ near_best l t.
Proof.
  intros Hl Hh Hn. destruct (fotsu_1 l Hl Hn h Hh) as (v & t & E & B & Mv & Pv). pose proof B as [Ht _].
  destruct (int_mag t ltac:(lia)) as (Ft & Vt & Mt).
  assert (T0 : 0 <= IZR t <= 2147483647) by (split; apply IZR_le; lia).
  destruct (fcompute false down h (zsum l) v (float_of_Z F64 t) E Mv Pv (mag_le 32 100 _ Mt ltac:(lia)) ltac:(lra)) as (v' & r & E' & Rt & R).
  exists v', t. split; auto. rewrite E'. replace (Zfloor r) with t; [reflexivity|]. symmetry. apply Zfloor_imp.
  unfold positive_part in R. rewrite Vt, Rmax_right in R by lra. pose proof u_val. apply Rabs_le_inv in R. rewrite plus_IZR. nra.
Qed.
Lemma near_best_exact l t t' : best_split l t -> near_best l t' ->
  (forall i, (0 <= i < zlen l)%Z -> i <> t -> Q2R (separation l i) + separation_loss (zlen l) (zsum l) < Q2R (separation l t)) -> t' = t.
Proof.
  intros (R & _) (R' & N) M. destruct (Z.eq_dec t' t) as [|D]; auto. exfalso. specialize (M t' R' D). specialize (N t R). lra.
Qed.

Lemma double_zero_middle n : (0 <= n < 4294967296)%Z ->
  let q := fdiv F64 (fmul F64 (float_of_Z F64 n) (fadd F64 (float_of_Z F64 0) (float_of_Z F64 0))) (float_of_Z F64 2) in
  finite F64 q /\ val q = 0.
Proof.
  intros Hn q. destruct (int_mag n Hn) as (Fn & Vn & Mn). destruct (int_mag 2 ltac:(lia)) as (F2 & V2 & _).
  assert (Z0 : fadd F64 (float_of_Z F64 0) (float_of_Z F64 0) = float_of_Z F64 0) by reflexivity. unfold q. rewrite Z0.
  destruct (int_mag 0 ltac:(lia)) as (F0 & V0 & _).
  destruct (fmul_fin F64 W64 (float_of_Z F64 n) (float_of_Z F64 0) Fn F0) as [F1 V1].
  { rewrite V0, Rmult_0_r, rnd_0, Rabs_R0. apply bpow_gt_0. }
  rewrite V0, Rmult_0_r, rnd_0 in V1.
  destruct (fdiv_fin F64 W64 (fmul F64 (float_of_Z F64 n) (float_of_Z F64 0)) (float_of_Z F64 2) F1 F2 ltac:(lra)) as [F3 V3].
  { unfold Rdiv. rewrite V1, Rmult_0_l, rnd_0, Rabs_R0. apply bpow_gt_0. }
  split; [exact F3|]. unfold Rdiv in V3. now rewrite V1, Rmult_0_l, rnd_0 in V3.
Qed.
Lemma otsu_middle_double l h down : counts l -> holds_counts h l -> (0 < zlen l <= 65536)%Z ->
  exists v t, otsu_compute double true (d_of double 0) down (d_of double 1) h (zsum l) = Ok (v, d_of double t) /\
    (0 <= t < 4294967296)%Z /\ near_middle l t.
Proof.
  intros Hl Hh Hn. destruct (fotsu_2 l Hl ltac:(lia) h Hh ltac:(lia)) as (v & q & o & E & I & Mv & Pv & Eq).
  destruct (finv_best l Hl ltac:(lia) o I) as (NB & _). pose proof I as (_ & _ & _ & V & U). pose proof u_val as Uv.
  destruct V as [(V1 & V2 & V3 & V4)|(V1 & V2 & V3 & V4 & V5 & V6)].
  - rewrite V3, V4 in Eq. destruct (double_zero_middle (zlen l) ltac:(lia)) as [Fq Vq]. rewrite <- Eq in Fq, Vq.
    assert (Mq : mag 100 q) by (split; [exact Fq|rewrite Vq, Rabs_R0; apply bpow_ge_0]).
    destruct (fcompute true down h (zsum l) v q E Mv Pv Mq ltac:(lra)) as (v' & r & E' & Rt & R). exists v', 0%Z. split.
    + rewrite E'. replace (Zfloor r) with 0%Z; [reflexivity|]. symmetry. apply Zfloor_imp. unfold positive_part in R.
      rewrite Vq, Rmax_left in R by lra. apply Rabs_le_inv in R. change (IZR (0 + 1)) with 1. lra.
    + split; [lia|]. left. split; auto. intros i Hi. specialize (U i Hi). rewrite V1 in U. rewrite loss_eq.
      pose proof (n_range l ltac:(lia)) as Rn. pose proof (loss_nonneg l Hl ltac:(lia)) as Ln. change (Q2R (separation l i)) with (sepR l i).
      replace (sepR l i) with (IZR (zlen l) * IZR (zlen l) * (sepR l i / (IZR (zlen l) * IZR (zlen l)))) by (field; lra).
      apply Rmult_le_compat_l; [nra|lra].
  - destruct (middle_near l Hl ltac:(lia) (o_index o) (o_mB o) (o_mF o) ltac:(lia) ltac:(lia) V3 V4 V6) as (Mq & Dq & Rm & G24 & nG).
    rewrite <- Eq in Mq, Dq. destruct (means_real l ltac:(lia) (o_index o) V3 V4) as [L1 L2].
    set (k := o_index o) in *. set (m := (sB l k / cB l k + sF l k / cF l k) / 2) in *.
    set (G := bins_error (zlen l) * IZR (zsum l) * (/ cB l k + / cF l k)) in *.
    assert (Rn : 1 <= IZR (zlen l) <= 65536) by (split; apply IZR_le; lia).
    assert (nm : 0 <= IZR (zlen l) * m <= IZR (zlen l)) by nra. assert (nG0 : 0 <= IZR (zlen l) * G) by nra.
    assert (Dq' := Dq). apply Rabs_le_inv in Dq'.
    destruct (fcompute true down h (zsum l) v q E Mv Pv (mag_le 67 100 _ Mq ltac:(lia)) ltac:(lra)) as (v' & r & E' & Rt & R).
    exists v', (Zfloor r). split; [exact E'|]. split; [lia|]. right. exists k. split; [exact NB|]. split; [exact V3|]. split; [exact V4|].
    assert (Em : Q2R ((low_mean l k + high_mean l k) / 2) = IZR (zlen l) * m).
    { rewrite Q2R_div by (intros C; discriminate C). rewrite Q2R_plus, L1, L2. unfold m. replace (Q2R 2) with 2 by (unfold Q2R; cbn; lra). field.
      split; apply IZR_lt in V3, V4; unfold cB, cF; lra. }
    rewrite Em. assert (Pp : Rabs (positive_part (val q) - IZR (zlen l) * m) <= 15 / 10 * (IZR (zlen l) * G)).
    { unfold positive_part, Rmax. destruct (Rle_dec 0 (val q)); auto. apply Rabs_le. lra. }
    pose proof (near_abs _ _ _ Pp) as Ap. rewrite (Rabs_pos_eq (IZR (zlen l) * m)) in Ap by lra.
    assert (P0 : 0 <= positive_part (val q)) by apply Rmax_l. rewrite (Rabs_pos_eq (positive_part (val q))) in Ap by auto.
    assert (un : u * IZR (zlen l) <= IZR (zlen l) * G / 24) by nra.
    assert (B1 : u * (positive_part (val q) + / 2) <= u * (IZR (zlen l) + 15 / 10 * (IZR (zlen l) * G) + / 2)) by (apply Rmult_le_compat_l; lra).
    assert (unG : u * (IZR (zlen l) * G) <= / 1000000 * (IZR (zlen l) * G)) by (apply Rmult_le_compat_r; lra).
    assert (u1 : u <= u * IZR (zlen l)) by nra.
    unfold middle_loss. change (IZR (zsum (below l k))) with (cB l k). change (IZR (zsum (above l k))) with (cF l k). fold G.
    pose proof (Zfloor_lb r). pose proof (Zfloor_ub r). apply Rabs_le_inv in R, Pp. apply Rabs_le. lra.
Qed.

(** ** Images *)
Lemma d_to_int z : (0 <= z < 4294967296)%Z -> d_to double U32 (float_of_Z F64 z) = Ok z.
Proof.
  intros Hz. destruct (int_mag z Hz) as (F & V & _). unfold d_to. cbn [d_int double].
  rewrite float_int_val by (auto; rewrite V; apply IZR_le; lia). rewrite V, Zfloor_IZR.
  replace ((ity_min U32 <=? z) && (z <=? ity_max U32))%Z with true; [reflexivity|]. symmetry. apply andb_true_iff. cbn [ity_min ity_max]. lia.
Qed.
Lemma image_double (two : bool) (Q : list Z -> Z -> Prop) t g mn mx :
  (forall l h, counts l -> holds_counts h l -> (0 < zlen l)%Z -> (zlen l = mx - mn + 1)%Z ->
     exists v th, otsu_compute double two (d_of double 0) true (d_of double 1) h (zsum l) = Ok (v, d_of double th) /\
       (0 <= th < 4294967296)%Z /\ Q l th) ->
  wf g -> (forall x y v, pixel g x y = Some v -> (mn <= v <= mx)%Z) ->
  (0 <= mx - mn < 2147483647)%Z -> (ity_min (promote t) <= mn)%Z -> (mx < ity_max (promote t))%Z -> (mn < ity_max (promote t))%Z ->
  exists th, image_otsu double t g mn mx two = Ok th /\ Q (value_counts g mn mx) th.
Proof.
  intros HQ Hg Hp Hr H1 H2 H3. unfold image_otsu.
  rewrite arith_result_in by lia. cbn [bind]. rewrite arith_result_in.
  2: { destruct t; cbn in *; lia. }
  cbn [bind]. rewrite (u32_id (1 + mx - mn)) by lia.
  destruct (histogram_ok t g mn (ga_new (int_mem U32) (1 + mx - mn))) as (h & E & S & V); auto.
  - cbn [ga_new ga_data ga_size]. rewrite zlen_repeat. lia.
  - cbn [ga_new ga_size]. lia.
  - intros x y v E. apply Hp in E. cbn [ga_new ga_size]. lia.
  - rewrite E. cbn [bind]. cbn [ga_new ga_size] in S, V.
    set (l := value_counts g mn mx). pose proof (value_counts_len g mn mx Hr) as Ll. fold l in Ll.
    destruct (HQ l h) as (v & th & Eo & Rt & B).
    + now apply value_counts_counts.
    + split; [lia|]. intros i c Ec. apply znth_Some_range in Ec as R.
      unfold l in Ec. rewrite value_counts_nth in Ec by lia. injection Ec as <-. apply V. lia.
    + lia.
    + lia.
    + unfold gray_total_pixels. assert (T : u32 (g_width g * g_height g) = zsum l).
      { unfold l. rewrite value_counts_sum by auto. apply u32_id. pose proof (wf_small g Hg) as Sm. unfold small in Sm.
        unfold wf in Hg. nia. }
      rewrite T, Eo. cbn [bind snd]. exists th. split; auto. now apply d_to_int.
Qed.
Lemma image_otsu_double t g mn mx : wf g -> (forall x y v, pixel g x y = Some v -> (mn <= v <= mx)%Z) ->
  (0 <= mx - mn < 2147483647)%Z -> (ity_min (promote t) <= mn)%Z -> (mx < ity_max (promote t))%Z -> (mn < ity_max (promote t))%Z ->
  exists th, image_otsu double t g mn mx false = Ok th /\ near_best (value_counts g mn mx) th.
Proof.
  intros Hg Hp Hr. apply image_double; auto. intros l h Hl Hh Hz El. destruct (otsu_plain_double l h true Hl Hh ltac:(lia)) as (v & th & E & B).
  exists v, th. split; auto. split; auto. destruct B. lia.
Qed.
Lemma global_otsu_double t g mx down out o : wf g -> wf out -> gray_reshape 0%Z out (g_width g) (g_height g) = Ok o ->
  (forall x y v, pixel g x y = Some v -> (0 <= v <= mx)%Z) -> (0 <= mx < 2147483647)%Z -> (mx <= ity_max t)%Z ->
  exists th out', global_otsu double t g 0 mx down out = Ok out' /\ near_best (value_counts g 0 mx) th /\
    holds g o out' (fun x y => match pixel g x y with
      | Some v => Some (if (if down then v <=? th else v >? th)%Z then 1%Z else 0%Z) | None => None end).
Proof.
  intros Hg Ho Eo Hp Hm Ht. unfold global_otsu.
  destruct (image_otsu_double t g 0 mx) as (th & E & B); auto; try lia; try (destruct t; cbn in *; lia).
  rewrite E. cbn [bind].
  assert (C : cast t th = th).
  { destruct B as (B & _). rewrite value_counts_len in B by lia. apply cast_id. destruct t; cbn in *; lia. }
  rewrite C. destruct (threshold_ok Z.leb Z.gtb g th down out o Hg Ho Eo) as (out' & E' & R). exists th, out'. auto.
Qed.
Lemma image_middle_double t g mn mx : wf g -> (forall x y v, pixel g x y = Some v -> (mn <= v <= mx)%Z) ->
  (0 <= mx - mn < 65536)%Z -> (ity_min (promote t) <= mn)%Z -> (mx < ity_max (promote t))%Z -> (mn < ity_max (promote t))%Z ->
  exists th, image_otsu double t g mn mx true = Ok th /\ near_middle (value_counts g mn mx) th.
Proof.
  intros Hg Hp Hr. apply image_double; auto; try lia. intros l h Hl Hh Hz El.
  destruct (otsu_middle_double l h true Hl Hh ltac:(lia)) as (v & th & E & R & B). exists v, th. auto.
Qed.

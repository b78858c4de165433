(** Error analysis of the sliding window. *)
From Coq Require Import Reals Bool Lia Lra Psatz.
From Coq Require Import Floats.SpecFloat.
From Flocq Require Import Core BinarySingleNaN.
From Verif Require Import Base BaseFacts M_Image S_Image L_Image M_Border S_Border M_Convolve S_Convolve M_Normalized S_Normalized
  L_Normalized L_NormalizedInt M_Blur M_Float S_Ieee L_Ieee.
From Verif Require Import S_FConv L_FConv S_FNorm L_FNorm L_PointF S_FBlur L_Window L_Convolve L_Convolve2 L_MeanGen.
Local Open Scope R_scope.

(** ** Exact means *)
Lemma rpresent_ext n : forall px px' i i', (forall j, (0 <= j < Z.of_nat n)%Z -> px (i + j)%Z = px' (i' + j)%Z) ->
  rpresent px i n = rpresent px' i' n.
Proof.
  induction n as [|n IH]; intros px px' i i' H; cbn [rpresent]; auto.
  pose proof (H 0%Z ltac:(lia)) as H1. rewrite !Z.add_0_r in H1. rewrite H1.
  rewrite (IH px px' (i + 1) (i' + 1))%Z; auto.
  intros j Hj. rewrite <- !Z.add_assoc. apply H; lia.
Qed.
Lemma present_total c n : forall px i, rtotal (repeat c n) px i = val c * fold_right Rplus 0 (rpresent px i n).
Proof.
  induction n as [|n IH]; intros px i; cbn [repeat rtotal rpresent]; [cbn; ring|]. rewrite IH.
  destruct (px i); cbn [fold_right]; ring.
Qed.
Lemma present_weight c n : forall px i, rweight (repeat c n) px i = val c * INR (length (rpresent px i n)).
Proof.
  induction n as [|n IH]; intros px i; cbn [repeat rweight rpresent]; [cbn; ring|]. rewrite IH.
  destruct (px i); cbn [length]; rewrite ?S_INR; ring.
Qed.
Lemma rpresent_length n : forall px i, (length (rpresent px i n) <= n)%nat.
Proof. induction n as [|n IH]; intros px i; cbn [rpresent]; auto. specialize (IH px (i + 1)%Z). destruct (px i); cbn; lia. Qed.
Lemma rpresent_pos n : forall px i j v, (0 <= j < Z.of_nat n)%Z -> px (i + j)%Z = Some v -> (0 < length (rpresent px i n))%nat.
Proof.
  induction n as [|n IH]; intros px i j v Hj E; [lia|]. cbn [rpresent]. destruct (Z.eq_dec j 0) as [->|].
  - rewrite Z.add_0_r in E. rewrite E. cbn. lia.
  - assert (0 < length (rpresent px (i + 1) n))%nat.
    { apply (IH px (i + 1)%Z (j - 1)%Z v); [lia|]. rewrite <- E. f_equal. lia. }
    destruct (px i); cbn; lia.
Qed.
Lemma mean_average c n px i : 0 < val c -> (0 < length (rpresent px i n))%nat ->
  rtotal (repeat c n) px i / rweight (repeat c n) px i = average (rpresent px i n).
Proof.
  intros P L. rewrite present_total, present_weight. unfold average.
  assert (0 < INR (length (rpresent px i n))) by (apply lt_0_INR; auto). field. lra.
Qed.

(** Sum of a full window. *)
Fixpoint wsum (q : Z -> R) (i : Z) (n : nat) : R := match n with O => 0 | S m => q i + wsum q (i + 1)%Z m end.
Lemma wsum_snoc q n : forall i, wsum q i (S n) = wsum q i n + q (i + Z.of_nat n)%Z.
Proof.
  induction n as [|n IH]; intros i; [cbn [wsum]; rewrite Z.add_0_r; ring|].
  change (wsum q i (S (S n))) with (q i + wsum q (i + 1) (S n)). rewrite IH. cbn [wsum].
  replace (i + Z.of_nat (S n))%Z with (i + 1 + Z.of_nat n)%Z by lia. ring.
Qed.
Lemma wsum_slide q n i : wsum q (i + 1) n = wsum q i n - q i + q (i + Z.of_nat n)%Z.
Proof. pose proof (wsum_snoc q n i) as H. cbn [wsum] in H. lra. Qed.
Lemma wsum_bound q M n : forall i, (forall j, (0 <= j < Z.of_nat n)%Z -> Rabs (q (i + j)%Z) <= M) -> Rabs (wsum q i n) <= INR n * M.
Proof.
  induction n as [|n IH]; intros i H; cbn [wsum]; [rewrite Rabs_R0; cbn; lra|]. rewrite S_INR.
  eapply Rle_trans; [apply Rabs_triang|].
  assert (A : Rabs (wsum q (i + 1) n) <= INR n * M).
  { apply IH. intros j Hj. rewrite <- Z.add_assoc. apply H. lia. }
  pose proof (H 0%Z ltac:(lia)) as B. rewrite Z.add_0_r in B. lra.
Qed.
Lemma wsum_present n : forall px q i, (forall j, (0 <= j < Z.of_nat n)%Z -> px (i + j)%Z = Some (q (i + j)%Z)) ->
  fold_right Rplus 0 (rpresent px i n) = wsum q i n /\ length (rpresent px i n) = n.
Proof.
  induction n as [|n IH]; intros px q i H; cbn [rpresent wsum]; [split; reflexivity|].
  pose proof (H 0%Z ltac:(lia)) as B. rewrite Z.add_0_r in B. rewrite B.
  destruct (IH px q (i + 1)%Z) as [E1 E2].
  { intros j Hj. rewrite <- Z.add_assoc. apply H. lia. }
  cbn [fold_right length]. now rewrite E1, E2.
Qed.

Section E.
Variable f : fty.
Hypothesis St : standard f.
Let W := standard_wfty f St.
Let u := unit_error f.
Let t := tiny_error f.
Let u0 : 0 < u := u_pos f.
Let t0 : 0 < t := t_pos f.

Lemma op_error s v v' B S0 k r : Rabs (val s - S0) <= ((1 + u) ^ k - 1) * B -> Rabs (S0 + v') <= B ->
  v' = v -> Rabs (r - (val s + v)) <= u * Rabs (val s + v) ->
  Rabs (r - (S0 + v')) <= ((1 + u) ^ S k - 1) * B.
Proof.
  intros H1 H2 -> H3. pose proof (G_1 f k) as G. fold u in G. cbn [pow]. set (Gk := (1 + u) ^ k) in *.
  assert (A : Rabs (val s + v) <= Gk * B).
  { replace (val s + v) with ((val s - S0) + (S0 + v)) by ring. eapply Rle_trans; [apply Rabs_triang|]. lra. }
  replace (r - (S0 + v)) with ((r - (val s + v)) + (val s - S0)) by ring. eapply Rle_trans; [apply Rabs_triang|].
  assert (u * Rabs (val s + v) <= u * (Gk * B)) by (apply Rmult_le_compat_l; lra). lra.
Qed.
Lemma op_bound r S0 B k : Rabs (r - S0) <= ((1 + u) ^ k - 1) * B -> Rabs S0 <= B -> B * (1 + u) ^ k < huge f -> Rabs r < huge f.
Proof.
  intros H1 H2 H3. replace r with ((r - S0) + S0) by ring. eapply Rle_lt_trans; [apply Rabs_triang|]. lra.
Qed.
Lemma add_op s v S0 B k : finite f s -> finite f v -> Rabs (val s - S0) <= ((1 + u) ^ k - 1) * B -> Rabs (S0 + val v) <= B ->
  B * (1 + u) ^ S k < huge f ->
  finite f (fadd f s v) /\ Rabs (val (fadd f s v) - (S0 + val v)) <= ((1 + u) ^ S k - 1) * B.
Proof.
  intros Fs Fv H1 H2 H3.
  pose proof (rnd_add_err f W _ _ (finite_fmt f _ Fs) (finite_fmt f _ Fv)) as E. fold u in E.
  pose proof (op_error s _ _ B S0 k _ H1 H2 eq_refl E) as E2.
  destruct (fadd_fin f W s v Fs Fv) as [F V]; [eapply op_bound; eauto|]. split; auto. now rewrite V.
Qed.
Lemma sub_op s v S0 B k : finite f s -> finite f v -> Rabs (val s - S0) <= ((1 + u) ^ k - 1) * B -> Rabs (S0 - val v) <= B ->
  B * (1 + u) ^ S k < huge f ->
  finite f (fsub f s v) /\ Rabs (val (fsub f s v) - (S0 - val v)) <= ((1 + u) ^ S k - 1) * B.
Proof.
  intros Fs Fv H1 H2 H3.
  assert (Fo : fmt f (- val v)) by (apply generic_format_opp, (finite_fmt f _ Fv)).
  pose proof (rnd_add_err f W _ _ (finite_fmt f _ Fs) Fo) as E. fold u in E.
  pose proof (op_error s _ _ B S0 k _ H1 H2 eq_refl E) as E2.
  destruct (fsub_fin f W s v Fs Fv) as [F V]; [eapply op_bound; eauto|]. split; auto. now rewrite V.
Qed.

(** The running total of the samples [q]. *)
Fixpoint facc (q : Z -> spec_float) (n : nat) : spec_float :=
  match n with O => S754_zero false | S m => fadd f (facc q m) (q (Z.of_nat m)) end.
Fixpoint slide (q : Z -> spec_float) (w i : nat) : spec_float :=
  match i with
  | O => facc q w
  | S m => fadd f (fsub f (slide q w m) (q (Z.of_nat m))) (q (Z.of_nat m + Z.of_nat w)%Z)
  end.
Lemma facc_first q r : (0 <= r)%Z -> first_sum (float_marith f) r q = Ok (facc q (Z.to_nat (2 * r + 1))).
Proof.
  intros Hr. unfold first_sum. replace (2 * r + 1)%Z with (Z.of_nat (Z.to_nat (2 * r + 1))) at 1 by lia.
  cbn [m_add m_zero float_marith]. induction (Z.to_nat (2 * r + 1)) as [|n IH].
  - rewrite for_range_nil by lia. reflexivity.
  - replace (Z.of_nat (S n)) with (Z.of_nat n + 1)%Z by lia. rewrite for_range_last by lia. rewrite IH. reflexivity.
Qed.

Section Line.
Variables (q : Z -> spec_float) (N : Z) (M : R) (w : nat).
Hypothesis Hq : forall j, (0 <= j < N)%Z -> finite f (q j) /\ Rabs (val (q j)) <= M.
Hypothesis M0 : 0 <= M.
Let vq := fun j => val (q j).
Let B := INR w * M.
Lemma part_bound i n : (n <= w)%nat -> (0 <= i)%Z -> (i + Z.of_nat n <= N)%Z -> Rabs (wsum vq i n) <= B.
Proof.
  intros H1 H2 H3. eapply Rle_trans; [apply (wsum_bound vq M)|].
  - intros j Hj. apply Hq. lia.
  - apply Rmult_le_compat_r; auto. now apply le_INR.
Qed.
Lemma facc_error n : (n <= w)%nat -> (Z.of_nat w <= N)%Z -> B * (1 + u) ^ w < huge f ->
  finite f (facc q n) /\ Rabs (val (facc q n) - wsum vq 0 n) <= ((1 + u) ^ n - 1) * B.
Proof.
  intros Hn Hw HB. induction n as [|n IH].
  - cbn [facc wsum pow]. split; [apply zero_fin; auto|]. cbn. unfold Rminus. rewrite Ropp_0, Rplus_0_r, Rabs_R0. lra.
  - destruct IH as [F E]; [lia|]. rewrite wsum_snoc, Z.add_0_l. cbn [facc].
    apply add_op; auto.
    + apply Hq. lia.
    + pose proof (part_bound 0 (S n)) as P. rewrite wsum_snoc, Z.add_0_l in P. apply P; lia.
    + eapply Rle_lt_trans; [|exact HB]. apply Rmult_le_compat_l; [apply Rmult_le_pos; auto; apply pos_INR|].
      apply (G_mono f (S n) w). lia.
Qed.
Lemma slide_total_error i : (0 < w)%nat -> (Z.of_nat w + Z.of_nat i <= N)%Z -> B * (1 + u) ^ (w + 2 * i) < huge f ->
  finite f (slide q w i) /\ Rabs (val (slide q w i) - wsum vq (Z.of_nat i) w) <= ((1 + u) ^ (w + 2 * i) - 1) * B.
Proof.
  intros Hw Hi HB. assert (B0 : 0 <= B) by (apply Rmult_le_pos; auto; apply pos_INR).
  induction i as [|i IH].
  - cbn [slide]. replace (w + 2 * 0)%nat with w in * by lia. apply facc_error; auto; lia.
  - destruct IH as [F E]; [lia| |].
    { eapply Rle_lt_trans; [|exact HB]. apply Rmult_le_compat_l; auto. apply (G_mono f). lia. }
    cbn [slide]. replace (w + 2 * S i)%nat with (S (S (w + 2 * i))) in * by lia.
    assert (S1 : wsum vq (Z.of_nat i) w - vq (Z.of_nat i) = wsum vq (Z.of_nat i + 1) (w - 1)).
    { destruct w as [|m]; [lia|]. cbn [wsum]. replace (S m - 1)%nat with m by lia. ring. }
    destruct (sub_op (slide q w i) (q (Z.of_nat i)) _ B _ F (proj1 (Hq (Z.of_nat i) ltac:(lia))) E) as [F1 E1].
    { change (val (q (Z.of_nat i))) with (vq (Z.of_nat i)). rewrite S1. apply part_bound; lia. }
    { eapply Rle_lt_trans; [|exact HB]. apply Rmult_le_compat_l; auto. apply (G_mono f). lia. }
    replace (Z.of_nat (S i)) with (Z.of_nat i + 1)%Z by lia. rewrite wsum_slide.
    apply add_op; auto.
    + apply Hq. lia.
    + change (Rabs (wsum vq (Z.of_nat i) w - vq (Z.of_nat i) + vq (Z.of_nat i + Z.of_nat w)%Z) <= B).
      rewrite <- wsum_slide. apply part_bound; lia.
Qed.
Lemma out_error i : (0 < w)%nat -> (Z.of_nat w <= 2 ^ f_prec f)%Z ->
  (Z.of_nat w + Z.of_nat i <= N)%Z -> B * (1 + u) ^ (w + 2 * i) < huge f ->
  M * (1 + u) ^ (w + 2 * i + 1) + t < huge f ->
  finite f (fdiv f (slide q w i) (float_of_Z f (Z.of_nat w))) /\
  Rabs (val (fdiv f (slide q w i) (float_of_Z f (Z.of_nat w))) - wsum vq (Z.of_nat i) w / INR w) <=
    ((1 + u) ^ (w + 2 * i + 1) - 1) * M + t.
Proof.
  intros Hw Hp Hi HB HM. destruct (slide_total_error i Hw Hi HB) as [F E].
  destruct (float_of_Z_exact f W (Z.of_nat w)) as [Fw Vw]; [lia|]. rewrite <- INR_IZR_INZ in Vw.
  assert (PW : 0 < INR w) by (apply lt_0_INR; auto).
  set (S0 := wsum vq (Z.of_nat i) w) in *. set (s := slide q w i) in *.
  pose proof (G_1 f (w + 2 * i)) as G1. fold u in G1.
  replace (w + 2 * i + 1)%nat with (S (w + 2 * i)) in * by lia. cbn [pow] in *. set (G := (1 + u) ^ (w + 2 * i)) in *.
  assert (BS : Rabs S0 <= B) by (apply part_bound; lia).
  assert (Q1 : Rabs (val s / INR w - S0 / INR w) <= (G - 1) * M).
  { replace (val s / INR w - S0 / INR w) with ((val s - S0) * / INR w) by (field; lra).
    rewrite Rabs_mult, (Rabs_pos_eq (/ INR w)) by (left; apply Rinv_0_lt_compat; auto).
    apply Rmult_le_reg_r with (INR w); auto. rewrite Rmult_assoc, Rinv_l, Rmult_1_r by lra. unfold B in E. lra. }
  assert (Q2 : Rabs (S0 / INR w) <= M).
  { unfold Rdiv. rewrite Rabs_mult, (Rabs_pos_eq (/ INR w)) by (left; apply Rinv_0_lt_compat; auto).
    apply Rmult_le_reg_r with (INR w); auto. rewrite Rmult_assoc, Rinv_l, Rmult_1_r by lra. unfold B in BS. lra. }
  assert (Q3 : Rabs (val s / INR w) <= G * M).
  { replace (val s / INR w) with ((val s / INR w - S0 / INR w) + S0 / INR w) by ring. eapply Rle_trans; [apply Rabs_triang|]. lra. }
  pose proof (rnd_err f W (val s / INR w)) as RE. fold u t in RE.
  assert (Q4 : Rabs (rnd f (val s / INR w) - S0 / INR w) <= ((1 + u) * G - 1) * M + t).
  { replace (rnd f (val s / INR w) - S0 / INR w) with
      ((rnd f (val s / INR w) - val s / INR w) + (val s / INR w - S0 / INR w)) by ring.
    eapply Rle_trans; [apply Rabs_triang|].
    assert (u * Rabs (val s / INR w) <= u * (G * M)) by (apply Rmult_le_compat_l; lra). lra. }
  rewrite <- Vw in *.
  destruct (fdiv_fin f W s (float_of_Z f (Z.of_nat w)) F Fw ltac:(lra)) as [Fd Vd].
  { replace (rnd f (val s / val (float_of_Z f (Z.of_nat w)))) with
     ((rnd f (val s / val (float_of_Z f (Z.of_nat w))) - S0 / val (float_of_Z f (Z.of_nat w))) + S0 / val (float_of_Z f (Z.of_nat w))) by ring.
    eapply Rle_lt_trans; [apply Rabs_triang|]. lra. }
  split; auto. now rewrite Vd.
Qed.
End Line.
End E.

(** ** Images *)
Section Coef.
Variable f : fty.
Hypothesis St : standard f.
Let W := standard_wfty f St.
Let u := unit_error f.
Let t := tiny_error f.
Variable r : Z.
Hypothesis Hr : (0 <= r)%Z.
Notation w := (2 * r + 1)%Z.
Notation wn := (Z.to_nat (2 * r + 1)).
Hypothesis Few : few f wn.
Lemma w_INR : INR wn = IZR w.
Proof. rewrite INR_IZR_INZ. f_equal. lia. Qed.
Lemma w_ge1 : 1 <= IZR w.
Proof. apply IZR_le. lia. Qed.
Lemma tiny_unit : t <= u * u.
Proof. unfold t, u, tiny_error, unit_error. rewrite <- bpow_plus. apply bpow_le. destruct St as [->| ->]; cbn; lia. Qed.
Lemma few_u : 8 * IZR w * u + 8 * u <= 1.
Proof. unfold few in Few. rewrite w_INR in Few. fold u in Few. lra. Qed.
Lemma few_exact : (w <= 2 ^ f_prec f)%Z.
Proof.
  pose proof few_u as F. pose proof (u_pos f) as U. fold u in U. apply le_IZR.
  assert (E : IZR (2 ^ f_prec f) = / u).
  { destruct W as [P _]. unfold u, unit_error. rewrite bpow_opp, Rinv_inv.
    rewrite <- (IZR_Zpower radix2) by lia. reflexivity. }
  rewrite E. pose proof w_ge1. apply Rmult_le_reg_r with u; auto. rewrite Rinv_l by lra. nra.
Qed.
Lemma coef_ok : finite f (mean_coefficient f w) /\ / (2 * IZR w) <= val (mean_coefficient f w) <= 2 * / IZR w.
Proof.
  pose proof few_u as F. pose proof (u_pos f) as U. fold u in U. pose proof tiny_unit as T. pose proof w_ge1 as W1.
  pose proof (t_pos f) as T0. fold t in T0.
  destruct (float_of_Z_exact f W w) as [Fw Vw]; [pose proof few_exact; lia|].
  destruct (one_fin f W) as [F1 V1].
  pose proof (rnd_err f W (1 / IZR w)) as RE. fold u t in RE.
  assert (I0 : 0 < / IZR w) by (apply Rinv_0_lt_compat; lra).
  replace (1 / IZR w) with (/ IZR w) in RE by (field; lra).
  set (i := / IZR w) in *. rewrite (Rabs_pos_eq i) in RE by lra.
  assert (I1 : i * IZR w = 1) by (unfold i; field; lra).
  assert (UI : 8 * u <= i).
  { apply Rmult_le_reg_r with (IZR w); [lra|]. rewrite I1. nra. }
  assert (BT : u * i + t <= i / 2) by nra.
  assert (Q : i / 2 <= rnd f i <= 2 * i).
  { revert RE. unfold Rabs. destruct (Rcase_abs (rnd f i - i)); lra. }
  assert (I2 : i <= 1) by (unfold i; rewrite <- Rinv_1; apply Rinv_le; lra).
  unfold mean_coefficient.
  destruct (fdiv_fin f W (float_of_Z f 1) (float_of_Z f w) F1 Fw) as [Fd Vd].
  - rewrite Vw. lra.
  - rewrite V1, Vw. replace (1 / IZR w) with i by (unfold i; field; lra). rewrite Rabs_pos_eq by lra.
    pose proof (huge_big f St). lra.
  - split; auto. rewrite Vd, V1, Vw. replace (1 / IZR w) with i by (unfold i; field; lra).
    rewrite Rinv_mult. fold i. lra.
Qed.
Lemma coef_pos : 0 < val (mean_coefficient f w).
Proof. pose proof coef_ok as [_ [H _]]. pose proof w_ge1. assert (0 < / (2 * IZR w)) by (apply Rinv_0_lt_compat; lra). lra. Qed.

Notation K := (mean_kernel (mean_coefficient f w) w).
Lemma coef_off : k_offset K = r.
Proof. cbn [mean_kernel k_offset]. symmetry. apply (Z.div_unique _ _ _ 1); lia. Qed.
Lemma coef_len : length (k_data K) = wn.
Proof. cbn [mean_kernel k_data]. apply repeat_length. Qed.
Lemma coef_kok : (w <= 1073741824)%Z -> kernel1_ok K.
Proof.
  intros H. unfold kernel1_ok. rewrite coef_off. cbn [mean_kernel k_width k_data]. unfold zlen. rewrite repeat_length. lia.
Qed.
Lemma coef_nonneg : nonneg_numbers f (k_data K).
Proof. intros c Hc. cbn [mean_kernel k_data] in Hc. apply repeat_spec in Hc as ->. split; [apply coef_ok|]. left. apply coef_pos. Qed.

Lemma tiny_w : (4 * IZR w * IZR w + 1) * t <= / 2 /\ 2 * (IZR w * t) <= / 2.
Proof.
  pose proof few_u as F. pose proof (u_pos f) as U. fold u in U. pose proof tiny_unit as T. pose proof w_ge1 as W1.
  pose proof (t_pos f) as T0. fold t in T0.
  set (x := IZR w * u) in *. assert (X : 0 <= x <= / 8) by (unfold x; nra).
  assert (A : IZR w * IZR w * t <= x * x).
  { unfold x. replace (IZR w * u * (IZR w * u)) with (IZR w * IZR w * (u * u)) by ring. apply Rmult_le_compat_l; nra. }
  assert (A2 : x * x <= / 64) by nra. assert (A3 : u * u <= / 64) by nra.
  assert (A4 : IZR w * t <= IZR w * IZR w * t) by (apply Rmult_le_compat_r; nra).
  split; nra.
Qed.

Lemma mean_error_end M Wt : 0 <= M -> / (2 * IZR w) <= Wt -> mean_error f wn M Wt <= end_error f r M.
Proof.
  intros M0 HW. pose proof w_ge1 as W1. assert (0 < / (2 * IZR w)) by (apply Rinv_0_lt_compat; lra).
  eapply Rle_trans; [apply (mean_error_anti f wn M (/ (2 * IZR w))); lra|].
  unfold mean_error, end_error. rewrite w_INR. cbv zeta. right. field. lra.
Qed.

Lemma nval_ok px M j v : 0 <= M -> 4 * M + 1 < huge f ->
  (forall j v, px j = Some v -> finite f v /\ Rabs (val v) <= M) -> (0 <= j < w)%Z -> px j = Some v ->
  exists v, averaged (float_narith f) (k_data K) px = Some v /\ finite f v /\
    Rabs (val v - average (rpresent (rval px) 0 wn)) <= end_error f r M.
Proof.
  intros M0 HM Hpx Hj Hv.
  assert (L : (0 < length (rpresent (rval px) 0 wn))%nat).
  { apply (rpresent_pos _ _ _ j (val v)); [lia|]. unfold rval. rewrite Z.add_0_l, Hv. reflexivity. }
  pose proof (rpresent_length wn (rval px) 0) as L2.
  assert (C0 := coef_pos). destruct coef_ok as [FC [C1 C2]]. pose proof w_ge1 as W1.
  assert (EW : rweight (k_data K) (rval px) 0 = val (mean_coefficient f w) * INR (length (rpresent (rval px) 0 wn))) by apply present_weight.
  assert (N1 : 1 <= INR (length (rpresent (rval px) 0 wn)) <= IZR w).
  { rewrite <- w_INR. split; [apply (le_INR 1); lia|apply le_INR; lia]. }
  set (c := val (mean_coefficient f w)) in *. set (k := INR (length (rpresent (rval px) 0 wn))) in *.
  assert (WL : / (2 * IZR w) <= rweight (k_data K) (rval px) 0) by (rewrite EW; nra).
  assert (WU : rweight (k_data K) (rval px) 0 <= 2).
  { rewrite EW. apply Rle_trans with (2 * / IZR w * IZR w); [apply Rmult_le_compat; lra|]. right. field. lra. }
  set (Wt := rweight (k_data K) (rval px) 0) in *.
  pose proof tiny_w as [T1 T2]. pose proof (t_pos f) as T0. fold t in T0.
  assert (I0 : 0 < / (2 * IZR w)) by (apply Rinv_0_lt_compat; lra).
  destruct (averaged_error f St (k_data K) px M coef_nonneg Hpx M0) as (a & A1 & A2 & A3).
  - rewrite coef_len. exact Few.
  - rewrite coef_len. unfold safe_mean. fold Wt t. rewrite w_INR. pose proof (huge_big f St) as HB.
    split; [lra|]. split; [lra|]. split.
    + assert (M * Wt <= M * 2) by (apply Rmult_le_compat_l; lra). lra.
    + assert (2 * IZR w / Wt <= 4 * IZR w * IZR w).
      { unfold Rdiv. apply Rle_trans with (2 * IZR w * (2 * IZR w)); [|lra]. apply Rmult_le_compat_l; [lra|].
        rewrite <- (Rinv_inv (2 * IZR w)). apply Rinv_le; lra. }
      assert ((2 * IZR w / Wt + 1) * t <= (4 * IZR w * IZR w + 1) * t) by (apply Rmult_le_compat_r; lra). lra.
  - exists a. split; auto. split; auto. rewrite coef_len in A3.
    eapply Rle_trans; [|apply mean_error_end; eauto].
    replace (average (rpresent (rval px) 0 wn)) with (rmean (k_data K) (rval px)); auto.
    unfold rmean. apply mean_average; auto.
Qed.
End Coef.

Section Mean.
Variable f : fty.
Hypothesis St : standard f.
Let W := standard_wfty f St.
Let u := unit_error f.
Let t := tiny_error f.
Variables (r : Z) (M : R) (g o : gray spec_float).
Notation w := (2 * r + 1)%Z.
Notation wn := (Z.to_nat (2 * r + 1)).
Notation c := (mean_coefficient f w).
Notation K := (mean_kernel c w).
Notation N := (float_narith f).
Hypothesis Hr : (0 < r)%Z.
Hypothesis Hkw : (w <= 1073741824)%Z.
Hypothesis Hg : wf g.
Hypothesis Ho : wf o.
Hypothesis Ew : g_width o = g_width g.
Hypothesis Eh : g_height o = g_height g.
Hypothesis Sw : (0 < g_width g <= 1073741824)%Z.
Hypothesis Sh : (0 < g_height g <= 1073741824)%Z.
Hypothesis Bl : (zlen (g_data g) < 2147483648)%Z.
Hypothesis Hb : bounded_numbers f g M.

Definition Q (x y : Z) : spec_float := match pixel g x y with Some v => v | None => S754_zero false end.
Lemma Q_pixel x y : inside g x y -> pixel g x y = Some (Q x y).
Proof. intros I. unfold Q. destruct (pixel_exists g x y Hg I) as (v & ->). reflexivity. Qed.
Lemma Q_num x y : inside g x y -> finite f (Q x y) /\ Rabs (val (Q x y)) <= M.
Proof. intros I. apply (Hb x y); auto. now apply Q_pixel. Qed.
Let M0 : 0 <= M := bounded_pos f g M Hg Sw Sh Hb.

(** A full window of a line. *)
Lemma window_average px q i : (0 <= i)%Z -> (forall j, (i <= j < i + w)%Z -> px j = Some (q j)) ->
  average (rpresent px i wn) = wsum q i wn / INR wn.
Proof.
  intros Hi H. destruct (wsum_present wn px q i) as [E1 E2]; [intros j Hj; apply H; lia|]. unfold average. now rewrite E1, E2.
Qed.
Lemma line_out q n x : safe_line f r M n -> (forall j, (0 <= j < n)%Z -> finite f (q j) /\ Rabs (val (q j)) <= M) ->
  (r <= x < n - r)%Z ->
  finite f (fdiv f (slide f q wn (Z.to_nat (x - r))) (float_of_Z f w)) /\
  Rabs (val (fdiv f (slide f q wn (Z.to_nat (x - r))) (float_of_Z f w)) - wsum (fun j => val (q j)) (x - r) wn / INR wn) <=
    slide_error f M x.
Proof.
  intros (S1 & S2 & S3) Hq Hx. pose proof (few_exact f St r ltac:(lia) S1) as FE. fold u in S3.
  assert (G : forall k, (k <= Z.to_nat (2 * n))%nat -> IZR w * M * (1 + u) ^ k < huge f).
  { intros k Hk. eapply Rle_lt_trans; [|exact S3]. apply Rmult_le_compat_l.
    - apply Rmult_le_pos; auto. apply IZR_le. lia.
    - apply (G_mono f). exact Hk. }
  assert (IW : INR wn = IZR w) by (apply w_INR; lia).
  destruct (out_error f St q n M wn Hq M0 (Z.to_nat (x - r))) as [F E]; try lia.
  - rewrite IW. apply G. lia.
  - specialize (G (wn + 2 * Z.to_nat (x - r) + 1)%nat ltac:(lia)). rewrite <- IW in G. fold u t.
    pose proof (tiny_small f St) as [_ T]. fold t in T. pose proof (huge_big f St) as HB.
    assert (W3 : 3 <= INR wn) by (rewrite IW; apply IZR_le; lia).
    set (X := M * (1 + u) ^ (wn + 2 * Z.to_nat (x - r) + 1)) in *.
    replace (INR wn * M * (1 + u) ^ (wn + 2 * Z.to_nat (x - r) + 1)) with (INR wn * X) in G by (unfold X; ring).
    assert (0 <= X) by (apply Rmult_le_pos; auto; pose proof (G_1 f (wn + 2 * Z.to_nat (x - r) + 1)) as G1; fold u in G1; lra).
    nra.
  - replace (Z.of_nat wn) with w in F, E by lia. replace (Z.of_nat (Z.to_nat (x - r))) with (x - r)%Z in E by lia.
    split; auto. unfold slide_error. fold u t in E |- *.
    replace (wn + 2 * Z.to_nat (x - r) + 1)%nat with (Z.to_nat (2 * x + 2)) in E by lia. exact E.
Qed.

Lemma nval_h x y : few f wn -> 4 * M + 1 < huge f -> inside g x y -> exists v, nvalue_h N K g x y = Some v /\ finite f v /\
  Rabs (val v - box_row g r x y) <= end_error f r M.
Proof.
  intros S1 S2 I. pose proof (coef_off f r) as KO. unfold nvalue_h. rewrite KO.
  destruct (nval_ok f St r ltac:(lia) S1 (fun i => pixel g (x - r + i) y) M r (Q x y)) as (v & E1 & E2 & E3); auto.
  - intros j p. apply (bounded_pixel f g M Hb).
  - lia.
  - replace (x - r + r)%Z with x by lia. now apply Q_pixel.
  - exists v. split; auto. split; auto. unfold box_row.
    rewrite (rpresent_ext wn _ (rval (fun i => pixel g (x - r + i) y)) (x - r)%Z 0%Z); auto.
Qed.
Lemma nval_v x y : few f wn -> 4 * M + 1 < huge f -> inside g x y -> exists v, nvalue_v N K g x y = Some v /\ finite f v /\
  Rabs (val v - box_col g r x y) <= end_error f r M.
Proof.
  intros S1 S2 I. pose proof (coef_off f r) as KO. unfold nvalue_v. rewrite KO.
  destruct (nval_ok f St r ltac:(lia) S1 (fun i => pixel g x (y - r + i)) M r (Q x y)) as (v & E1 & E2 & E3); auto.
  - intros j p. apply (bounded_pixel f g M Hb).
  - lia.
  - replace (y - r + r)%Z with y by lia. now apply Q_pixel.
  - exists v. split; auto. split; auto. unfold box_col.
    rewrite (rpresent_ext wn _ (rval (fun i => pixel g x (y - r + i))) (y - r)%Z 0%Z); auto.
Qed.
Lemma unit_K : few f wn -> unit_ok N K g.
Proof. intros S1. apply (fnorm_unit f St K g M); auto. apply coef_nonneg; auto; lia. Qed.

Lemma mean_h_float : safe_line f r M (g_width g) ->
  exists o', mean_h N (float_marith f) c r g o = Ok o' /\
    approximates f g o o' (box_row g r) (fun x y => line_error f r M (g_width g) x).
Proof.
  intros Safe. assert (Safe' := Safe). destruct Safe' as (S1 & S2 & S3).
  pose proof (coef_kok f r ltac:(lia) Hkw) as KK. pose proof (coef_off f r) as KO.
  assert (SS : checkSameShape g o = Ok tt) by (unfold checkSameShape; rewrite Ew, Eh, !Z.eqb_refl; reflexivity).
  unfold mean_h. rewrite SS. cbn [bind]. replace (u32 (r * 2 + 1)) with w by (rewrite u32_id; lia).
  cbn zeta. change (k_width K) with w. change (na_arith N) with (float_arith f).
  destruct (g_width g <? w)%Z eqn:C.
  - destruct (normalized_h_ok N K g o (unit_K S1) KK Hg Ho Ew Eh Sw Sh) as (o' & E' & Hh).
    { intros; exact Bl. }
    { intros x y I. destruct (nval_h x y S1 S2 I) as (v & E & _). eauto. }
    exists o'. split; auto. eapply holds_approx; [exact Hh|].
    intros x y I. unfold line_error. replace ((r <=? x) && (x <? g_width g - r))%Z%bool with false by lia. now apply nval_h.
  - destruct (just_h_ok N K g o KK Hg Ho Ew Eh (proj2 Sw) (g_data o) eq_refl) as (d & Ed & L & Wd).
    { change (k_width K) with w. lia. }
    { intros x y I. destruct (nval_h x y S1 S2 I) as (v & E & _). eauto. }
    rewrite Ed. cbn [bind].
    set (T := fun x y => slide f (fun j => Q j y) wn (Z.to_nat x)).
    set (V := fun x y => fdiv f (T (x - r)%Z y) (float_of_Z f w)).
    destruct (gen_inner_h (float_marith f) r g o ltac:(lia) Hkw Hg Ho Ew Eh Sw Q Q_pixel T V d L) as (d' & Ed' & L' & Wd').
    { lia. }
    { intros y Hy. unfold T. change (Z.to_nat 0) with 0%nat. cbn [slide]. apply facc_first. lia. }
    { intros x y Hx Hx2 Hy. unfold T. cbn [m_sub m_add float_marith bind].
      replace (Z.to_nat (x + 1)) with (S (Z.to_nat x)) by lia. cbn [slide].
      replace (Z.of_nat (Z.to_nat x)) with x by lia. replace (Z.of_nat wn) with w by lia. reflexivity. }
    { intros x y Hx Hx2 Hy. unfold V. replace (x + r - r)%Z with x by lia. reflexivity. }
    rewrite Ed'. cbn [bind].
    set (F := fun x y => if ((r <=? x) && (x <? g_width g - r))%Z%bool then Some (V x y) else nvalue_h N K g x y).
    assert (HF : holds g o (with_data o d') F).
    { apply finish; auto.
      - intros x y I. unfold F. destruct (_ && _)%bool; eauto. destruct (nval_h x y S1 S2) as (v & E & _); eauto.
      - eapply win_iff; [|eapply win_seq; [eapply win_ext; [|exact Wd]|eapply win_ext; [|exact Wd']]].
        + intros x y _. cbn beta. rewrite KO. change (k_width K) with w. split; auto; intros _; lia.
        + intros x y _ Hx. cbn beta in Hx. rewrite KO in Hx. change (k_width K) with w in Hx. unfold F.
          replace ((r <=? x) && (x <? g_width g - r))%Z%bool with false by lia. reflexivity.
        + intros x y _ Hx. cbn beta in Hx. unfold F.
          replace ((r <=? x) && (x <? g_width g - r))%Z%bool with true by lia. reflexivity. }
    eexists; split; [reflexivity|]. eapply holds_approx; [exact HF|].
    intros x y I. unfold F, line_error. destruct (_ && _)%bool eqn:Cx; [|now apply nval_h].
    exists (V x y). split; auto. unfold V, T.
    destruct (line_out (fun j => Q j y) (g_width g) x Safe) as [FV EV]; [|lia|].
    { intros j Hj. apply Q_num. destruct I; split; lia. }
    split; auto. replace (box_row g r x y) with (wsum (fun j => val (Q j y)) (x - r) wn / INR wn); auto.
    symmetry. apply window_average; [lia|]. intros j Hj. unfold rpixel. rewrite Q_pixel; [reflexivity|]. destruct I; split; lia.
Qed.
Lemma mean_v_float : (g_width g < w \/ w <= g_height g)%Z ->
  (g_offset g + g_width g + g_height g * g_stride g <= 4294967296)%Z -> safe_line f r M (g_height g) ->
  exists o', mean_v N (float_marith f) c r g o = Ok o' /\
    approximates f g o o' (box_col g r) (fun x y => column_error f r M (g_width g) (g_height g) y).
Proof.
  intros HC HB Safe. assert (Safe' := Safe). destruct Safe' as (S1 & S2 & S3).
  pose proof (coef_kok f r ltac:(lia) Hkw) as KK. pose proof (coef_off f r) as KO.
  assert (SS : checkSameShape g o = Ok tt) by (unfold checkSameShape; rewrite Ew, Eh, !Z.eqb_refl; reflexivity).
  unfold mean_v. rewrite SS. cbn [bind]. replace (u32 (r * 2 + 1)) with w by (rewrite u32_id; lia).
  cbn zeta. change (k_width K) with w. change (na_arith N) with (float_arith f).
  destruct (g_width g <? w)%Z eqn:C.
  - destruct (normalized_v_ok N K g o (unit_K S1) KK Hg Ho Ew Eh Sw Sh) as (o' & E' & Hh).
    { intros; exact Bl. }
    { intros _ k _. reflexivity. }
    { intros x y I. destruct (nval_v x y S1 S2 I) as (v & E & _). eauto. }
    exists o'. split; auto. eapply holds_approx; [exact Hh|].
    intros x y I. unfold column_error. rewrite C. now apply nval_v.
  - destruct (just_v_ok N K g o KK Hg Ho Ew Eh (proj2 Sh) (g_data o) eq_refl (proj1 Sw)) as (d & Ed & L & Wd).
    { change (k_width K) with w. lia. }
    { intros x y I. destruct (nval_v x y S1 S2 I) as (v & E & _). eauto. }
    rewrite Ed. cbn [bind].
    set (T := fun x y => slide f (fun j => Q x j) wn (Z.to_nat y)).
    set (V := fun x y => fdiv f (T x (y - r)%Z) (float_of_Z f w)).
    destruct (gen_inner_v (float_marith f) r g o ltac:(lia) Hkw Hg Ho Ew Eh Sw Sh Q Q_pixel T V d L) as (d' & Ed' & L' & Wd').
    { lia. }
    { exact HB. }
    { intros x Hx. unfold T. change (Z.to_nat 0) with 0%nat. cbn [slide]. apply facc_first. lia. }
    { intros x y Hx Hy Hy2. unfold T. cbn [m_sub m_add float_marith bind].
      replace (Z.to_nat (y + 1)) with (S (Z.to_nat y)) by lia. cbn [slide].
      replace (Z.of_nat (Z.to_nat y)) with y by lia. replace (Z.of_nat wn) with w by lia. reflexivity. }
    { intros x y Hx Hx2 Hy. unfold V. replace (y + r - r)%Z with y by lia. reflexivity. }
    rewrite Ed'. cbn [bind].
    set (F := fun x y => if ((r <=? y) && (y <? g_height g - r))%Z%bool then Some (V x y) else nvalue_v N K g x y).
    assert (HF : holds g o (with_data o d') F).
    { apply finish; auto.
      - intros x y I. unfold F. destruct (_ && _)%bool; eauto. destruct (nval_v x y S1 S2) as (v & E & _); eauto.
      - eapply win_iff; [|eapply win_seq; [eapply win_ext; [|exact Wd]|eapply win_ext; [|exact Wd']]].
        + intros x y _. cbn beta. rewrite KO. change (k_width K) with w. split; auto; intros _; lia.
        + intros x y _ Hx. cbn beta in Hx. rewrite KO in Hx. change (k_width K) with w in Hx. unfold F.
          replace ((r <=? y) && (y <? g_height g - r))%Z%bool with false by lia. reflexivity.
        + intros x y _ Hx. cbn beta in Hx. unfold F.
          replace ((r <=? y) && (y <? g_height g - r))%Z%bool with true by lia. reflexivity. }
    eexists; split; [reflexivity|]. eapply holds_approx; [exact HF|].
    intros x y I. unfold F, column_error. rewrite C. unfold line_error. destruct (_ && _)%bool eqn:Cx; [|now apply nval_v].
    exists (V x y). split; auto. unfold V, T.
    destruct (line_out (fun j => Q x j) (g_height g) y Safe) as [FV EV]; [|lia|].
    { intros j Hj. apply Q_num. destruct I; split; lia. }
    split; auto. replace (box_col g r x y) with (wsum (fun j => val (Q x j)) (y - r) wn / INR wn); auto.
    symmetry. apply window_average; [lia|]. intros j Hj. unfold rpixel. rewrite Q_pixel; [reflexivity|]. destruct I; split; lia.
Qed.
End Mean.

(** ** Both passes *)
Lemma average_close px px' e i n : (0 < length (rpresent px i n))%nat ->
  (forall j a, px j = Some a -> exists b, px' j = Some b /\ Rabs (a - b) <= e) -> (forall j, px j = None -> px' j = None) ->
  Rabs (average (rpresent px i n) - average (rpresent px' i n)) <= e.
Proof.
  intros L H1 H2.
  assert (A : length (rpresent px i n) = length (rpresent px' i n) /\
    Rabs (fold_right Rplus 0 (rpresent px i n) - fold_right Rplus 0 (rpresent px' i n)) <= e * INR (length (rpresent px i n))).
  { clear L. revert i. induction n as [|n IH]; intros i; cbn [rpresent].
    - cbn. rewrite Rminus_0_r, Rabs_R0. split; auto. lra.
    - destruct (IH (i + 1)%Z) as [E1 E2]. destruct (px i) as [a|] eqn:P.
      + destruct (H1 i a P) as (b & -> & D). cbn [length fold_right]. rewrite S_INR. split; [lia|].
        match goal with |- Rabs (a + ?s - (b + ?s')) <= _ => replace (a + s - (b + s')) with ((a - b) + (s - s')) by ring end.
        eapply Rle_trans; [apply Rabs_triang|]. lra.
      + rewrite (H2 i P). auto. }
  destruct A as [E1 E2]. unfold average. rewrite <- E1.
  assert (P : 0 < INR (length (rpresent px i n))) by (apply lt_0_INR; auto).
  match goal with |- Rabs (?s / ?l - ?s' / ?l) <= _ => replace (s / l - s' / l) with ((s - s') * / l) by (field; lra) end.
  rewrite Rabs_mult, (Rabs_pos_eq (/ _)) by (left; apply Rinv_0_lt_compat; auto).
  apply Rmult_le_reg_r with (INR (length (rpresent px i n))); auto. rewrite Rmult_assoc, Rinv_l, Rmult_1_r by lra. exact E2.
Qed.
Lemma average_bound px M i n : (0 < length (rpresent px i n))%nat -> (forall j a, px j = Some a -> Rabs a <= M) ->
  Rabs (average (rpresent px i n)) <= M.
Proof.
  intros L H. pose proof (average_close px (fun j => option_map (fun _ => 0) (px j)) M i n L) as C.
  assert (Z0 : forall i, fold_right Rplus 0 (rpresent (fun j => option_map (fun _ : R => 0) (px j)) i n) = 0).
  { clear. induction n as [|n IH]; intros i; cbn [rpresent]; auto. destruct (px i); cbn [option_map fold_right]; rewrite IH; auto. ring. }
  unfold average at 2 in C. rewrite Z0 in C. unfold Rdiv in C. rewrite Rmult_0_l, Rminus_0_r in C. apply C.
  - intros j a Hj. exists 0. rewrite Hj. split; auto. rewrite Rminus_0_r. eauto.
  - intros j Hj. rewrite Hj. reflexivity.
Qed.

Lemma slide_mono f M x n : 0 <= M -> (0 <= x <= n)%Z -> slide_error f M x <= slide_error f M n.
Proof.
  intros M0 Hx. unfold slide_error. apply Rplus_le_compat_r. apply Rmult_le_compat_r; auto.
  pose proof (G_mono f (Z.to_nat (2 * x + 2)) (Z.to_nat (2 * n + 2)) ltac:(lia)). lra.
Qed.
Lemma line_longest f r M n x : 0 <= M -> (0 <= x < n)%Z -> line_error f r M n x <= longest_error f r M n.
Proof.
  intros M0 Hx. unfold line_error, longest_error. destruct (_ && _)%bool.
  - eapply Rle_trans; [apply (slide_mono f M x n); auto; lia|apply Rmax_l].
  - apply Rmax_r.
Qed.
Lemma column_longest f r M n m y : 0 <= M -> (0 <= y < m)%Z -> column_error f r M n m y <= longest_error f r M m.
Proof. intros M0 Hx. unfold column_error. destruct (_ <? _)%Z; [apply Rmax_r|now apply line_longest]. Qed.

Section Top.
Variable f : fty.
Hypothesis St : standard f.
Variables (r : Z) (M : R) (g out work : gray spec_float).
Notation zero := (S754_zero false).
Hypothesis Hr : (0 < r)%Z.
Hypothesis Hkw : (2 * r + 1 <= 1073741824)%Z.
Hypothesis Wg : wf g.
Hypothesis Wo : wf out.
Hypothesis Ww : wf work.
Hypothesis Bw : (0 < g_width g <= 1073741824)%Z.
Hypothesis Bh : (0 < g_height g <= 1073741824)%Z.
Hypothesis Bl : (zlen (g_data g) < 2147483648)%Z.
Hypothesis Bk : (zlen (g_data work) < 2147483648)%Z.
Hypothesis So : g_sub out = false \/ (g_width out = g_width g /\ g_height out = g_height g).
Hypothesis Sk : (g_sub work = false /\ (g_width g * (g_height g + 1) <= 4294967296)%Z) \/
  (g_width work = g_width g /\ g_height work = g_height g /\
   (g_offset work + g_width work + g_height work * g_stride work <= 4294967296)%Z).
Hypothesis HC : (g_width g < 2 * r + 1 \/ 2 * r + 1 <= g_height g)%Z.
Hypothesis Hb : bounded_numbers f g M.
Hypothesis S1 : safe_line f r M (g_width g).
Hypothesis S2 : safe_line f r (M + longest_error f r M (g_width g)) (g_height g).

Lemma blur_mean_float : exists o w out' work', gray_reshape zero out (g_width g) (g_height g) = Ok o /\
  gray_reshape zero work (g_width g) (g_height g) = Ok w /\
  blur_mean (float_narith f) (float_marith f) zero (mean_coefficient f (2 * r + 1)) r g out work = Ok (out', work') /\
  leaves w work' /\ approximates f g o out' (box_both g r) (fun _ _ => longest_error f r M (g_width g) +
    longest_error f r (M + longest_error f r M (g_width g)) (g_height g)).
Proof.
  set (e1 := longest_error f r M (g_width g)) in *.
  pose proof (bounded_pos f g M Wg Bw Bh Hb) as M0.
  destruct (reshape_for zero g out Wg Wo So) as (o & Eo & Ho & Ow & Oh).
  destruct (reshape_for zero g work Wg Ww) as (w & Ewk & Hw & Wkw & Wkh).
  { destruct Sk as [[A _]|(A & B & _)]; auto. }
  destruct (mean_h_float f St r M g w Hr Hkw Wg Hw Wkw Wkh Bw Bh Bl Hb S1) as (w' & Ew' & Ah). destruct Ah as (B1 & B2 & Bl' & B3).
  assert (A3 := proj1 Bl').
  assert (Wf' : wf w') by (eapply wf_layout; eauto).
  assert (Aw : approximates f g w w' (box_row g r) (fun _ _ => e1)).
  { split; auto. split; auto. split; auto. intros x y I. destruct (B3 x y I) as (v & Q1 & Q2 & Q3).
    exists v. split; auto. split; auto. eapply Rle_trans; [exact Q3|]. apply line_longest; auto. apply I. }
  destruct Aw as (A1 & A2 & _ & A4). clear B1 B2 B3.
  assert (Bn : bounded_numbers f w' (M + e1)).
  { intros x y p I P. assert (I' : inside g x y) by (destruct I; split; lia).
    destruct (A4 x y I') as (v & Q1 & Q2 & Q3). assert (v = p) as -> by congruence. split; auto.
    assert (Rabs (box_row g r x y) <= M).
    { unfold box_row. apply average_bound.
      - apply (rpresent_pos _ _ _ r (val (Q g x y))); [lia|]. replace (x - r + r)%Z with x by lia.
        unfold rpixel. rewrite (Q_pixel g Wg x y I'). reflexivity.
      - intros j a. unfold rpixel. destruct (pixel g j y) eqn:Px; [|discriminate]. cbn. intros E.
        assert (a = val s) as -> by congruence. apply (bounded_pixel f g M Hb _ _ _ Px). }
    replace (val p) with (box_row g r x y + (val p - box_row g r x y)) by ring.
    eapply Rle_trans; [apply Rabs_triang|]. lra. }
  assert (Rm : (g_offset w' + g_width w' + g_height w' * g_stride w' <= 4294967296)%Z).
  { destruct A3 as (C1 & C2 & C3 & C4 & C5 & _). rewrite C1, C2, C3, C4.
    unfold gray_reshape in Ewk. destruct (_ && _)%bool eqn:C.
    - assert (w = work) as -> by congruence. destruct Sk as [[T1 T2]|(T1 & T2 & T3)]; [|exact T3].
      unfold wf in Ww. destruct Ww as (_ & _ & _ & _ & _ & _ & QQ). destruct (QQ T1) as [-> ->]. nia.
    - destruct Sk as [[T1 T2]|(T1 & T2 & T3)]; [|exfalso; lia]. rewrite T1 in Ewk.
      match type of Ewk with Ok ?z = _ => assert (w = z) as -> by congruence end. cbn.
      unfold wf in Ww. destruct Ww as (_ & _ & _ & _ & _ & _ & QQ). destruct (QQ T1) as [-> _]. nia. }
  assert (Ln : (zlen (g_data w') < 2147483648)%Z).
  { destruct A3 as (_ & _ & _ & _ & _ & L). rewrite L.
    pose proof (reshape_len zero work (g_width g) (g_height g) w ltac:(lia) ltac:(lia) Ewk).
    assert (g_width g * g_height g <= zlen (g_data g))%Z by (unfold wf in Wg; nia). lia. }
  assert (S2' : safe_line f r (M + e1) (g_height w')) by (rewrite A2; exact S2).
  destruct (mean_v_float f St r (M + e1) w' o Hr Hkw Wf' Ho) as (o' & Eo' & Av); auto; try congruence; try lia.
  exists o, w, o', w'. split; auto. split; auto. split.
  { unfold blur_mean. replace (r <=? 0)%Z with false by lia. rewrite Eo, Ewk. cbn [bind]. rewrite Ew'. cbn [bind].
    now rewrite Eo'. }
  destruct Av as (B1 & B2 & B0 & B3). split; auto. split; [congruence|]. split; [congruence|]. split; auto. intros x y I.
  assert (I' : inside w' x y) by (destruct I; split; lia).
  destruct (B3 x y I') as (v & Q1 & Q2 & Q3). exists v. split; auto. split; auto.
  assert (Me : 0 <= M + e1) by (pose proof (bounded_pos f w' (M + e1) Wf' ltac:(lia) ltac:(lia) Bn); auto).
  assert (Q4 : Rabs (box_col w' r x y - box_both g r x y) <= e1).
  { unfold box_col, box_both. apply average_close.
    - apply (rpresent_pos _ _ _ r (val (Q w' x y))); [lia|]. replace (y - r + r)%Z with y by lia.
      unfold rpixel. rewrite (Q_pixel w' Wf' x y I'). reflexivity.
    - intros j a. destruct (_ && _)%bool eqn:C.
      + destruct (A4 x j) as (z & Z1 & Z2 & Z3); [destruct I; split; lia|].
        unfold rpixel. rewrite Z1. cbn [option_map]. intros E. assert (a = val z) as -> by congruence. eauto.
      + unfold rpixel. rewrite pixel_outside by (unfold inside; lia). discriminate.
    - intros j. destruct (_ && _)%bool eqn:C; auto. unfold rpixel.
      destruct (pixel_exists w' x j Wf') as (z & ->); [destruct I; split; lia|]. discriminate. }
  replace (val v - box_both g r x y) with ((box_col w' r x y - box_both g r x y) + (val v - box_col w' r x y)) by ring.
  eapply Rle_trans; [apply Rabs_triang|]. apply Rplus_le_compat; auto.
  eapply Rle_trans; [exact Q3|]. rewrite A2. apply column_longest; auto. apply I.
Qed.
End Top.

(** Error analysis of sums of products. *)
From Coq Require Import Reals Bool Lia Lra Psatz.
From Coq Require Import Floats.SpecFloat.
From Flocq Require Import Core BinarySingleNaN.
From Verif Require Import Base BaseFacts M_Image S_Image M_Border S_Border M_Convolve S_Convolve M_Float S_Ieee L_Ieee.
From Verif Require Import S_FConv L_Border L_Convolve2.
Local Open Scope R_scope.

Section E.
Variable f : fty.
Hypothesis St : standard f.
Let W := standard_wfty f St.
Let u := unit_error f.
Let t := tiny_error f.
Lemma u_pos : 0 < u. Proof. apply bpow_gt_0. Qed.
Lemma t_pos : 0 < t. Proof. apply bpow_gt_0. Qed.

Lemma G_1 k : 1 <= (1 + u) ^ k.
Proof. apply pow_R1_Rle. pose proof u_pos. lra. Qed.
Lemma G_mono j k : (j <= k)%nat -> (1 + u) ^ j <= (1 + u) ^ k.
Proof. intros H. apply Rle_pow; auto. pose proof u_pos. lra. Qed.

Lemma rmag_pos ks p i : 0 <= rmag ks p i.
Proof. revert i; induction ks; intros i; cbn; [lra|]. pose proof (Rabs_pos (val a * p i)). specialize (IHks (i + 1)%Z). lra. Qed.

Lemma safe_le n m A B : (n <= m)%nat -> 0 <= A <= B -> safe_magnitude f m B ->
  (A + INR n * t) * (1 + u) ^ (n + 1) < huge f.
Proof.
  intros H [HA HB] S. unfold safe_magnitude in S. fold t u in S.
  eapply Rle_lt_trans; [|exact S]. pose proof t_pos. pose proof (pos_INR n). pose proof (le_INR _ _ H).
  apply Rmult_le_compat.
  - apply Rplus_le_le_0_compat; auto. apply Rmult_le_pos; lra.
  - pose proof (G_1 (n + 1)). lra.
  - apply Rplus_le_compat; auto. apply Rmult_le_compat_r; lra.
  - apply G_mono. lia.
Qed.

(** One more product added to a sum. *)
Lemma acc_step c v s Sx A k : finite f c -> finite f v -> finite f s -> Rabs Sx <= A ->
  Rabs (val s - Sx) <= sum_error f k A ->
  (A + Rabs (val c * val v) + INR (S k) * t) * (1 + u) ^ (S k + 1) < huge f ->
  finite f (fadd f s (fmul f c v)) /\
  Rabs (val (fadd f s (fmul f c v)) - (Sx + val c * val v)) <= sum_error f (S k) (A + Rabs (val c * val v)).
Proof.
  intros Fc Fv Fs HA HS Q.
  pose proof u_pos as U. pose proof t_pos as T.
  set (x := val c * val v) in *. pose proof (Rabs_pos x) as X0. pose proof (Rabs_pos Sx) as S0.
  pose proof (rnd_err f W x) as E1. fold u t in E1.
  assert (B1 : Rabs (rnd f x) <= (1 + u) * Rabs x + t).
  { replace (rnd f x) with (x + (rnd f x - x)) by ring. eapply Rle_trans; [apply Rabs_triang|]. lra. }
  assert (L1 : Rabs (rnd f (val c * val v)) < huge f).
  { fold x. eapply Rle_lt_trans; [exact B1|]. eapply Rle_lt_trans; [|exact Q].
    pose proof (G_mono 1 (S k + 1) ltac:(lia)) as GM. rewrite pow_1 in GM.
    rewrite S_INR. pose proof (pos_INR k) as K0.
    assert (C1 : (Rabs x + t) * (1 + u) <= (A + Rabs x + (INR k + 1) * t) * (1 + u) ^ (S k + 1)).
    { apply Rmult_le_compat; [lra|lra| |exact GM]. assert (0 <= INR k * t) by (apply Rmult_le_pos; lra). lra. }
    nra. }
  destruct (fmul_fin f W _ _ Fc Fv L1) as [Fm Vm]. fold x in Vm.
  set (m := fmul f c v) in *.
  set (A' := A + Rabs x) in *. set (S' := Sx + x).
  assert (HA' : Rabs S' <= A') by (unfold S', A'; eapply Rle_trans; [apply Rabs_triang|lra]).
  pose proof (rnd_add_err f W _ _ (finite_fmt f _ Fs) (finite_fmt f _ Fm)) as E2. fold u in E2.
  assert (E3 : Rabs (val s + val m - S') <= sum_error f k A + u * Rabs x + t).
  { unfold S'. replace (val s + val m - (Sx + x)) with ((val s - Sx) + (val m - x)) by ring.
    eapply Rle_trans; [apply Rabs_triang|]. rewrite Vm. lra. }
  assert (E4 : Rabs (rnd f (val s + val m) - S') <= sum_error f (S k) A').
  { assert (B2 : Rabs (val s + val m) <= A' + (sum_error f k A + u * Rabs x + t)).
    { replace (val s + val m) with (S' + (val s + val m - S')) by ring. eapply Rle_trans; [apply Rabs_triang|]. lra. }
    replace (rnd f (val s + val m) - S') with ((rnd f (val s + val m) - (val s + val m)) + (val s + val m - S')) by ring.
    eapply Rle_trans; [apply Rabs_triang|].
    apply Rle_trans with (u * (A' + (sum_error f k A + u * Rabs x + t)) + (sum_error f k A + u * Rabs x + t)).
    { apply Rplus_le_compat; auto. eapply Rle_trans; [exact E2|]. apply Rmult_le_compat_l; lra. }
    unfold sum_error, A'. fold u t. rewrite S_INR.
    replace (S k + 1)%nat with (S (k + 1)) by lia. cbn [pow].
    replace (k + 1)%nat with (S k) by lia. cbn [pow].
    pose proof (G_1 k) as G1. set (G := (1 + u) ^ k) in *.
    pose proof (pos_INR k) as K0. set (K := INR k) in *.
    assert (A0 : 0 <= A) by lra.
    assert (X1 : (2 * u + u * u) * Rabs x <= ((1 + u) * ((1 + u) * G) - 1) * Rabs x).
    { apply Rmult_le_compat_r; auto. assert ((1 + u) * (1 + u) * 1 <= (1 + u) * (1 + u) * G).
      { apply Rmult_le_compat_l; nra. } nra. }
    assert (T1 : (1 + u) * t <= t * ((1 + u) * G)).
    { assert ((1 + u) * t * 1 <= (1 + u) * t * G) by (apply Rmult_le_compat_l; nra). lra. }
    replace (((1 + u) * ((1 + u) * G) - 1) * (A + Rabs x) + (K + 1) * t * ((1 + u) * G)) with
      (((1 + u) * ((1 + u) * G) - 1) * A + ((1 + u) * ((1 + u) * G) - 1) * Rabs x +
       (1 + u) * (K * t * G) + t * ((1 + u) * G)) by ring.
    replace (u * (A + Rabs x + (((1 + u) * G - 1) * A + K * t * G + u * Rabs x + t)) +
      (((1 + u) * G - 1) * A + K * t * G + u * Rabs x + t)) with
      (((1 + u) * ((1 + u) * G) - 1) * A + (2 * u + u * u) * Rabs x + (1 + u) * (K * t * G) + (1 + u) * t) by ring.
    lra. }
  assert (L2 : Rabs (rnd f (val s + val m)) < huge f).
  { replace (rnd f (val s + val m)) with (S' + (rnd f (val s + val m) - S')) by ring.
    eapply Rle_lt_trans; [apply Rabs_triang|].
    eapply Rle_lt_trans; [|exact Q]. unfold sum_error in E4. fold u t in E4.
    assert (A0 : 0 <= A') by (unfold A'; lra).
    pose proof (G_mono (S k) (S k + 1) ltac:(lia)) as GM.
    assert (0 <= INR (S k) * t) by (apply Rmult_le_pos; [apply pos_INR|lra]).
    assert (INR (S k) * t * (1 + u) ^ (S k) <= INR (S k) * t * (1 + u) ^ (S k + 1)) by (apply Rmult_le_compat_l; auto).
    nra. }
  destruct (fadd_fin f W _ _ Fs Fm L2) as [Fa Va]. split; auto. rewrite Va. exact E4.
Qed.

Lemma weighted_error ks : forall px p i s Sx A k,
  (forall c, In c ks -> finite f c) ->
  (forall j, exists v, px j = Some v /\ finite f v /\ val v = p j) ->
  finite f s -> Rabs Sx <= A -> Rabs (val s - Sx) <= sum_error f k A ->
  safe_magnitude f (k + length ks) (A + rmag ks p i) ->
  exists r, weighted (float_arith f) s ks px i = Some r /\ finite f r /\
    Rabs (val r - (Sx + rdot ks p i)) <= sum_error f (k + length ks) (A + rmag ks p i).
Proof.
  induction ks as [|c ks IH]; intros px p i s Sx A k Fk Fp Fs HA HS Safe; cbn [weighted rdot rmag length].
  - exists s. rewrite Nat.add_0_r, !Rplus_0_r. auto.
  - destruct (Fp i) as (v & Ev & Fv & Vv). rewrite Ev. cbn [a_prod a_add float_arith].
    assert (Fc : finite f c) by (apply Fk; left; auto).
    cbn [length rmag] in Safe.
    pose proof (rmag_pos ks p (i + 1)) as M0. pose proof (Rabs_pos (val c * p i)) as X0. pose proof (Rabs_pos Sx) as S0.
    assert (Q : (A + Rabs (val c * p i) + INR (S k) * t) * (1 + u) ^ (S k + 1) < huge f)
      by (eapply safe_le; [| |exact Safe]; [lia|lra]).
    rewrite <- Vv in *.
    destruct (acc_step c v s Sx A k Fc Fv Fs HA HS Q) as [Fa Ea].
    destruct (IH px p (i + 1)%Z (fadd f s (fmul f c v)) (Sx + val c * val v) (A + Rabs (val c * val v)) (S k))
      as (r & R1 & R2 & R3); auto.
    + intros d D. apply Fk. right; auto.
    + eapply Rle_trans; [apply Rabs_triang|lra].
    + replace (S k + length ks)%nat with (k + S (length ks))%nat by lia. rewrite Rplus_assoc. exact Safe.
    + exists r. split; auto. split; auto. rewrite <- !Rplus_assoc.
      replace (k + S (length ks))%nat with (S k + length ks)%nat by lia. exact R3.
Qed.

Lemma zero_fin : finite f (S754_zero false).
Proof. split; reflexivity. Qed.

Lemma filtered_error ks px p :
  (forall c, In c ks -> finite f c) ->
  (forall j, exists v, px j = Some v /\ finite f v /\ val v = p j) ->
  safe_magnitude f (length ks) (rmag ks p 0) ->
  exists r, filtered (float_arith f) ks px = Some r /\ finite f r /\
    Rabs (val r - rdot ks p 0) <= sum_error f (length ks) (rmag ks p 0).
Proof.
  intros Fk Fp Safe.
  destruct (weighted_error ks px p 0 (S754_zero false) 0 0 0 Fk Fp zero_fin) as (r & R1 & R2 & R3).
  - rewrite Rabs_R0. lra.
  - cbn [val SF2R]. unfold val, SF2R, sum_error. rewrite Rminus_0_r, Rabs_R0. cbn [INR]. lra.
  - cbn [Nat.add]. rewrite Rplus_0_l. exact Safe.
  - exists r. cbn [Nat.add] in R3. rewrite !Rplus_0_l in R3.
    unfold filtered. cbn [a_zero a_out float_arith]. rewrite R1. auto.
Qed.

(** Integers. *)
Lemma weighted_int ks : forall px p i s cs S A,
  Forall2 (fun c z => finite f c /\ val c = IZR z) ks cs ->
  (forall j, exists v, px j = Some v /\ finite f v /\ val v = IZR (p j)) ->
  finite f s -> val s = IZR S -> (Z.abs S <= A)%Z ->
  forall M, (forall j, Z.abs (p j) <= M)%Z -> (A + zabs_sum cs * M <= 2 ^ f_prec f)%Z ->
  exists r, weighted (float_arith f) s ks px i = Some r /\ finite f r /\ val r = IZR (S + zdot cs p i).
Proof.
  intros px p i s cs S A F. revert i s S A. induction F as [|c z ks cs [Fc Vc] F IH];
    intros i s S A Fp Fs Vs HS M HM HB; cbn [weighted zdot zabs_sum] in *.
  - exists s. rewrite Z.add_0_r. auto.
  - destruct (Fp i) as (v & Ev & Fv & Vv). rewrite Ev. cbn [a_prod a_add float_arith].
    pose proof (HM i) as Mi.
    assert (M0 : (0 <= M)%Z) by lia.
    assert (Q0 : (0 <= zabs_sum cs)%Z) by (clear; induction cs; cbn; lia).
    assert (Q1 : (Z.abs (z * p i) <= Z.abs z * M)%Z) by (rewrite Z.abs_mul; nia).
    assert (Q2 : (0 <= zabs_sum cs * M)%Z) by nia.
    assert (D1 : (Z.abs (z * p i) <= 2 ^ f_prec f)%Z) by lia.
    destruct (int_exact f W _ D1) as [E1 L1]. rewrite mult_IZR, <- Vc, <- Vv in E1, L1.
    destruct (fmul_fin f W _ _ Fc Fv L1) as [Fm Vm]. rewrite E1, Vc, Vv, <- mult_IZR in Vm.
    assert (D2 : (Z.abs (S + z * p i) <= 2 ^ f_prec f)%Z) by lia.
    destruct (int_exact f W _ D2) as [E2 L2]. rewrite plus_IZR, <- Vs, <- Vm in E2, L2.
    destruct (fadd_fin f W _ _ Fs Fm L2) as [Fa Va]. rewrite E2, Vs, Vm, <- plus_IZR in Va.
    destruct (IH (i + 1)%Z (fadd f s (fmul f c v)) (S + z * p i)%Z (A + Z.abs z * M)%Z) with (M := M) as (r & R1 & R2 & R3);
      auto; try lia.
    exists r. split; auto. split; auto. rewrite R3. f_equal. lia.
Qed.
Lemma filtered_int ks cs px p M :
  Forall2 (fun c z => finite f c /\ val c = IZR z) ks cs ->
  (forall j, exists v, px j = Some v /\ finite f v /\ val v = IZR (p j)) ->
  (forall j, Z.abs (p j) <= M)%Z -> (zabs_sum cs * M <= 2 ^ f_prec f)%Z ->
  exists r, filtered (float_arith f) ks px = Some r /\ finite f r /\ val r = IZR (zdot cs p 0).
Proof.
  intros F Fp HM HB.
  destruct (weighted_int ks px p 0 (S754_zero false) cs 0 0 F Fp zero_fin) with (M := M) as (r & R1 & R2 & R3); auto; try lia.
  exists r. unfold filtered. cbn [a_zero a_out float_arith]. rewrite R1. auto.
Qed.
End E.

(** ** Images *)
Section I.
Variable f : fty.
Hypothesis St : standard f.
Notation A := (float_arith f).
Notation zero := (S754_zero false).
Variables (K : kernel spec_float) (b : border spec_float) (g out : gray spec_float).
Hypothesis Wg : wf g.
Hypothesis Wo : wf out.
Hypothesis Bw : (g_width g <= 1073741824)%Z.
Hypothesis Bh : (g_height g <= 1073741824)%Z.
Hypothesis Sub : g_sub out = false \/ (g_width out = g_width g /\ g_height out = g_height g).

Definition errs (n : nat) (D : Z -> Z -> R) : Z -> Z -> R := fun x y => sum_error f n (D x y).

Lemma holds_approx o out' F D e : holds g o out' F ->
  (forall x y, inside g x y -> exists v, F x y = Some v /\ finite f v /\ Rabs (val v - D x y) <= e x y) ->
  approximates f g o out' D e.
Proof.
  intros (H1 & H2 & H3 & H4 & H5) V. split; auto. split; auto. split; [split; auto|]. intros x y I. rewrite (H4 x y I). apply V. exact I.
Qed.
Lemma holds_exact o out' F D : holds g o out' F ->
  (forall x y, inside g x y -> exists v, F x y = Some v /\ finite f v /\ val v = IZR (D x y)) ->
  exactly f g o out' D.
Proof.
  intros (H1 & H2 & H3 & H4 & H5) V. split; auto. split; auto. split; [split; auto|]. intros x y I. rewrite (H4 x y I). apply V. exact I.
Qed.

Lemma numbers_show : numbers f b g -> forall x y, inside g x y -> shows f b g (rextended b g).
Proof.
  intros [N1 N2] x0 y0 [I1 I2] x y. unfold rextended.
  destruct (extended_exists b g x y Wg) as (v & E); [lia|lia|]. rewrite E. exists v. split; auto. split; auto.
  destruct b as [c| | |]; cbn [extended] in E.
  - destruct ((0 <=? x) && (x <? g_width g) && (0 <=? y) && (y <? g_height g))%Z eqn:C.
    + eapply N1; [|exact E]. rewrite !andb_true_iff in C. unfold inside. lia.
    + injection E as <-. apply N2. reflexivity.
  - eapply N1; [|exact E]. unfold inside, nearest. lia.
  - eapply N1; [|exact E]. split; apply mirrored_range; lia.
  - eapply N1; [|exact E]. unfold inside, periodic. split; apply Z.mod_pos_bound; lia.
Qed.
Lemma fconv_h : kernel1_ok K -> fits b (g_width g) K ->
  (forall c, In c (k_data K) -> finite f c) -> numbers f b g ->
  (forall x y, inside g x y ->
    safe_magnitude f (length (k_data K)) (rmag (k_data K) (fun i => rextended b g (x - k_offset K + i)%Z y) 0)) ->
  exists o out', gray_reshape zero out (g_width g) (g_height g) = Ok o /\
    convolve_h A zero K b g out = Ok out' /\
    approximates f g o out' (fun x y => rdot (k_data K) (fun i => rextended b g (x - k_offset K + i)%Z y) 0)
      (fun x y => sum_error f (length (k_data K)) (rmag (k_data K) (fun i => rextended b g (x - k_offset K + i)%Z y) 0)).
Proof.
  intros Kok Fit Fk Sh Safe.
  assert (V : forall x y, inside g x y -> exists v, value_h A K b g x y = Some v /\ finite f v /\
    Rabs (val v - rdot (k_data K) (fun i => rextended b g (x - k_offset K + i)%Z y) 0) <=
      sum_error f (length (k_data K)) (rmag (k_data K) (fun i => rextended b g (x - k_offset K + i)%Z y) 0)).
  { intros x y I. apply filtered_error; auto; intros j; apply (numbers_show Sh x y I). }
  destruct (convolve_h_ok A zero K b g out Wg Wo Bw Bh Kok Fit Sub) as (o & out' & Eo & C & H).
  { intros x y I. destruct (V x y I) as (v & E & _). eauto. }
  exists o, out'. split; auto. split; auto. eapply holds_approx; eauto.
Qed.
Lemma fconv_v : kernel1_ok K -> fits b (g_height g) K ->
  (forall c, In c (k_data K) -> finite f c) -> numbers f b g ->
  (forall x y, inside g x y ->
    safe_magnitude f (length (k_data K)) (rmag (k_data K) (fun i => rextended b g x (y - k_offset K + i)%Z) 0)) ->
  exists o out', gray_reshape zero out (g_width g) (g_height g) = Ok o /\
    convolve_v A zero K b g out = Ok out' /\
    approximates f g o out' (fun x y => rdot (k_data K) (fun i => rextended b g x (y - k_offset K + i)%Z) 0)
      (fun x y => sum_error f (length (k_data K)) (rmag (k_data K) (fun i => rextended b g x (y - k_offset K + i)%Z) 0)).
Proof.
  intros Kok Fit Fk Sh Safe.
  assert (V : forall x y, inside g x y -> exists v, value_v A K b g x y = Some v /\ finite f v /\
    Rabs (val v - rdot (k_data K) (fun i => rextended b g x (y - k_offset K + i)%Z) 0) <=
      sum_error f (length (k_data K)) (rmag (k_data K) (fun i => rextended b g x (y - k_offset K + i)%Z) 0)).
  { intros x y I. apply filtered_error; auto; intros j; apply (numbers_show Sh x y I). }
  destruct (convolve_v_ok A zero K b g out Wg Wo Bw Bh Kok Fit Sub) as (o & out' & Eo & C & H).
  { intros x y I. destruct (V x y I) as (v & E & _). eauto. }
  exists o, out'. split; auto. split; auto. eapply holds_approx; eauto.
Qed.
Lemma fconv_2 : kernel2_ok K -> fits b (g_width g) K -> fits b (g_height g) K ->
  (forall c, In c (k_data K) -> finite f c) -> numbers f b g ->
  (forall x y, inside g x y -> safe_magnitude f (length (k_data K)) (rmag (k_data K) (fun i =>
     rextended b g (x - k_offset K + i mod k_width K)%Z (y - k_offset K + i / k_width K)%Z) 0)) ->
  exists o out', gray_reshape zero out (g_width g) (g_height g) = Ok o /\
    convolve_2 A zero K b g out = Ok out' /\
    approximates f g o out'
      (fun x y => rdot (k_data K) (fun i => rextended b g (x - k_offset K + i mod k_width K)%Z (y - k_offset K + i / k_width K)%Z) 0)
      (fun x y => sum_error f (length (k_data K)) (rmag (k_data K) (fun i =>
         rextended b g (x - k_offset K + i mod k_width K)%Z (y - k_offset K + i / k_width K)%Z) 0)).
Proof.
  intros Kok Fit Fit2 Fk Sh Safe.
  assert (V : forall x y, inside g x y -> exists v, value_2 A K b g x y = Some v /\ finite f v /\
    Rabs (val v - rdot (k_data K) (fun i =>
        rextended b g (x - k_offset K + i mod k_width K)%Z (y - k_offset K + i / k_width K)%Z) 0) <=
      sum_error f (length (k_data K)) (rmag (k_data K) (fun i =>
        rextended b g (x - k_offset K + i mod k_width K)%Z (y - k_offset K + i / k_width K)%Z) 0)).
  { intros x y I. apply filtered_error; auto; intros j; apply (numbers_show Sh x y I). }
  destruct (convolve_2_ok A zero K b g out Wg Wo Bw Bh Kok Fit Fit2 Sub) as (o & out' & Eo & C & H).
  { intros x y I. destruct (V x y I) as (v & E & _). eauto. }
  exists o, out'. split; auto. split; auto. eapply holds_approx; eauto.
Qed.

Lemma iconv_h P cs M : kernel1_ok K -> fits b (g_width g) K ->
  integer_kernel f K cs -> shows f b g (fun x y => IZR (P x y)) ->
  (forall x y, Z.abs (P x y) <= M)%Z -> (zabs_sum cs * M <= 2 ^ f_prec f)%Z ->
  exists o out', gray_reshape zero out (g_width g) (g_height g) = Ok o /\
    convolve_h A zero K b g out = Ok out' /\
    exactly f g o out' (fun x y => zdot cs (fun i => P (x - k_offset K + i)%Z y) 0).
Proof.
  intros Kok Fit Fk Sh HM HB.
  assert (V : forall x y, inside g x y -> exists v, value_h A K b g x y = Some v /\ finite f v /\
    val v = IZR (zdot cs (fun i => P (x - k_offset K + i)%Z y) 0)).
  { intros x y I. apply (filtered_int f St _ _ _ _ M); auto; intros j; apply Sh. }
  destruct (convolve_h_ok A zero K b g out Wg Wo Bw Bh Kok Fit Sub) as (o & out' & Eo & C & H).
  { intros x y I. destruct (V x y I) as (v & E & _). eauto. }
  exists o, out'. split; auto. split; auto. eapply holds_exact; eauto.
Qed.
Lemma iconv_v P cs M : kernel1_ok K -> fits b (g_height g) K ->
  integer_kernel f K cs -> shows f b g (fun x y => IZR (P x y)) ->
  (forall x y, Z.abs (P x y) <= M)%Z -> (zabs_sum cs * M <= 2 ^ f_prec f)%Z ->
  exists o out', gray_reshape zero out (g_width g) (g_height g) = Ok o /\
    convolve_v A zero K b g out = Ok out' /\
    exactly f g o out' (fun x y => zdot cs (fun i => P x (y - k_offset K + i)%Z) 0).
Proof.
  intros Kok Fit Fk Sh HM HB.
  assert (V : forall x y, inside g x y -> exists v, value_v A K b g x y = Some v /\ finite f v /\
    val v = IZR (zdot cs (fun i => P x (y - k_offset K + i)%Z) 0)).
  { intros x y I. apply (filtered_int f St _ _ _ _ M); auto; intros j; apply Sh. }
  destruct (convolve_v_ok A zero K b g out Wg Wo Bw Bh Kok Fit Sub) as (o & out' & Eo & C & H).
  { intros x y I. destruct (V x y I) as (v & E & _). eauto. }
  exists o, out'. split; auto. split; auto. eapply holds_exact; eauto.
Qed.
Lemma iconv_2 P cs M : kernel2_ok K -> fits b (g_width g) K -> fits b (g_height g) K ->
  integer_kernel f K cs -> shows f b g (fun x y => IZR (P x y)) ->
  (forall x y, Z.abs (P x y) <= M)%Z -> (zabs_sum cs * M <= 2 ^ f_prec f)%Z ->
  exists o out', gray_reshape zero out (g_width g) (g_height g) = Ok o /\
    convolve_2 A zero K b g out = Ok out' /\
    exactly f g o out' (fun x y => zdot cs (fun i =>
      P (x - k_offset K + i mod k_width K)%Z (y - k_offset K + i / k_width K)%Z) 0).
Proof.
  intros Kok Fit Fit2 Fk Sh HM HB.
  assert (V : forall x y, inside g x y -> exists v, value_2 A K b g x y = Some v /\ finite f v /\
    val v = IZR (zdot cs (fun i => P (x - k_offset K + i mod k_width K)%Z (y - k_offset K + i / k_width K)%Z) 0)).
  { intros x y I. apply (filtered_int f St _ _ _ (fun i =>
      P (x - k_offset K + i mod k_width K)%Z (y - k_offset K + i / k_width K)%Z) M); auto; intros j; apply Sh. }
  destruct (convolve_2_ok A zero K b g out Wg Wo Bw Bh Kok Fit Fit2 Sub) as (o & out' & Eo & C & H).
  { intros x y I. destruct (V x y I) as (v & E & _). eauto. }
  exists o, out'. split; auto. split; auto. eapply holds_exact; eauto.
Qed.
End I.

(** ** Bits *)
Section B.
Variable f : fty.
Notation A := (float_arith f).
Notation zero := (S754_zero false).
Variables (K : kernel spec_float) (b : border spec_float) (g out : gray spec_float).
Hypothesis Wg : wf g.
Hypothesis Wo : wf out.
Hypothesis Bw : (g_width g <= 1073741824)%Z.
Hypothesis Bh : (g_height g <= 1073741824)%Z.
Hypothesis Sub : g_sub out = false \/ (g_width out = g_width g /\ g_height out = g_height g).

Lemma filtered_bits ks px : filtered A ks px = ieee_sum f zero ks px 0.
Proof.
  unfold filtered. cbn [a_zero a_out float_arith].
  assert (G : forall ks s i, weighted A s ks px i = ieee_sum f s ks px i).
  { clear. induction ks as [|c ks IH]; intros s i; cbn [weighted ieee_sum]; auto. destruct (px i); auto. apply IH. }
  change (mkArith _ _ _ _) with A. rewrite G. destruct (ieee_sum f zero ks px 0); reflexivity.
Qed.
Lemma ieee_exists ks px : (forall i, exists p, px i = Some p) -> forall s i, exists r, ieee_sum f s ks px i = Some r.
Proof.
  intros H. induction ks as [|c ks IH]; intros s i; cbn [ieee_sum]; eauto. destruct (H i) as (p & ->). apply IH.
Qed.
Lemma bits_exist ks (X Y : Z -> Z) x y : inside g x y -> exists r, filtered A ks (fun i => extended b g (X i) (Y i)) = Some r.
Proof.
  intros [I1 I2]. rewrite filtered_bits. apply ieee_exists. intros i. apply extended_exists; auto; lia.
Qed.

Lemma bits_all :
  (kernel1_ok K -> fits b (g_width g) K -> exists o out', gray_reshape zero out (g_width g) (g_height g) = Ok o /\
     convolve_h A zero K b g out = Ok out' /\
     holds g o out' (fun x y => ieee_sum f zero (k_data K) (fun i => extended b g (x - k_offset K + i)%Z y) 0)) /\
  (kernel1_ok K -> fits b (g_height g) K -> exists o out', gray_reshape zero out (g_width g) (g_height g) = Ok o /\
     convolve_v A zero K b g out = Ok out' /\
     holds g o out' (fun x y => ieee_sum f zero (k_data K) (fun i => extended b g x (y - k_offset K + i)%Z) 0)) /\
  (kernel2_ok K -> fits b (g_width g) K -> fits b (g_height g) K ->
     exists o out', gray_reshape zero out (g_width g) (g_height g) = Ok o /\ convolve_2 A zero K b g out = Ok out' /\
     holds g o out' (fun x y => ieee_sum f zero (k_data K) (fun i =>
       extended b g (x - k_offset K + i mod k_width K)%Z (y - k_offset K + i / k_width K)%Z) 0)).
Proof.
  assert (Hold : forall (o out' : gray spec_float) F F', (forall x y, F x y = F' x y) -> holds g o out' F -> holds g o out' F').
  { intros o out' F F' E (H1 & H2 & H3 & H4 & H5). do 3 (split; auto). split; auto. intros x y I. rewrite H4 by auto. apply E. }
  split; [|split].
  - intros HK HF. destruct (convolve_h_ok A zero K b g out Wg Wo Bw Bh HK HF Sub) as (o & out' & E & C & H).
    { intros x y I. apply (bits_exist _ _ _ x y I). }
    exists o, out'. do 2 (split; auto). eapply Hold; [|exact H]. intros x y. apply filtered_bits.
  - intros HK HF. destruct (convolve_v_ok A zero K b g out Wg Wo Bw Bh HK HF Sub) as (o & out' & E & C & H).
    { intros x y I. apply (bits_exist _ _ _ x y I). }
    exists o, out'. do 2 (split; auto). eapply Hold; [|exact H]. intros x y. apply filtered_bits.
  - intros HK HF HF2. destruct (convolve_2_ok A zero K b g out Wg Wo Bw Bh HK HF HF2 Sub) as (o & out' & E & C & H).
    { intros x y I. apply (bits_exist _ _ _ x y I). }
    exists o, out'. do 2 (split; auto). eapply Hold; [|exact H]. intros x y. apply filtered_bits.
Qed.
End B.

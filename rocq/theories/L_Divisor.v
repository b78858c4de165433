(** Proofs about convolutions with a divisor and about the inner part of a convolution. *)
From Coq Require Import Reals Lia Lra.
From Coq Require Import Floats.SpecFloat.
From Verif Require Import Base BaseFacts M_Image S_Image L_Image M_Border S_Border L_Border M_Convolve S_Convolve L_Window
  L_Convolve L_Convolve2 L_ConvolveInt M_Float M_Divisor S_Ieee S_FConv S_Divisor L_Ieee L_PointF L_FConv.

Lemma filtered_ext {E S R} (A : arith E S R) ks (p q : Z -> option E) :
  (forall i, 0 <= i < zlen ks -> p i = q i) -> filtered A ks p = filtered A ks q.
Proof.
  intros H. unfold filtered.
  assert (G : forall ks s i, (forall j, i <= j < i + zlen ks -> p j = q j) -> weighted A s ks p i = weighted A s ks q i).
  { clear. induction ks as [|c ks IH]; intros s i H; cbn [weighted]; auto. rewrite zlen_cons in H. pose proof (zlen_nonneg ks).
    rewrite <- H by lia. destruct (p i); auto. destruct (a_prod A c _); auto. destruct (a_add A s _); auto.
    apply IH. intros j J. apply H. lia. }
  rewrite (G ks _ 0); auto.
Qed.

(** ** Any arithmetic *)
Section G.
Context {E S R : Type}.
Variable A : arith E S R.
Variable K : kernel S.
Variable g : gray E.
Variable o : gray R.
Hypothesis Hg : wf g.
Hypothesis Ho : wf o.
Hypothesis Ew : g_width o = g_width g.
Hypothesis Eh : g_height o = g_height g.
Hypothesis Sw : g_width g <= 1073741824.
Hypothesis Sh : g_height g <= 1073741824.

Lemma part d P (F F' : Z -> Z -> option R) :
  writes (g_data o) (win o F P) d -> zlen d = zlen (g_data o) ->
  (forall x y, inside o x y -> P x y -> F x y = F' x y) -> (forall x y, inside o x y -> P x y -> exists r, F' x y = Some r) ->
  fills o (with_data o d) P F'.
Proof.
  intros W L Eq V. split; [now apply with_data_layout|]. split; [|split].
  - intros x y I HP. rewrite <- Eq by auto. eapply win_pixel; eauto. rewrite Eq by auto. auto.
  - intros x y I HP. rewrite (win_keep o F Ho (g_data o) d P x y W I HP). destruct o; reflexivity.
  - intros j J. eapply win_frame; eauto.
Qed.

Lemma plain_h_eq x y : kernel1_ok K -> inside g x y -> whole K (g_width g) x -> value_h A K BExtend g x y = plain_h A K g x y.
Proof.
  intros (K1 & K2 & K3) [I1 I2] [H1 H2]. apply filtered_ext. intros i Hi. unfold samples_h. apply extended_inside. split; lia.
Qed.
Lemma plain_v_eq x y : kernel1_ok K -> inside g x y -> whole K (g_height g) y -> value_v A K BExtend g x y = plain_v A K g x y.
Proof.
  intros (K1 & K2 & K3) [I1 I2] [H1 H2]. apply filtered_ext. intros i Hi. unfold samples_v. apply extended_inside. split; lia.
Qed.
Lemma plain_2_eq x y : kernel2_ok K -> whole K (g_width g) x -> whole K (g_height g) y ->
  value_2 A K BExtend g x y = plain_2 A K g x y.
Proof.
  intros (K1 & K2 & K3) [H1 H2] [H3 H4]. apply filtered_ext. intros i Hi. unfold samples_2. apply extended_inside.
  pose proof (Z.mod_pos_bound i (k_width K) ltac:(lia)). pose proof (Z.div_pos i (k_width K) ltac:(lia) ltac:(lia)).
  assert (i / k_width K < k_width K) by (apply Z.div_lt_upper_bound; lia). split; lia.
Qed.

Lemma inner_all :
  (kernel1_ok K -> k_width K <= g_width g ->
    (forall x y, inside g x y -> whole K (g_width g) x -> exists r, plain_h A K g x y = Some r) ->
    (exists d, inner_h_ptr A K g o (g_data o) = Ok d /\ fills o (with_data o d) (fun x _ => whole K (g_width g) x) (plain_h A K g)) /\
    (zlen (g_data g) < 2147483648 ->
     exists d, inner_h_idx A K g o (g_data o) = Ok d /\ fills o (with_data o d) (fun x _ => whole K (g_width g) x) (plain_h A K g))) /\
  (kernel1_ok K -> k_width K <= g_height g ->
    (forall x y, inside g x y -> whole K (g_height g) y -> exists r, plain_v A K g x y = Some r) ->
    (exists d, inner_v_ptr A K g o (g_data o) = Ok d /\ fills o (with_data o d) (fun _ y => whole K (g_height g) y) (plain_v A K g)) /\
    (zlen (g_data g) < 2147483648 ->
     exists d, inner_v_idx A K g o (g_data o) = Ok d /\ fills o (with_data o d) (fun _ y => whole K (g_height g) y) (plain_v A K g))) /\
  (kernel2_ok K -> k_width K <= g_width g -> k_width K <= g_height g ->
    (forall x y, inside g x y -> whole K (g_width g) x /\ whole K (g_height g) y -> exists r, plain_2 A K g x y = Some r) ->
    exists d, inner_2 A K g o (g_data o) = Ok d /\
      fills o (with_data o d) (fun x y => whole K (g_width g) x /\ whole K (g_height g) y) (plain_2 A K g)).
Proof.
  assert (IO : forall x y, inside o x y -> inside g x y) by (intros x y [? ?]; split; lia).
  split; [|split].
  - intros HK Hw HV.
    assert (HV' : forall x y, inside g x y -> k_offset K <= x < g_width g - (k_width K - k_offset K - 1) ->
       exists r, value_h A K BExtend g x y = Some r) by (intros x y I W; rewrite plain_h_eq by auto; auto).
    split; [|intros Hz].
    + destruct (inner_h_ptr_ok A K BExtend g o HK Hg Ho Ew Eh Sw (g_data o) eq_refl Hw HV') as (d & Ed & L & W).
      exists d. split; auto. eapply part; [exact W|exact L| |]; cbn beta; intros x y I P; [apply plain_h_eq|apply HV]; auto.
    + destruct (inner_h_idx_ok A K BExtend g o HK Hg Ho Ew Eh (g_data o) eq_refl Hw Hz HV') as (d & Ed & L & W).
      exists d. split; auto. eapply part; [exact W|exact L| |]; cbn beta; intros x y I P; [apply plain_h_eq|apply HV]; auto.
  - intros HK Hw HV.
    assert (HV' : forall x y, inside g x y -> k_offset K <= y < g_height g - (k_width K - k_offset K - 1) ->
       exists r, value_v A K BExtend g x y = Some r) by (intros x y I W; rewrite plain_v_eq by auto; auto).
    split; [|intros Hz].
    + destruct (inner_v_ptr_ok A K BExtend g o HK Hg Ho Ew Eh Sh (g_data o) eq_refl Hw HV') as (d & Ed & L & W).
      exists d. split; auto. eapply part; [exact W|exact L| |]; cbn beta; intros x y I P; [apply plain_v_eq|apply HV]; auto.
    + destruct (inner_v_idx_ok A K BExtend g o HK Hg Ho Ew Eh Sw Sh (g_data o) eq_refl Hw Hz HV') as (d & Ed & L & W).
      exists d. split; auto. eapply part; [exact W|exact L| |]; cbn beta; intros x y I P; [apply plain_v_eq|apply HV]; auto.
  - intros HK Hw Hh HV.
    destruct (inner_2_ok A K BExtend g o HK Hg Ho Ew Eh Sw Sh (g_data o) eq_refl Hw Hh) as (d & Ed & L & W).
    { intros x y I [W1 W2]. rewrite plain_2_eq by auto. apply HV; auto. }
    exists d. split; auto. eapply part; [exact W|exact L| |]; cbn beta; intros x y I [P1 P2]; [apply plain_2_eq; auto|apply HV; auto; split; auto].
Qed.
End G.

(** ** Integers *)
Section I.
Variables (t : ity) (d : Z) (K : kernel Z) (M : Z).
Hypothesis D0 : d <> 0.
Hypothesis DM : Z.abs d <= ity_max (signed_type t).
Hypothesis HM : zabs_sum (k_data K) * M + Z.abs (Z.quot d 2) <= ity_max (signed_type t).

Lemma quot_abs a b : b <> 0 -> Z.abs (Z.quot a b) <= Z.abs a.
Proof.
  intros B. rewrite <- Z.quot_abs by auto. rewrite Z.quot_div_nonneg by lia.
  apply Z.div_le_upper_bound; [lia|]. nia.
Qed.

Lemma zdot_bound ks p i : (forall j, i <= j < i + zlen ks -> Z.abs (p j) <= M) -> Z.abs (zdot ks p i) <= zabs_sum ks * M.
Proof.
  revert i. induction ks as [|c ks IH]; intros i H; cbn [zdot zabs_sum]; [lia|]. rewrite zlen_cons in H. pose proof (zlen_nonneg ks).
  assert (B1 : Z.abs (p i) <= M) by (apply H; lia).
  assert (B2 : Z.abs (zdot ks p (i + 1)) <= zabs_sum ks * M) by (apply IH; intros j J; apply H; lia).
  assert (Z.abs (c * p i) <= Z.abs c * M) by (rewrite Z.abs_mul; nia). lia.
Qed.

Lemma filtered_div px p : (forall j, 0 <= j < zlen (k_data K) -> px j = Some (p j) /\ Z.abs (p j) <= M) ->
  filtered (int_arith_div t d) (k_data K) px = Some (divided t d (k_data K) p).
Proof.
  intros H. pose proof (signed_type_min t) as Mn.
  unfold filtered.
  change (a_zero (int_arith_div t d)) with 0.
  assert (G : forall ks s i, weighted (int_arith_div t d) s ks px i = weighted (int_arith t t) s ks px i).
  { clear. induction ks as [|c ks IH]; intros s i; cbn [weighted]; auto. destruct (px i); auto.
    cbn [a_prod a_add int_arith_div int_arith]. destruct (arith_result _ (c * _)); auto.
    destruct (arith_result _ (s + _)); auto. }
  rewrite G. rewrite (L_ConvolveInt.weighted_int t t M (k_data K) px p 0 0).
  2: { intros j J. apply H. lia. }
  2: { rewrite Z.abs_0. lia. }
  cbn [a_out int_arith_div]. rewrite Z.add_0_l. unfold int_round_div, int_div.
  replace (2 =? 0) with false by reflexivity. replace (d =? 0) with false by lia.
  pose proof (quot_abs d 2 ltac:(lia)) as Q1.
  rewrite arith_result_in by lia. cbn [bind].
  pose proof (zdot_bound (k_data K) p 0 ltac:(intros j J; apply H; lia)) as Q2.
  rewrite arith_result_in by lia. cbn [bind].
  pose proof (quot_abs (zdot (k_data K) p 0 + Z.quot d 2) d D0) as Q3.
  rewrite arith_result_in by lia. reflexivity.
Qed.

Variables (g o : gray Z).
Hypothesis Hg : wf g.
Hypothesis Ho : wf o.
Hypothesis Ew : g_width o = g_width g.
Hypothesis Eh : g_height o = g_height g.
Hypothesis Sw : g_width g <= 1073741824.
Hypothesis Sh : g_height g <= 1073741824.

Lemma divisor_naive b P : (forall x y, extended b g x y = Some (P x y) /\ Z.abs (P x y) <= M) ->
  (kernel1_ok K -> fits b (g_width g) K -> exists dd, naive_h (int_arith_div t d) K b g o (g_data o) = Ok dd /\
     holds g o (with_data o dd) (fun x y => Some (divided t d (k_data K) (samples_h K P x y)))) /\
  (kernel1_ok K -> fits b (g_height g) K -> exists dd, naive_v (int_arith_div t d) K b g o (g_data o) = Ok dd /\
     holds g o (with_data o dd) (fun x y => Some (divided t d (k_data K) (samples_v K P x y)))) /\
  (kernel2_ok K -> fits b (g_width g) K -> fits b (g_height g) K ->
     exists dd, naive_2 (int_arith_div t d) K b g o (g_data o) = Ok dd /\
     holds g o (with_data o dd) (fun x y => Some (divided t d (k_data K) (samples_2 K P x y)))).
Proof.
  intros HP.
  assert (Fin : forall dd F F', (forall x y, F x y = F' x y) -> (forall x y, exists r, F' x y = Some r) ->
    zlen dd = zlen (g_data o) -> writes (g_data o) (win o F (fun _ _ => True)) dd -> holds g o (with_data o dd) F').
  { intros dd F F' Eq V L W.
    assert (H : holds g o (with_data o dd) F) by (apply finish; auto; intros x y _; rewrite Eq; auto).
    destruct H as (H1 & H2 & H3 & H4 & H5). do 3 (split; auto). split; auto. intros x y I. rewrite H4 by auto. apply Eq. }
  split; [|split].
  - intros HK HF.
    assert (V : forall x y, value_h (int_arith_div t d) K b g x y = Some (divided t d (k_data K) (samples_h K P x y)))
      by (intros x y; apply filtered_div; intros j _; apply HP).
    destruct (naive_h_ok (int_arith_div t d) K b g o HK Hg Ho Ew Eh Sw Sh (g_data o) eq_refl HF) as (dd & Ed & L & W).
    { intros x y _. rewrite V. eauto. }
    exists dd. split; auto. eapply Fin; eauto.
  - intros HK HF.
    assert (V : forall x y, value_v (int_arith_div t d) K b g x y = Some (divided t d (k_data K) (samples_v K P x y)))
      by (intros x y; apply filtered_div; intros j _; apply HP).
    destruct (naive_v_ok (int_arith_div t d) K b g o HK Hg Ho Ew Eh Sw Sh (g_data o) eq_refl HF) as (dd & Ed & L & W).
    { intros x y _. rewrite V. eauto. }
    exists dd. split; auto. eapply Fin; eauto.
  - intros HK HF HF2.
    assert (V : forall x y, value_2 (int_arith_div t d) K b g x y = Some (divided t d (k_data K) (samples_2 K P x y)))
      by (intros x y; apply filtered_div; intros j _; apply HP).
    destruct (naive_2_ok (int_arith_div t d) K b g o HK Hg Ho Ew Eh Sw Sh (g_data o) eq_refl HF HF2) as (dd & Ed & L & W).
    { intros x y _. rewrite V. eauto. }
    exists dd. split; auto. eapply Fin; eauto.
Qed.

Lemma fills_weaken {R} (a b : gray R) (P : Z -> Z -> Prop) F F' : (forall x y, inside a x y -> P x y -> F x y = F' x y) ->
  fills a b P F -> fills a b P F'.
Proof. intros H (A1 & A2 & A3 & A4). split; auto. split; auto. intros x y I Q. rewrite A2 by auto. auto. Qed.

Lemma divisor_inner P : (forall x y, inside g x y -> pixel g x y = Some (P x y) /\ Z.abs (P x y) <= M) ->
  (kernel1_ok K -> k_width K <= g_width g -> exists dd, inner_h_ptr (int_arith_div t d) K g o (g_data o) = Ok dd /\
     fills o (with_data o dd) (fun x _ => whole K (g_width g) x) (fun x y => Some (divided t d (k_data K) (samples_h K P x y)))) /\
  (kernel1_ok K -> k_width K <= g_height g -> exists dd, inner_v_ptr (int_arith_div t d) K g o (g_data o) = Ok dd /\
     fills o (with_data o dd) (fun _ y => whole K (g_height g) y) (fun x y => Some (divided t d (k_data K) (samples_v K P x y)))) /\
  (kernel2_ok K -> k_width K <= g_width g -> k_width K <= g_height g ->
     exists dd, inner_2 (int_arith_div t d) K g o (g_data o) = Ok dd /\
     fills o (with_data o dd) (fun x y => whole K (g_width g) x /\ whole K (g_height g) y)
       (fun x y => Some (divided t d (k_data K) (samples_2 K P x y)))).
Proof.
  intros HP. destruct (inner_all (int_arith_div t d) K g o Hg Ho Ew Eh Sw Sh) as (G1 & G2 & G3).
  assert (IO : forall x y, inside o x y -> inside g x y) by (intros x y [? ?]; split; lia).
  split; [|split].
  - intros HK Hw.
    assert (V : forall x y, inside g x y -> whole K (g_width g) x ->
      plain_h (int_arith_div t d) K g x y = Some (divided t d (k_data K) (samples_h K P x y))).
    { intros x y [I1 I2] [W1 W2]. destruct HK as (K1 & K2 & K3). apply filtered_div. intros j J. apply HP. split; lia. }
    destruct (G1 HK Hw) as [(dd & Ed & Q) _]. { intros x y I W. rewrite V by auto. eauto. }
    exists dd. split; auto. eapply fills_weaken; [|exact Q]. cbn beta. auto.
  - intros HK Hw.
    assert (V : forall x y, inside g x y -> whole K (g_height g) y ->
      plain_v (int_arith_div t d) K g x y = Some (divided t d (k_data K) (samples_v K P x y))).
    { intros x y [I1 I2] [W1 W2]. destruct HK as (K1 & K2 & K3). apply filtered_div. intros j J. apply HP. split; lia. }
    destruct (G2 HK Hw) as [(dd & Ed & Q) _]. { intros x y I W. rewrite V by auto. eauto. }
    exists dd. split; auto. eapply fills_weaken; [|exact Q]. cbn beta. auto.
  - intros HK Hw Hh.
    assert (V : forall x y, inside g x y -> whole K (g_width g) x /\ whole K (g_height g) y ->
      plain_2 (int_arith_div t d) K g x y = Some (divided t d (k_data K) (samples_2 K P x y))).
    { intros x y [I1 I2] [[W1 W2] [W3 W4]]. destruct HK as (K1 & K2 & K3). apply filtered_div. intros j J. apply HP.
      pose proof (Z.mod_pos_bound j (k_width K) ltac:(lia)). pose proof (Z.div_pos j (k_width K) ltac:(lia) ltac:(lia)).
      assert (j / k_width K < k_width K) by (apply Z.div_lt_upper_bound; lia). split; lia. }
    destruct (G3 HK Hw Hh) as (dd & Ed & Q). { intros x y I W. rewrite V by auto. eauto. }
    exists dd. split; auto. eapply fills_weaken; [|exact Q]. cbn beta. auto.
Qed.
End I.

(** Sums that are not negative are rounded to the nearest. *)
Lemma nearest_quotient s d : 0 <= s -> 0 < d -> 2 * Z.abs (d * Z.quot (s + Z.quot d 2) d - s) <= d.
Proof.
  intros S D. rewrite !Z.quot_div_nonneg by (try lia; apply Z.add_nonneg_nonneg; auto; apply Z.quot_pos; lia).
  set (h := d / 2). pose proof (Z.div_mod d 2 ltac:(lia)) as E1. pose proof (Z.mod_pos_bound d 2 ltac:(lia)) as B1.
  pose proof (Z.div_mod (s + h) d ltac:(lia)) as E2. pose proof (Z.mod_pos_bound (s + h) d ltac:(lia)) as B2.
  fold h in E1. lia.
Qed.

(** ** Floating point *)
Section F.
Variable f : fty.
Hypothesis St : standard f.
Let W := standard_wfty f St.
Variables (d : spec_float) (K : kernel spec_float).
Hypothesis Fd : finite f d.
Hypothesis D0 : val d <> 0%R.
Hypothesis Fk : forall c, In c (k_data K) -> finite f c.
Notation n := (length (k_data K)).

Lemma filtered_fdiv px p :
  (forall j, exists v, px j = Some v /\ finite f v /\ val v = p j) ->
  safe_quotient f n (rmag (k_data K) p 0) (val d) ->
  exists r, filtered (float_arith_div f d) (k_data K) px = Some r /\ finite f r /\
    (Rabs (val r - rdot (k_data K) p 0 / val d) <=
      quotient_error f n (rmag (k_data K) p 0) (rdot (k_data K) p 0) (val d))%R.
Proof.
  intros Fp [Safe Q].
  destruct (filtered_error f St (k_data K) px p Fk Fp Safe) as (s & Es & Fs & Er).
  unfold filtered in Es. cbn [a_zero a_out float_arith] in Es.
  change (weighted (mkArith _ _ _ _)) with (weighted (float_arith f)) in Es.
  assert (G : forall ks s i, weighted (float_arith_div f d) s ks px i = weighted (float_arith f) s ks px i).
  { clear. induction ks as [|c ks IH]; intros s i; cbn [weighted]; auto. destruct (px i); auto.
    cbn [a_prod a_add float_arith_div float_arith]. apply IH. }
  destruct (weighted (float_arith f) (S754_zero false) (k_data K) px 0) as [s'|] eqn:E; [|discriminate].
  assert (s' = s) as -> by congruence. clear Es.
  set (S := rdot (k_data K) p 0) in *. set (m := rmag (k_data K) p 0) in *. set (e := sum_error f n m) in *.
  pose proof (u_pos f) as U0. pose proof (t_pos f) as T0.
  assert (SM : (Rabs S <= m)%R).
  { unfold S, m. generalize (k_data K), 0. clear. induction l as [|c l IH]; intros i; cbn [rdot rmag].
    - rewrite Rabs_R0. lra.
    - eapply Rle_trans; [apply Rabs_triang|]. specialize (IH (i + 1)). lra. }
  assert (DP : (0 < Rabs (val d))%R) by (apply Rabs_pos_lt; auto).
  assert (As : (Rabs (val s) <= Rabs S + e)%R).
  { replace (val s) with (S + (val s - S))%R by ring. eapply Rle_trans; [apply Rabs_triang|]. lra. }
  set (x := (val s / val d)%R).
  assert (Ax : (Rabs x <= (Rabs S + e) / Rabs (val d))%R).
  { unfold x, Rdiv. rewrite Rabs_mult, Rabs_inv. apply Rmult_le_compat_r; auto. left. now apply Rinv_0_lt_compat. }
  pose proof (rnd_err f W x) as Rx.
  assert (IP : (0 < / Rabs (val d))%R) by now apply Rinv_0_lt_compat.
  assert (Lt : (Rabs (rnd f x) < huge f)%R).
  { replace (rnd f x) with (x + (rnd f x - x))%R by ring. eapply Rle_lt_trans; [apply Rabs_triang|].
    eapply Rle_lt_trans; [|exact Q].
    assert ((Rabs S + e) / Rabs (val d) <= (m + e) / Rabs (val d))%R by (apply Rmult_le_compat_r; lra).
    assert (unit_error f * Rabs x <= unit_error f * ((m + e) / Rabs (val d)))%R by (apply Rmult_le_compat_l; lra).
    lra. }
  destruct (fdiv_fin f W s d Fs Fd D0 Lt) as [Fq Vq].
  exists (fdiv f s d). unfold filtered. change (a_zero (float_arith_div f d)) with (S754_zero false). rewrite G, E.
  split; [reflexivity|]. split; auto. rewrite Vq. fold x.
  replace (rnd f x - S / val d)%R with ((rnd f x - x) + (val s - S) / val d)%R by (unfold x; field; auto).
  eapply Rle_trans; [apply Rabs_triang|].
  assert (B : (Rabs ((val s - S) / val d) <= e / Rabs (val d))%R).
  { unfold Rdiv. rewrite Rabs_mult, Rabs_inv. apply Rmult_le_compat_r; lra. }
  assert (C : (unit_error f * Rabs x <= unit_error f * ((Rabs S + e) / Rabs (val d)))%R) by (apply Rmult_le_compat_l; lra).
  unfold quotient_error. fold e.
  replace ((e * (1 + unit_error f) + unit_error f * Rabs S) / Rabs (val d))%R
    with (e / Rabs (val d) + unit_error f * ((Rabs S + e) / Rabs (val d)))%R by (field; lra).
  lra.
Qed.

Variables (g o : gray spec_float).
Hypothesis Hg : wf g.
Hypothesis Ho : wf o.
Hypothesis Ew : g_width o = g_width g.
Hypothesis Eh : g_height o = g_height g.
Hypothesis Sw : g_width g <= 1073741824.
Hypothesis Sh : g_height g <= 1073741824.

Lemma near_of_fills dd (F : Z -> Z -> option spec_float) Sel (D e : Z -> Z -> R) :
  fills o (with_data o dd) Sel F ->
  (forall x y, inside o x y -> Sel x y -> exists r, F x y = Some r /\ finite f r /\ (Rabs (val r - D x y) <= e x y)%R) ->
  fills_near f o (with_data o dd) Sel D e.
Proof.
  intros (A1 & A2 & A3 & A4) H. split; auto. split; auto. intros x y I S. rewrite A2 by auto. auto.
Qed.
Lemma all_of_writes dd (F : Z -> Z -> option spec_float) (D e : Z -> Z -> R) :
  zlen dd = zlen (g_data o) -> writes (g_data o) (win o F (fun _ _ => True)) dd ->
  (forall x y, inside g x y -> exists r, F x y = Some r /\ finite f r /\ (Rabs (val r - D x y) <= e x y)%R) ->
  fills_near f o (with_data o dd) (fun _ _ => True) D e.
Proof.
  intros L Wr H. assert (IO : forall x y, inside o x y -> inside g x y) by (intros x y [? ?]; split; lia).
  eapply near_of_fills; [eapply part; eauto|].
  - intros x y I _. destruct (H x y) as (r & Er & _); eauto.
  - intros x y I _. auto.
Qed.

Lemma fdivisor_naive b P : shows f b g P ->
  (kernel1_ok K -> fits b (g_width g) K -> (forall x y, inside g x y -> fquot_safe f K d (samples_h K) P x y) ->
     exists dd, naive_h (float_arith_div f d) K b g o (g_data o) = Ok dd /\
     fills_near f o (with_data o dd) (fun _ _ => True) (fquot K d (samples_h K) P) (fquot_error f K d (samples_h K) P)) /\
  (kernel1_ok K -> fits b (g_height g) K -> (forall x y, inside g x y -> fquot_safe f K d (samples_v K) P x y) ->
     exists dd, naive_v (float_arith_div f d) K b g o (g_data o) = Ok dd /\
     fills_near f o (with_data o dd) (fun _ _ => True) (fquot K d (samples_v K) P) (fquot_error f K d (samples_v K) P)) /\
  (kernel2_ok K -> fits b (g_width g) K -> fits b (g_height g) K ->
     (forall x y, inside g x y -> fquot_safe f K d (samples_2 K) P x y) ->
     exists dd, naive_2 (float_arith_div f d) K b g o (g_data o) = Ok dd /\
     fills_near f o (with_data o dd) (fun _ _ => True) (fquot K d (samples_2 K) P) (fquot_error f K d (samples_2 K) P)).
Proof.
  intros HP. split; [|split].
  - intros HK HF HS.
    assert (V : forall x y, inside g x y -> exists r, value_h (float_arith_div f d) K b g x y = Some r /\ finite f r /\
      (Rabs (val r - fquot K d (samples_h K) P x y) <= fquot_error f K d (samples_h K) P x y)%R)
      by (intros x y I; apply filtered_fdiv; [intros j; apply HP|apply HS; auto]).
    destruct (naive_h_ok (float_arith_div f d) K b g o HK Hg Ho Ew Eh Sw Sh (g_data o) eq_refl HF) as (dd & Ed & L & Wr).
    { intros x y I. destruct (V x y I) as (r & Er & _). eauto. }
    exists dd. split; auto. eapply all_of_writes; eauto.
  - intros HK HF HS.
    assert (V : forall x y, inside g x y -> exists r, value_v (float_arith_div f d) K b g x y = Some r /\ finite f r /\
      (Rabs (val r - fquot K d (samples_v K) P x y) <= fquot_error f K d (samples_v K) P x y)%R)
      by (intros x y I; apply filtered_fdiv; [intros j; apply HP|apply HS; auto]).
    destruct (naive_v_ok (float_arith_div f d) K b g o HK Hg Ho Ew Eh Sw Sh (g_data o) eq_refl HF) as (dd & Ed & L & Wr).
    { intros x y I. destruct (V x y I) as (r & Er & _). eauto. }
    exists dd. split; auto. eapply all_of_writes; eauto.
  - intros HK HF HF2 HS.
    assert (V : forall x y, inside g x y -> exists r, value_2 (float_arith_div f d) K b g x y = Some r /\ finite f r /\
      (Rabs (val r - fquot K d (samples_2 K) P x y) <= fquot_error f K d (samples_2 K) P x y)%R)
      by (intros x y I; apply filtered_fdiv; [intros j; apply HP|apply HS; auto]).
    destruct (naive_2_ok (float_arith_div f d) K b g o HK Hg Ho Ew Eh Sw Sh (g_data o) eq_refl HF HF2) as (dd & Ed & L & Wr).
    { intros x y I. destruct (V x y I) as (r & Er & _). eauto. }
    exists dd. split; auto. eapply all_of_writes; eauto.
Qed.

Lemma fdivisor_inner P : shows f BExtend g P -> zlen (g_data g) < 2147483648 ->
  (kernel1_ok K -> k_width K <= g_width g ->
     (forall x y, inside g x y -> whole K (g_width g) x -> fquot_safe f K d (samples_h K) P x y) ->
     exists dd, inner_h_idx (float_arith_div f d) K g o (g_data o) = Ok dd /\
     fills_near f o (with_data o dd) (fun x _ => whole K (g_width g) x) (fquot K d (samples_h K) P) (fquot_error f K d (samples_h K) P)) /\
  (kernel1_ok K -> k_width K <= g_height g ->
     (forall x y, inside g x y -> whole K (g_height g) y -> fquot_safe f K d (samples_v K) P x y) ->
     exists dd, inner_v_idx (float_arith_div f d) K g o (g_data o) = Ok dd /\
     fills_near f o (with_data o dd) (fun _ y => whole K (g_height g) y) (fquot K d (samples_v K) P) (fquot_error f K d (samples_v K) P)) /\
  (kernel2_ok K -> k_width K <= g_width g -> k_width K <= g_height g ->
     (forall x y, inside g x y -> whole K (g_width g) x -> whole K (g_height g) y -> fquot_safe f K d (samples_2 K) P x y) ->
     exists dd, inner_2 (float_arith_div f d) K g o (g_data o) = Ok dd /\
     fills_near f o (with_data o dd) (fun x y => whole K (g_width g) x /\ whole K (g_height g) y)
       (fquot K d (samples_2 K) P) (fquot_error f K d (samples_2 K) P)).
Proof.
  intros HP HZ. destruct (inner_all (float_arith_div f d) K g o Hg Ho Ew Eh Sw Sh) as (G1 & G2 & G3).
  assert (IO : forall x y, inside o x y -> inside g x y) by (intros x y [? ?]; split; lia).
  split; [|split].
  - intros HK Hw HS.
    assert (V : forall x y, inside g x y -> whole K (g_width g) x ->
      exists r, plain_h (float_arith_div f d) K g x y = Some r /\ finite f r /\
      (Rabs (val r - fquot K d (samples_h K) P x y) <= fquot_error f K d (samples_h K) P x y)%R).
    { intros x y I Wh. rewrite <- plain_h_eq by auto. apply filtered_fdiv; [intros j; apply HP|apply HS; auto]. }
    destruct (G1 HK Hw) as [_ Q]. { intros x y I Wh. destruct (V x y I Wh) as (r & Er & _). eauto. }
    destruct (Q HZ) as (dd & Ed & Fl). exists dd. split; auto. eapply near_of_fills; eauto.
  - intros HK Hw HS.
    assert (V : forall x y, inside g x y -> whole K (g_height g) y ->
      exists r, plain_v (float_arith_div f d) K g x y = Some r /\ finite f r /\
      (Rabs (val r - fquot K d (samples_v K) P x y) <= fquot_error f K d (samples_v K) P x y)%R).
    { intros x y I Wh. rewrite <- plain_v_eq by auto. apply filtered_fdiv; [intros j; apply HP|apply HS; auto]. }
    destruct (G2 HK Hw) as [_ Q]. { intros x y I Wh. destruct (V x y I Wh) as (r & Er & _). eauto. }
    destruct (Q HZ) as (dd & Ed & Fl). exists dd. split; auto. eapply near_of_fills; eauto.
  - intros HK Hw Hh HS.
    assert (V : forall x y, inside g x y -> whole K (g_width g) x /\ whole K (g_height g) y ->
      exists r, plain_2 (float_arith_div f d) K g x y = Some r /\ finite f r /\
      (Rabs (val r - fquot K d (samples_2 K) P x y) <= fquot_error f K d (samples_2 K) P x y)%R).
    { intros x y I [W1 W2]. rewrite <- plain_2_eq by auto. apply filtered_fdiv; [intros j; apply HP|apply HS; auto]. }
    destruct (G3 HK Hw Hh) as (dd & Ed & Fl). { intros x y I Wh. destruct (V x y I Wh) as (r & Er & _). eauto. }
    exists dd. split; auto. eapply near_of_fills; eauto.
Qed.
End F.

Lemma divided_nearest t d ks p : 0 <= zdot ks p 0 -> 0 < d -> zdot ks p 0 + d / 2 < d * (ity_max t + 1) ->
  2 * Z.abs (d * divided t d ks p - zdot ks p 0) <= d.
Proof.
  intros S D B. unfold divided. pose proof (nearest_quotient (zdot ks p 0) d S D) as N.
  set (q := Z.quot _ d) in *. assert (Q : 0 <= q <= ity_max t).
  { unfold q. rewrite (Z.quot_div_nonneg d 2) by lia. pose proof (Z.div_pos d 2 ltac:(lia) ltac:(lia)).
    rewrite Z.quot_div_nonneg by lia. split; [apply Z.div_pos; lia|].
    enough ((zdot ks p 0 + d / 2) / d < ity_max t + 1) by lia. apply Z.div_lt_upper_bound; lia. }
  rewrite cast_id; auto. destruct t; cbn in *; lia.
Qed.

(** A kernel wider than the image by two: the number of columns wraps. *)
Lemma for_range_undef {S} lo hi (body : Z -> S -> outcome S) s : lo < hi -> body lo s = Undef -> for_range lo hi body s = Undef.
Proof.
  intros H E. unfold for_range. destruct (Z.to_nat (hi - lo)) eqn:N; [lia|]. cbn [for_up]. rewrite E. reflexivity.
Qed.
Lemma narrow_undef : inner_h_ptr (int_arith_div U8 1) (mkKernel 3 1 [1; 1; 1]) (gray_new 1 1 1) (gray_new 0 1 1) [0] = Undef.
Proof.
  unfold inner_h_ptr. apply for_range_undef; [cbn; lia|]. cbv zeta. apply for_range_undef; [vm_compute; reflexivity|].
  vm_compute. reflexivity.
Qed.

(** Error analysis of weighted means. *)
From Coq Require Import Reals Bool Lia Lra Psatz.
From Coq Require Import Floats.SpecFloat.
From Flocq Require Import Core BinarySingleNaN.
From Verif Require Import Base BaseFacts M_Image S_Image L_Image M_Border S_Border M_Convolve S_Convolve M_Normalized S_Normalized
  L_Normalized L_NormalizedInt M_Blur M_Float S_Ieee L_Ieee.
From Verif Require Import S_FConv L_FConv S_FNorm L_Window L_Convolve L_Convolve2.
Local Open Scope R_scope.

Section V.
Variable f : fty.
Hypothesis Wf : wfty f.
Let Hp : FLX.Prec_gt_0 (f_prec f) := proj1 Wf.
Let He : Prec_lt_emax (f_prec f) (f_emax f) := proj2 Wf.

(** Results of operations are values of the type. *)
Lemma fadd_valid x y : isfloat f x -> isfloat f y -> isfloat f (fadd f x y).
Proof.
  intros Vx Vy. unfold fadd. rewrite <- (B2SF_SF2B _ _ x Vx), <- (B2SF_SF2B _ _ y Vy), (add_equiv _ _ Hp He).
  apply valid_binary_B2SF.
Qed.
Lemma fmul_valid x y : isfloat f x -> isfloat f y -> isfloat f (fmul f x y).
Proof.
  intros Vx Vy. unfold fmul. rewrite <- (B2SF_SF2B _ _ x Vx), <- (B2SF_SF2B _ _ y Vy), (mul_equiv _ _ Hp He).
  apply valid_binary_B2SF.
Qed.

Lemma one_fin : finite f (float_of_Z f 1) /\ val (float_of_Z f 1) = 1.
Proof. apply (float_of_Z_exact f Wf). destruct Wf. change 1%Z with (2 ^ 0)%Z at 1. cbn. pose proof (Z.pow_pos_nonneg 2 (f_prec f)). lia. Qed.
Lemma one_pos : exists m e, float_of_Z f 1 = S754_finite false m e.
Proof.
  destruct one_fin as [F V]. destruct (float_of_Z f 1) as [s|s| |s m e].
  - cbn in V. lra.
  - cbn in V. lra.
  - cbn in V. lra.
  - destruct s; eauto. exfalso. unfold val, SF2R in V.
    assert (F2R (Float radix2 (cond_Zopp true (Z.pos m)) e) < 0) by (apply F2R_lt_0; reflexivity). lra.
Qed.
Lemma eqb_one w : SFeqb w (float_of_Z f 1) = true -> w = float_of_Z f 1.
Proof.
  destruct one_pos as (m & e & ->). unfold SFeqb, SFcompare. destruct w as [[]|[]| |[] m' e']; try discriminate.
  destruct (Z.compare_spec e' e) as [->| |]; try discriminate.
  destruct (Pcompare m' m Eq) eqn:C; try discriminate. apply Pcompare_Eq_eq in C as ->. reflexivity.
Qed.

(** Division by one changes nothing. *)
Lemma div_one x : isfloat f x -> fdiv f x (float_of_Z f 1) = x.
Proof.
  intros Vx. destruct (is_finite_SF x) eqn:F.
  2:{ destruct one_pos as (m & e & ->). destruct x as [s|s| |s m' e']; try discriminate; [|reflexivity].
      unfold fdiv. cbn. destruct s; reflexivity. }
  destruct one_fin as [[V1 F1] E1].
  pose proof (B2SF_SF2B _ _ x Vx) as Ex. pose proof (B2SF_SF2B _ _ _ V1) as Eo.
  set (a := SF2B x Vx) in *. set (o := SF2B _ V1) in *.
  assert (Fa : BinarySingleNaN.is_finite a = true) by (rewrite <- is_finite_SF_B2SF, Ex; exact F).
  assert (Ro : B2R o = 1) by (rewrite <- SF2R_B2SF, Eo; exact E1).
  unfold fdiv. rewrite <- Ex, <- Eo, (div_equiv _ _ Hp He). f_equal.
  pose proof (Bdiv_correct _ _ Hp He mode_NE a o ltac:(rewrite Ro; lra)) as C.
  rewrite Ro in C. replace (B2R a / 1) with (B2R a) in C by field. rewrite round_generic in C; [|apply valid_rnd_round_mode|apply generic_format_B2R].
  rewrite Rlt_bool_true in C by apply abs_B2R_lt_emax. destruct C as (C1 & C2 & C3).
  rewrite Fa in C2.
  apply B2R_Bsign_inj; auto. rewrite C3.
  - assert (Bsign o = false) as ->; [|apply xorb_false_r].
    destruct one_pos as (m & e & Eq). clearbody o. clear - Eo Eq. rewrite Eq in Eo. clear Eq.
    destruct o as [| | |so mo eo Bo]; try discriminate. cbn [B2SF] in Eo. injection Eo as E1 E2 E3. exact E1.
  - destruct (Bdiv mode_NE a o); try discriminate; reflexivity.
Qed.

Lemma weighted_valid ks : forall px i s t, isfloat f s -> (forall c, In c ks -> isfloat f c) ->
  (forall j v, px j = Some v -> isfloat f v) -> weighted (float_arith f) s ks px i = Some t -> isfloat f t.
Proof.
  induction ks as [|c ks IH]; intros px i s t Vs Vk Vp H; cbn [weighted] in H.
  - congruence.
  - destruct (px i) as [v|] eqn:E; [|discriminate]. cbn [a_prod a_add float_arith] in H.
    eapply IH; [| |exact Vp|exact H].
    + apply fadd_valid; auto. apply fmul_valid; eauto. apply Vk. left; auto.
    + intros d D. apply Vk. right; auto.
Qed.
Lemma float_unit (K : kernel spec_float) (g : gray spec_float) :
  (forall c, In c (k_data K) -> isfloat f c) -> (forall x y p, pixel g x y = Some p -> isfloat f p) ->
  unit_ok (float_narith f) K g.
Proof.
  intros VK VP px t w From Wt _ One. cbn [na_norm na_arith a_out a_zero float_narith float_arith na_one] in *.
  apply eqb_one in One as ->. rewrite div_one; auto.
  eapply weighted_valid; [|exact VK| |exact Wt].
  - reflexivity.
  - intros j v E. destruct (From j v E) as (x & y & P). eauto.
Qed.
End V.

Section E.
Variable f : fty.
Hypothesis St : standard f.
Let W := standard_wfty f St.
Let u := unit_error f.
Let t := tiny_error f.
Let u_pos : 0 < u := u_pos f.
Let t_pos : 0 < t := t_pos f.

Lemma pow_linear n : 2 * INR n * u <= 1 -> (1 + u) ^ n <= 1 + 2 * INR n * u.
Proof.
  induction n as [|n IH]; intros H; [cbn; lra|]. rewrite S_INR in *. cbn [pow].
  pose proof (pos_INR n) as P.
  assert (B : 2 * INR n * u <= 1) by nra. specialize (IH B).
  apply Rle_trans with ((1 + u) * (1 + 2 * INR n * u)); [apply Rmult_le_compat_l; lra|]. nra.
Qed.

Lemma sum_error_mono k A : 0 <= A -> sum_error f k A <= sum_error f (S k) A.
Proof.
  intros HA. unfold sum_error. fold u t. rewrite S_INR. pose proof (pos_INR k) as P.
  pose proof (G_mono f (k + 1) (S k + 1) ltac:(lia)) as G1. fold u in G1.
  pose proof (G_mono f k (S k) ltac:(lia)) as G2. fold u in G2.
  pose proof (G_1 f k) as G0. fold u in G0.
  apply Rplus_le_compat.
  - apply Rmult_le_compat_r; lra.
  - apply Rmult_le_compat; try lra. apply Rmult_le_pos; lra.
Qed.

Lemma wadd_step c w Wx k : finite f c -> finite f w -> 0 <= val c -> 0 <= Wx ->
  Rabs (val w - Wx) <= ((1 + u) ^ k - 1) * Wx -> (Wx + val c) * (1 + u) ^ (S k) < huge f ->
  finite f (fadd f w c) /\ Rabs (val (fadd f w c) - (Wx + val c)) <= ((1 + u) ^ (S k) - 1) * (Wx + val c).
Proof.
  intros Fc Fw Pc Pw H S.
  pose proof (rnd_add_err f W _ _ (finite_fmt f _ Fw) (finite_fmt f _ Fc)) as E. fold u in E.
  pose proof (G_1 f k) as G0. fold u in G0. cbn [pow] in S |- *. set (G := (1 + u) ^ k) in *.
  assert (B : Rabs (val w + val c) <= G * Wx + val c).
  { replace (val w + val c) with ((val w - Wx) + (Wx + val c)) by ring. eapply Rle_trans; [apply Rabs_triang|].
    rewrite (Rabs_pos_eq (Wx + val c)) by lra. nra. }
  assert (E2 : Rabs (rnd f (val w + val c) - (Wx + val c)) <= ((1 + u) * G - 1) * (Wx + val c)).
  { replace (rnd f (val w + val c) - (Wx + val c)) with
      ((rnd f (val w + val c) - (val w + val c)) + (val w - Wx)) by ring.
    eapply Rle_trans; [apply Rabs_triang|].
    apply Rle_trans with (u * (G * Wx + val c) + (G - 1) * Wx).
    - apply Rplus_le_compat; auto. eapply Rle_trans; [exact E|]. apply Rmult_le_compat_l; lra.
    - assert (u * val c <= ((1 + u) * G - 1) * val c) by (apply Rmult_le_compat_r; nra). nra. }
  destruct (fadd_fin f W w c Fw Fc) as [F V].
  { replace (rnd f (val w + val c)) with ((rnd f (val w + val c) - (Wx + val c)) + (Wx + val c)) by ring.
    eapply Rle_lt_trans; [apply Rabs_triang|]. rewrite (Rabs_pos_eq (Wx + val c)) by lra. nra. }
  split; auto. now rewrite V.
Qed.

Lemma rweight_pos ks : forall px i, nonneg_numbers f ks -> 0 <= rweight ks px i.
Proof.
  induction ks as [|c ks IH]; intros px i H; cbn [rweight]; [lra|].
  assert (0 <= rweight ks px (i + 1)) by (apply IH; intros d D; apply H; right; auto).
  destruct (H c (or_introl eq_refl)). destruct (px i); lra.
Qed.

Definition rval (px : Z -> option spec_float) (i : Z) : option R := option_map val (px i).

Lemma covered_error ks : forall px i s w Sx Wx k M,
  nonneg_numbers f ks -> (forall j v, px j = Some v -> finite f v /\ Rabs (val v) <= M) -> 0 <= M ->
  finite f s -> finite f w -> 0 <= Wx -> Rabs Sx <= M * Wx -> Rabs (val s - Sx) <= sum_error f k (M * Wx) ->
  Rabs (val w - Wx) <= ((1 + u) ^ k - 1) * Wx ->
  safe_magnitude f (k + length ks) (M * (Wx + rweight ks (rval px) i)) ->
  (Wx + rweight ks (rval px) i) * (1 + u) ^ (k + length ks) < huge f ->
  exists s' w', covered (float_arith f) s w ks px i = Some (s', w') /\ finite f s' /\ finite f w' /\
    Rabs (Sx + rtotal ks (rval px) i) <= M * (Wx + rweight ks (rval px) i) /\
    Rabs (val s' - (Sx + rtotal ks (rval px) i)) <= sum_error f (k + length ks) (M * (Wx + rweight ks (rval px) i)) /\
    Rabs (val w' - (Wx + rweight ks (rval px) i)) <= ((1 + u) ^ (k + length ks) - 1) * (Wx + rweight ks (rval px) i).
Proof.
  induction ks as [|c ks IH]; intros px i s w Sx Wx k M Hk Hp M0 Fs Fw PW BS ES EW Safe SafeW;
    cbn [covered rtotal rweight length].
  - exists s, w. rewrite Nat.add_0_r, !Rplus_0_r. auto 10.
  - cbn [rweight length] in Safe, SafeW. change (rval px i) with (option_map val (px i)) in *.
    assert (Hk' : nonneg_numbers f ks) by (intros d D; apply Hk; right; auto).
    pose proof (rweight_pos ks (rval px) (i + 1)%Z Hk') as PR.
    destruct (Hk c (or_introl eq_refl)) as [Fc Pc].
    replace (k + S (length ks))%nat with (S k + length ks)%nat in * by lia.
    destruct (px i) as [v|] eqn:Ev; cbn [option_map] in *.
    + destruct (Hp i v Ev) as [Fv Bv]. cbn [a_prod a_add float_arith].
      assert (BX : Rabs (val c * val v) <= M * val c).
      { rewrite Rabs_mult, (Rabs_pos_eq (val c)) by auto. rewrite Rmult_comm. apply Rmult_le_compat_r; auto. }
      assert (P1 : 0 <= M * Wx) by (apply Rmult_le_pos; auto).
      assert (P2 : 0 <= M * val c) by (apply Rmult_le_pos; auto).
      assert (P3 : 0 <= M * rweight ks (rval px) (i + 1)) by (apply Rmult_le_pos; auto).
      pose proof (Rabs_pos (val c * val v)) as P4.
      destruct (acc_step f St c v s Sx (M * Wx) k Fc Fv Fs BS ES) as [Fa Ea].
      { eapply (safe_le f (S k)); [| |exact Safe]; [lia|]. lra. }
      destruct (wadd_step c w Wx k Fc Fw Pc PW EW) as [Fb Eb].
      { eapply Rle_lt_trans; [|exact SafeW]. pose proof (G_1 f (S k)) as G0. fold u in G0.
        apply Rmult_le_compat; try lra. apply (G_mono f (S k)). lia. }
      destruct (IH px (i + 1)%Z (fadd f s (fmul f c v)) (fadd f w c) (Sx + val c * val v) (Wx + val c) (S k) M)
        as (s' & w' & R1 & R2 & R3 & R4 & R5 & R6); auto; try lra.
      * eapply Rle_trans; [apply Rabs_triang|]. lra.
      * eapply Rle_trans; [exact Ea|]. unfold sum_error. apply Rplus_le_compat_r. apply Rmult_le_compat_l; [|lra].
        pose proof (G_1 f (S k + 1)) as G0. fold u in G0. fold u. lra.
      * rewrite Rplus_assoc. exact Safe.
      * exists s', w'. rewrite <- !Rplus_assoc. repeat (split; [assumption|]). assumption.
    + rewrite !Rplus_0_l in *.
      destruct (IH px (i + 1)%Z s w Sx Wx (S k) M) as (s' & w' & R); auto.
      * eapply Rle_trans; [exact ES|]. apply sum_error_mono. apply Rmult_le_pos; auto.
      * eapply Rle_trans; [exact EW|]. apply Rmult_le_compat_r; auto. pose proof (G_mono f k (S k) ltac:(lia)) as G0. fold u in G0. lra.
      * eauto.
Qed.

Lemma quotient_error s w S0 W0 Es Ew Q : 0 < W0 -> 0 <= Ew < 1 -> Rabs (s - S0) <= Es -> Rabs (w - W0) <= Ew * W0 ->
  Rabs S0 <= Q * W0 -> 0 < w /\ Rabs (s / w - S0 / W0) <= (Es + Ew * (Q * W0)) / (W0 * (1 - Ew)).
Proof.
  intros P0 P1 H1 H2 H3.
  assert (LW : W0 * (1 - Ew) <= w) by (revert H2; unfold Rabs; destruct (Rcase_abs (w - W0)); nra).
  assert (PD : 0 < W0 * (1 - Ew)) by (apply Rmult_lt_0_compat; lra).
  assert (PW : 0 < w) by lra. split; auto.
  pose proof (Rabs_pos (s - S0)) as Q1. pose proof (Rabs_pos S0) as Q2. pose proof (Rabs_pos (w - W0)) as Q3.
  replace (s / w - S0 / W0) with (((s - S0) - (S0 / W0) * (w - W0)) / w) by (field; lra).
  unfold Rdiv at 1. rewrite Rabs_mult, (Rabs_pos_eq (/ w)) by (left; apply Rinv_0_lt_compat; auto).
  apply Rmult_le_compat.
  - apply Rabs_pos.
  - left; apply Rinv_0_lt_compat; auto.
  - unfold Rminus at 1. eapply Rle_trans; [apply Rabs_triang|]. rewrite Rabs_Ropp, Rabs_mult. apply Rplus_le_compat; auto.
    assert (D : Rabs (S0 / W0) <= Q).
    { unfold Rdiv. rewrite Rabs_mult, (Rabs_pos_eq (/ W0)) by (left; apply Rinv_0_lt_compat; auto).
      apply Rmult_le_reg_r with W0; auto. rewrite Rmult_assoc, Rinv_l, Rmult_1_r by lra. exact H3. }
    pose proof (Rabs_pos (S0 / W0)). 
    apply Rle_trans with (Q * (Ew * W0)); [apply Rmult_le_compat; auto|]. lra.
  - apply Rinv_le; auto.
Qed.

Lemma averaged_error ks px M : nonneg_numbers f ks -> (forall j v, px j = Some v -> finite f v /\ Rabs (val v) <= M) -> 0 <= M ->
  few f (length ks) -> safe_mean f (length ks) M (rweight ks (rval px) 0) ->
  exists r, averaged (float_narith f) ks px = Some r /\ finite f r /\
    Rabs (val r - rmean ks (rval px)) <= mean_error f (length ks) M (rweight ks (rval px) 0).
Proof.
  intros Hk Hpx M0 Few (S1 & S2 & S3 & S4). unfold few in Few. fold u in Few. fold t in S3, S4.
  set (n := length ks) in *. set (Wt := rweight ks (rval px) 0) in *.
  pose proof (pos_INR n) as N0.
  pose proof (pow_linear n ltac:(nra)) as Gn. pose proof (pow_linear (n + 1) ltac:(rewrite plus_INR; cbn [INR]; nra)) as Gn1.
  rewrite plus_INR in Gn1. cbn [INR] in Gn1.
  pose proof (G_1 f n) as Ln. pose proof (G_1 f (n + 1)) as Ln1. fold u in Ln, Ln1.
  set (x := INR n * u) in *. assert (X0 : 0 <= x) by (apply Rmult_le_pos; lra).
  assert (U8 : 8 * x + 8 * u <= 1) by (unfold x; lra).
  replace (1 + 2 * INR n * u) with (1 + 2 * x) in Gn by (unfold x; ring).
  replace (1 + 2 * (INR n + 1) * u) with (1 + 2 * x + 2 * u) in Gn1 by (unfold x; ring).
  assert (MW : 0 <= M * Wt) by (apply Rmult_le_pos; lra).
  assert (NT : 0 <= INR n * t) by (apply Rmult_le_pos; lra).
  destruct (covered_error ks px 0 (S754_zero false) (S754_zero false) 0 0 0 M) as (s & w & C & Fs & Fw & B & Es & Ew);
    auto; try (apply zero_fin; auto); try (cbn; rewrite ?Rmult_0_r, ?Rabs_R0; lra).
  - cbn. unfold Rminus. rewrite Ropp_0, Rplus_0_r, Rabs_R0. unfold sum_error. cbn [INR]. lra.
  - cbn. unfold Rminus. rewrite Ropp_0, Rplus_0_r, Rabs_R0. lra.
  - cbn [Nat.add]. rewrite Rplus_0_l. fold Wt n. unfold safe_magnitude. fold u t.
    eapply Rle_lt_trans; [|exact S3]. rewrite Rmult_comm. apply Rmult_le_compat_r; lra.
  - cbn [Nat.add]. rewrite Rplus_0_l. fold Wt n u. eapply Rle_lt_trans; [|exact S2]. rewrite Rmult_comm. apply Rmult_le_compat_r; lra.
  - rewrite !Rplus_0_l in B; rewrite !Rplus_0_l in Es; rewrite !Rplus_0_l in Ew. cbn [Nat.add] in Es, Ew. fold Wt n u in B, Es, Ew.
    unfold averaged. cbn [na_arith float_narith a_zero float_arith na_norm]. change (mkArith _ _ _ _) with (float_arith f). rewrite C.
    set (T := rtotal ks (rval px) 0) in *.
    set (eW := (1 + u) ^ n - 1) in *. assert (EW0 : 0 <= eW <= 2 * x) by (unfold eW; lra).
    destruct (quotient_error (val s) (val w) T Wt _ eW M S1 ltac:(lra) Es Ew B) as [PW QE].
    assert (D : (sum_error f n (M * Wt) + eW * (M * Wt)) / (Wt * (1 - eW)) <= (4 * x + 2 * u) * M * (4 / 3) + (5 / 3) * (INR n * t) / Wt).
    { assert (SE : sum_error f n (M * Wt) <= (2 * x + 2 * u) * (M * Wt) + INR n * t * (5 / 4)).
      { unfold sum_error. fold u t. apply Rplus_le_compat; [apply Rmult_le_compat_r; lra|apply Rmult_le_compat_l; lra]. }
      assert (PI : 0 < / Wt) by (apply Rinv_0_lt_compat; auto).
      assert (ID : / (Wt * (1 - eW)) <= / Wt * (4 / 3)).
      { rewrite Rinv_mult. apply Rmult_le_compat_l; [lra|].
        replace (4 / 3) with (/ (3 / 4)) by field. apply Rinv_le; lra. }
      assert (0 < / (Wt * (1 - eW))) by (apply Rinv_0_lt_compat, Rmult_lt_0_compat; lra).
      apply Rle_trans with (((2 * x + 2 * u) * (M * Wt) + INR n * t * (5 / 4) + 2 * x * (M * Wt)) * (/ Wt * (4 / 3))).
      - unfold Rdiv. apply Rmult_le_compat; try lra.
        + assert (0 <= sum_error f n (M * Wt)).
          { unfold sum_error. fold u t. apply Rplus_le_le_0_compat; apply Rmult_le_pos; lra. }
          assert (0 <= eW * (M * Wt)) by (apply Rmult_le_pos; lra). lra.
        + apply Rplus_le_compat; auto. apply Rmult_le_compat_r; lra.
      - right. field. lra. }
    assert (NW : 0 <= INR n * t / Wt) by (unfold Rdiv; apply Rmult_le_pos; auto; left; apply Rinv_0_lt_compat; auto).
    set (y := INR n * t / Wt) in *. replace ((5 / 3) * (INR n * t) / Wt) with ((5 / 3) * y) in D by (unfold y; field; lra).
    set (d := (sum_error f n (M * Wt) + eW * (M * Wt)) / (Wt * (1 - eW))) in *.
    assert (TM : Rabs (T / Wt) <= M).
    { unfold Rdiv. rewrite Rabs_mult, (Rabs_pos_eq (/ Wt)) by (left; apply Rinv_0_lt_compat; auto).
      apply Rmult_le_reg_r with Wt; auto. rewrite Rmult_assoc, Rinv_l, Rmult_1_r by lra. exact B. }
    assert (QM : Rabs (val s / val w) <= M + d).
    { replace (val s / val w) with (T / Wt + (val s / val w - T / Wt)) by ring. eapply Rle_trans; [apply Rabs_triang|]. lra. }
    pose proof (rnd_err f W (val s / val w)) as RE. fold u t in RE.
    assert (ME : mean_error f n M Wt = (6 * x + 4 * u) * M + 2 * y + t).
    { unfold mean_error. fold u t. unfold x, y. field. lra. }
    assert (XM : 0 <= x * M) by (apply Rmult_le_pos; auto). assert (UM : 0 <= u * M) by (apply Rmult_le_pos; lra).
    assert (D0 : 0 <= d) by (pose proof (Rabs_pos (val s / val w - T / Wt)); lra).
    assert (UD : u * d <= / 8 * d) by (apply Rmult_le_compat_r; lra).
    assert (FE : Rabs (rnd f (val s / val w) - T / Wt) <= mean_error f n M Wt).
    { replace (rnd f (val s / val w) - T / Wt) with ((rnd f (val s / val w) - val s / val w) + (val s / val w - T / Wt)) by ring.
      eapply Rle_trans; [apply Rabs_triang|]. rewrite ME.
      assert (u * Rabs (val s / val w) <= u * (M + d)) by (apply Rmult_le_compat_l; lra).
      lra. }
    destruct (fdiv_fin f W s w Fs Fw ltac:(lra)) as [Fd Vd].
    { replace (rnd f (val s / val w)) with (T / Wt + (rnd f (val s / val w) - T / Wt)) by ring.
      eapply Rle_lt_trans; [apply Rabs_triang|]. eapply Rle_lt_trans; [|exact S4].
      replace ((2 * INR n / Wt + 1) * t) with (2 * y + t) by (unfold y; field; lra).
      rewrite ME in FE. assert ((6 * x + 4 * u) * M <= 1 * M) by (apply Rmult_le_compat_r; lra). lra. }
    exists (fdiv f s w). split; auto. split; auto. unfold rmean. fold T Wt. rewrite Vd. exact FE.
Qed.
End E.

(** ** Images *)
Section I.
Variable f : fty.
Hypothesis St : standard f.
Variables (K : kernel spec_float) (g out : gray spec_float) (M : R).
Hypothesis Wg : wf g.
Hypothesis Wo : wf out.
Hypothesis Kok : kernel1_ok K.
Hypothesis Ew : g_width out = g_width g.
Hypothesis Eh : g_height out = g_height g.
Hypothesis Bw : (0 < g_width g <= 1073741824)%Z.
Hypothesis Bh : (0 < g_height g <= 1073741824)%Z.
Hypothesis Bl : (zlen (g_data g) < 2147483648)%Z.
Hypothesis Hk : nonneg_numbers f (k_data K).
Hypothesis Hg : bounded_numbers f g M.
Hypothesis Hn : few f (length (k_data K)).

Lemma bounded_pos : 0 <= M.
Proof.
  destruct (pixel_exists g 0 0 Wg) as (v & V); [split; lia|]. destruct (Hg 0%Z 0%Z v) as [_ B]; auto; [split; lia|].
  pose proof (Rabs_pos (val v)). lra.
Qed.
Lemma bounded_pixel x y v : pixel g x y = Some v -> finite f v /\ Rabs (val v) <= M.
Proof.
  intros V. apply (Hg x y); auto. eapply pixel_Some; eauto.
Qed.
Lemma fnorm_unit : unit_ok (float_narith f) K g.
Proof.
  apply float_unit; [apply standard_wfty; auto| |].
  - intros c C. apply (Hk c C).
  - intros x y p P. apply (bounded_pixel x y p P).
Qed.


Lemma rtotal_ext ks : forall px px' i i', (forall j, (0 <= j < zlen ks)%Z -> px (i + j)%Z = px' (i' + j)%Z) ->
  rtotal ks px i = rtotal ks px' i'.
Proof.
  induction ks as [|c ks IH]; intros px px' i i' H; cbn [rtotal]; auto. rewrite zlen_cons in H. pose proof (zlen_nonneg ks).
  pose proof (H 0%Z ltac:(lia)) as Hz. rewrite !Z.add_0_r in Hz. rewrite Hz. f_equal. apply IH.
  intros j Hj. rewrite <- !Z.add_assoc. apply H. lia.
Qed.
Lemma rweight_ext ks : forall px px' i i',
  (forall j, (0 <= j < zlen ks)%Z -> (px (i + j)%Z = None <-> px' (i' + j)%Z = None)) ->
  rweight ks px i = rweight ks px' i'.
Proof.
  induction ks as [|c ks IH]; intros px px' i i' H; cbn [rweight]; auto. rewrite zlen_cons in H. pose proof (zlen_nonneg ks).
  pose proof (H 0%Z ltac:(lia)) as Hz. rewrite !Z.add_0_r in Hz.
  f_equal; [destruct (px i), (px' i'); auto; destruct Hz as [A B]; [discriminate B|discriminate A]; auto|].
  apply IH. intros j Hj. rewrite <- !Z.add_assoc. apply H. lia.
Qed.
Lemma weight_row (h : gray spec_float) x y : wf h -> (0 <= y < g_height h)%Z ->
  rweight (k_data K) (rval (fun i => pixel h (x - k_offset K + i) y)) 0 = line_weight K (g_width h) x.
Proof.
  intros Wh Hy. apply rweight_ext. intros j Hj. unfold rval. cbn zeta. rewrite !Z.add_0_l.
  destruct ((0 <=? x - k_offset K + j) && (x - k_offset K + j <? g_width h))%Z eqn:C.
  - destruct (pixel_exists h (x - k_offset K + j) y Wh) as (v & ->); [split; lia|]. split; discriminate.
  - rewrite pixel_outside by (unfold inside; lia). split; reflexivity.
Qed.
Lemma weight_col (h : gray spec_float) x y : wf h -> (0 <= x < g_width h)%Z ->
  rweight (k_data K) (rval (fun i => pixel h x (y - k_offset K + i))) 0 = line_weight K (g_height h) y.
Proof.
  intros Wh Hy. apply rweight_ext. intros j Hj. unfold rval. cbn zeta. rewrite !Z.add_0_l.
  destruct ((0 <=? y - k_offset K + j) && (y - k_offset K + j <? g_height h))%Z eqn:C.
  - destruct (pixel_exists h x (y - k_offset K + j) Wh) as (v & ->); [split; lia|]. split; discriminate.
  - rewrite pixel_outside by (unfold inside; lia). split; reflexivity.
Qed.

Lemma fnorm_h_holds :
  (forall x, (0 <= x < g_width g)%Z -> safe_mean f (length (k_data K)) M (line_weight K (g_width g) x)) ->
  exists out', normalized_h (float_narith f) K g out = Ok out' /\ holds g out out' (nvalue_h (float_narith f) K g) /\
    approximates f g out out' (row_mean K g) (fun x y => mean_error f (length (k_data K)) M (line_weight K (g_width g) x)).
Proof.
  intros Safe.
  assert (V : forall x y, inside g x y -> exists v, nvalue_h (float_narith f) K g x y = Some v /\ finite f v /\
    Rabs (val v - row_mean K g x y) <= mean_error f (length (k_data K)) M (line_weight K (g_width g) x)).
  { intros x y I. rewrite <- (weight_row g x y Wg) by apply I.
    apply (averaged_error f St (k_data K) (fun i => pixel g (x - k_offset K + i) y) M); auto; [|apply bounded_pos|].
    - intros j v. apply bounded_pixel.
    - rewrite weight_row by (auto; apply I). apply Safe, I. }
  destruct (normalized_h_ok (float_narith f) K g out fnorm_unit Kok Wg Wo Ew Eh Bw Bh) as (out' & N & H).
  { intros; exact Bl. }
  { intros x y I. destruct (V x y I) as (v & E & _). eauto. }
  exists out'. split; auto. split; auto. eapply holds_approx; eauto.
Qed.
Lemma fnorm_h :
  (forall x, (0 <= x < g_width g)%Z -> safe_mean f (length (k_data K)) M (line_weight K (g_width g) x)) ->
  exists out', normalized_h (float_narith f) K g out = Ok out' /\
    approximates f g out out' (row_mean K g) (fun x y => mean_error f (length (k_data K)) M (line_weight K (g_width g) x)).
Proof. intros S. destruct (fnorm_h_holds S) as (o & E & _ & A). eauto. Qed.
Lemma fnorm_v_holds :
  (forall y, (0 <= y < g_height g)%Z -> safe_mean f (length (k_data K)) M (line_weight K (g_height g) y)) ->
  exists out', normalized_v (float_narith f) K g out = Ok out' /\ holds g out out' (nvalue_v (float_narith f) K g) /\
    approximates f g out out' (col_mean K g) (fun x y => mean_error f (length (k_data K)) M (line_weight K (g_height g) y)).
Proof.
  intros Safe.
  assert (V : forall x y, inside g x y -> exists v, nvalue_v (float_narith f) K g x y = Some v /\ finite f v /\
    Rabs (val v - col_mean K g x y) <= mean_error f (length (k_data K)) M (line_weight K (g_height g) y)).
  { intros x y I. rewrite <- (weight_col g x y Wg) by apply I.
    apply (averaged_error f St (k_data K) (fun i => pixel g x (y - k_offset K + i)) M); auto; [|apply bounded_pos|].
    - intros j v. apply bounded_pixel.
    - rewrite weight_col by (auto; apply I). apply Safe, I. }
  destruct (normalized_v_ok (float_narith f) K g out fnorm_unit Kok Wg Wo Ew Eh Bw Bh) as (out' & N & H).
  { intros; exact Bl. }
  { intros _ c _. reflexivity. }
  { intros x y I. destruct (V x y I) as (v & E & _). eauto. }
  exists out'. split; auto. split; auto. eapply holds_approx; eauto.
Qed.
Lemma fnorm_v :
  (forall y, (0 <= y < g_height g)%Z -> safe_mean f (length (k_data K)) M (line_weight K (g_height g) y)) ->
  exists out', normalized_v (float_narith f) K g out = Ok out' /\
    approximates f g out out' (col_mean K g) (fun x y => mean_error f (length (k_data K)) M (line_weight K (g_height g) y)).
Proof. intros S. destruct (fnorm_v_holds S) as (o & E & _ & A). eauto. Qed.
End I.

(** ** Both passes *)
Lemma rmean_near ks : forall px px' e i,
  (forall c, In c ks -> 0 <= val c) ->
  (forall j a, px j = Some a -> exists b, px' j = Some b /\ Rabs (a - b) <= e) -> (forall j, px j = None -> px' j = None) ->
  rweight ks px i = rweight ks px' i /\ Rabs (rtotal ks px i - rtotal ks px' i) <= e * rweight ks px i.
Proof.
  induction ks as [|c ks IH]; intros px px' e i Hk H1 H2; cbn [rweight rtotal].
  - split; auto. rewrite Rminus_0_r, Rabs_R0. lra.
  - destruct (IH px px' e (i + 1)%Z) as [E1 E2]; auto. { intros d D. apply Hk. right; auto. }
    pose proof (Hk c (or_introl eq_refl)) as Pc.
    destruct (px i) as [a|] eqn:P.
    + destruct (H1 i a P) as (b & Q & D). rewrite Q. split; [now rewrite E1|].
      replace (val c * a + rtotal ks px (i + 1) - (val c * b + rtotal ks px' (i + 1))) with
        (val c * (a - b) + (rtotal ks px (i + 1) - rtotal ks px' (i + 1))) by ring.
      eapply Rle_trans; [apply Rabs_triang|]. rewrite Rabs_mult, (Rabs_pos_eq (val c)) by auto.
      assert (val c * Rabs (a - b) <= val c * e) by (apply Rmult_le_compat_l; auto). lra.
    + rewrite (H2 i P). split; [now rewrite E1|].
      replace (0 + rtotal ks px (i + 1) - (0 + rtotal ks px' (i + 1))) with (rtotal ks px (i + 1) - rtotal ks px' (i + 1)) by ring.
      lra.
Qed.
Lemma rmean_close ks px px' e : (forall c, In c ks -> 0 <= val c) -> 0 < rweight ks px 0 ->
  (forall j a, px j = Some a -> exists b, px' j = Some b /\ Rabs (a - b) <= e) -> (forall j, px j = None -> px' j = None) ->
  Rabs (rmean ks px - rmean ks px') <= e.
Proof.
  intros Hk P H1 H2. destruct (rmean_near ks px px' e 0 Hk H1 H2) as [E1 E2]. unfold rmean. rewrite <- E1.
  replace (rtotal ks px 0 / rweight ks px 0 - rtotal ks px' 0 / rweight ks px 0) with
    ((rtotal ks px 0 - rtotal ks px' 0) / rweight ks px 0) by (field; lra).
  unfold Rdiv. rewrite Rabs_mult, (Rabs_pos_eq (/ _)) by (left; apply Rinv_0_lt_compat; auto).
  apply Rmult_le_reg_r with (rweight ks px 0); auto. rewrite Rmult_assoc, Rinv_l, Rmult_1_r by lra. exact E2.
Qed.

Lemma mean_error_anti f n M w0 w : 0 < w0 <= w -> mean_error f n M w <= mean_error f n M w0.
Proof.
  intros [P L]. unfold mean_error. apply Rplus_le_compat_l. apply Rmult_le_compat_r; [left; apply bpow_gt_0|].
  apply Rplus_le_compat_r. unfold Rdiv. apply Rmult_le_compat_l; [pose proof (pos_INR n); lra|]. apply Rinv_le; auto.
Qed.
Lemma safe_between f n M M' w0 w w1 : 0 <= M <= M' -> w0 <= w <= w1 ->
  0 < w0 -> 2 * w1 < huge f -> 2 * (M' * w1 + INR n * tiny_error f) < huge f ->
  2 * M' + (2 * INR n / w0 + 1) * tiny_error f < huge f -> safe_mean f n M w.
Proof.
  intros HM Hw P S1 S2 S3. pose proof (bpow_gt_0 radix2 (2 - f_emax f - f_prec f)) as T. fold (tiny_error f) in T.
  pose proof (pos_INR n) as N0.
  split; [lra|]. split; [lra|]. split.
  - eapply Rle_lt_trans; [|exact S2]. apply Rmult_le_compat_l; [lra|]. apply Rplus_le_compat_r. apply Rmult_le_compat; lra.
  - eapply Rle_lt_trans; [|exact S3]. apply Rplus_le_compat; [lra|]. apply Rmult_le_compat_r; [lra|].
    apply Rplus_le_compat_r. unfold Rdiv. apply Rmult_le_compat_l; [lra|]. apply Rinv_le; lra.
Qed.

Section Two.
Variable f : fty.
Hypothesis St : standard f.
Variables (K : kernel spec_float) (g out work : gray spec_float) (M w0 w1 : R).
Notation zero := (S754_zero false).
Hypothesis Wg : wf g.
Hypothesis Wo : wf out.
Hypothesis Ww : wf work.
Hypothesis Kok : kernel1_ok K.
Hypothesis So : g_sub out = false \/ (g_width out = g_width g /\ g_height out = g_height g).
Hypothesis Sk : g_sub work = false \/ (g_width work = g_width g /\ g_height work = g_height g).
Hypothesis Bw : (0 < g_width g <= 1073741824)%Z.
Hypothesis Bh : (0 < g_height g <= 1073741824)%Z.
Hypothesis Bl : (zlen (g_data g) < 2147483648)%Z.
Hypothesis Bk : (zlen (g_data work) < 2147483648)%Z.
Hypothesis Hk : nonneg_numbers f (k_data K).
Hypothesis Hg : bounded_numbers f g M.
Hypothesis Hn : few f (length (k_data K)).
Hypothesis LW : line_weights K (g_width g) w0 w1.
Hypothesis LH : line_weights K (g_height g) w0 w1.
Hypothesis Safe : safe_passes f (length (k_data K)) M w0 w1.

Lemma first_error_pos : 0 <= M -> 0 < w0 -> 0 <= mean_error f (length (k_data K)) M w0.
Proof.
  intros M0 P. unfold mean_error. pose proof (u_pos f) as U. pose proof (t_pos f) as T. pose proof (pos_INR (length (k_data K))) as N0.
  apply Rplus_le_le_0_compat.
  - apply Rmult_le_pos; auto. apply Rmult_le_pos; lra.
  - apply Rmult_le_pos; [|lra]. apply Rplus_le_le_0_compat; [|lra]. unfold Rdiv. apply Rmult_le_pos; [lra|].
    left. apply Rinv_0_lt_compat; auto.
Qed.
Lemma fnorm_passes : exists o w w' o', gray_reshape zero out (g_width g) (g_height g) = Ok o /\
  gray_reshape zero work (g_width g) (g_height g) = Ok w /\
  normalized_h (float_narith f) K g w = Ok w' /\ normalized_v (float_narith f) K w' o = Ok o' /\
  approximates f g w w' (row_mean K g) (fun _ _ => mean_error f (length (k_data K)) M w0) /\
  approximates f g o o' (both_mean K g) (fun _ _ => two_pass_error f (length (k_data K)) M w0).
Proof.
  destruct (reshape_for zero g out Wg Wo So) as (o & Eo & Ho & Ow & Oh).
  destruct (reshape_for zero g work Wg Ww Sk) as (w & Ewk & Hw & Wkw & Wkh).
  set (n := length (k_data K)) in *.
  pose proof (bounded_pos f g M Wg Bw Bh Hg) as M0.
  destruct Safe as (P0 & S1 & S2 & S3). fold n in S2, S3.
  set (e1 := mean_error f n M w0) in *.
  assert (E10 : 0 <= e1) by (apply first_error_pos; auto).
  destruct (fnorm_h_holds f St K g w M Wg Hw Kok Wkw Wkh Bw Bh Bl Hk Hg Hn) as (w' & Ew' & Hh & Ah).
  { intros x Hx. fold n. eapply safe_between; [| | |exact S1|exact S2|exact S3]; auto; lra. }
  destruct Hh as (A1 & A2 & A3 & A4 & A5).
  assert (Wf' : wf w') by (eapply wf_layout; eauto).
  assert (Aw : approximates f g w w' (row_mean K g) (fun _ _ => e1)).
  { destruct Ah as (B1 & B2 & B0 & B3). split; auto. split; auto. split; auto. intros x y I. destruct (B3 x y I) as (v & Q1 & Q2 & Q3).
    exists v. split; auto. split; auto. eapply Rle_trans; [exact Q3|]. apply mean_error_anti. split; auto. apply LW, I. }
  assert (Bn : bounded_numbers f w' (M + e1)).
  { intros x y p I P. destruct Aw as (B1 & B2 & B0 & B3). assert (I' : inside g x y) by (destruct I; split; lia).
    destruct (B3 x y I') as (v & Q1 & Q2 & Q3). assert (v = p) as -> by congruence. split; auto.
    assert (R : Rabs (row_mean K g x y) <= M).
    { replace M with (M - 0) at 1 by ring. unfold row_mean.
      pose proof (rmean_close (k_data K) (fun i => rpixel g (x - k_offset K + i) y)
        (fun i => option_map (fun _ => 0) (rpixel g (x - k_offset K + i) y)) M) as C.
      assert (Z0 : forall ks px i, rtotal ks (fun i => option_map (fun _ : R => 0) (px i)) i = 0).
      { clear. induction ks as [|c ks IH]; intros px i; cbn [rtotal]; auto. rewrite IH.
        destruct (px i); cbn [option_map]; ring. }
      unfold rmean at 2 in C. rewrite Z0 in C. unfold Rdiv in C at 1. rewrite Rmult_0_l, !Rminus_0_r in C.
      rewrite Rminus_0_r. apply C.
      - intros c Hc. apply Hk. exact Hc.
      - pose proof (weight_row K g x y Wg (proj2 I')) as E. unfold rval in E. unfold rpixel. rewrite E.
        pose proof (LW x (proj1 I')). lra.
      - intros j a. unfold rpixel. destruct (pixel g (x - k_offset K + j) y) eqn:Px; [|discriminate].
        cbn. intros Q. exists 0. split; auto. rewrite Rminus_0_r. assert (a = val s) as -> by congruence.
        apply (bounded_pixel f g M Hg _ _ _ Px).
      - intros j. unfold rpixel. destruct (pixel g (x - k_offset K + j) y); [discriminate|auto]. }
    replace (val p) with (row_mean K g x y + (val p - row_mean K g x y)) by ring.
    eapply Rle_trans; [apply Rabs_triang|]. lra. }
  destruct (fnorm_v_holds f St K w' o (M + e1) Wf' Ho Kok) as (o' & Eo' & Hv & Av); auto; try congruence.
  { destruct A3 as (_ & _ & _ & _ & _ & L). rewrite L.
    pose proof (reshape_len zero work (g_width g) (g_height g) w ltac:(lia) ltac:(lia) Ewk).
    assert (g_width g * g_height g <= zlen (g_data g))%Z by (unfold wf in Wg; nia). lia. }
  { intros y Hy. rewrite A2 in *. fold n. eapply safe_between; [| | |exact S1|exact S2|exact S3]; auto; lra. }
  exists o, w, w', o'. do 5 (split; auto).
  destruct Av as (B1 & B2 & B0 & B3). split; [congruence|]. split; [congruence|]. split; auto. intros x y I.
  assert (I' : inside w' x y) by (destruct I; split; lia).
  destruct (B3 x y I') as (v & Q1 & Q2 & Q3). exists v. split; auto. split; auto.
  rewrite A2 in Q3.
  assert (Q4 : Rabs (col_mean K w' x y - both_mean K g x y) <= e1).
  { unfold col_mean, both_mean. apply rmean_close.
    - intros c Hc. apply Hk. exact Hc.
    - pose proof (weight_col K w' x y Wf' (proj1 I')) as E. unfold rval in E. unfold rpixel. rewrite E, A2.
      pose proof (LH y (proj2 I)). lra.
    - intros j a. cbn zeta. destruct (_ && _)%bool eqn:C.
      + destruct Aw as (_ & _ & _ & C3). destruct (C3 x (y - k_offset K + j)%Z) as (z & Z1 & Z2 & Z3); [destruct I; split; lia|].
        unfold rpixel. rewrite Z1. cbn [option_map]. intros Q. assert (a = val z) as -> by congruence. eauto.
      + unfold rpixel. rewrite pixel_outside by (unfold inside; lia). discriminate.
    - intros j. cbn zeta. destruct (_ && _)%bool eqn:C; auto. unfold rpixel.
      destruct (pixel_exists w' x (y - k_offset K + j) Wf') as (z & ->); [destruct I; split; lia|]. discriminate. }
  replace (val v - both_mean K g x y) with ((col_mean K w' x y - both_mean K g x y) + (val v - col_mean K w' x y)) by ring.
  eapply Rle_trans; [apply Rabs_triang|]. unfold two_pass_error. fold n e1. apply Rplus_le_compat; auto.
  eapply Rle_trans; [exact Q3|]. apply mean_error_anti. split; auto. apply LH, I.
Qed.
Lemma fnorm_2 : exists o w out' work', gray_reshape zero out (g_width g) (g_height g) = Ok o /\
  gray_reshape zero work (g_width g) (g_height g) = Ok w /\ normalized_2 (float_narith f) zero K g out work = Ok (out', work') /\ leaves w work' /\
  approximates f g o out' (both_mean K g) (fun _ _ => two_pass_error f (length (k_data K)) M w0).
Proof.
  destruct fnorm_passes as (o & w & w' & o' & E1 & E2 & E3 & E4 & A' & A). exists o, w, o', w'. split; auto. split; auto.
  split; [|split; [apply A'|exact A]]. unfold normalized_2. rewrite E1, E2. cbn [bind]. rewrite E3. cbn [bind]. now rewrite E4.
Qed.
Lemma fgauss : exists o w out' work', gray_reshape zero out (g_width g) (g_height g) = Ok o /\
  gray_reshape zero work (g_width g) (g_height g) = Ok w /\ blur_gaussian (float_narith f) zero K g out work = Ok (out', work') /\ leaves w work' /\
  approximates f g o out' (both_mean K g) (fun _ _ => two_pass_error f (length (k_data K)) M w0).
Proof.
  destruct fnorm_passes as (o & w & w' & o' & E1 & E2 & E3 & E4 & A' & A). exists o, w, o', w'. split; auto. split; auto.
  split; [|split; [apply A'|exact A]]. unfold blur_gaussian. rewrite E1, E2. cbn [bind]. rewrite E3. cbn [bind]. now rewrite E4.
Qed.
End Two.

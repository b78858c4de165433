(** Lemmas about statistics of float and double images. *)
From Coq Require Import Reals Lia Lra.
From Coq Require Import Floats.SpecFloat.
From Flocq Require Import Core Relative BinarySingleNaN.
From Verif Require Import Base BaseFacts M_Image S_Image L_Image M_Float S_Ieee L_Ieee L_PointF S_FConv L_FConv S_FBlur L_FBlur M_Stats S_Stats L_Stats S_FStats.
Local Open Scope R_scope.

Section F.
Variable f : fty.
Hypothesis St : standard f.
Let W : wfty f := standard_wfty f St.
Notation u := (unit_error f).
Notation t := (tiny_error f).

(** ** Comparison *)
Lemma ltb_val x y : finite f x -> finite f y -> SFltb x y = Rlt_bool (val x) (val y).
Proof.
  intros (a & -> & Fa & ->)%(finite_B f) (b & -> & Fb & ->)%(finite_B f).
  now apply (Bltb_correct (f_prec f) (f_emax f)).
Qed.
Lemma limit_max : finite f (float_limit_max f) /\ forall x, finite f x -> val x <= val (float_limit_max f).
Proof.
  split.
  - destruct St as [->| ->]; split; reflexivity.
  - intros x (b & -> & Fb & ->)%(finite_B f).
    pose proof (abs_B2R_le_emax_minus_prec (f_prec f) (f_emax f) (proj1 W) b) as H.
    apply Rle_trans with (Rabs (B2R b)); [apply Rle_abs|]. eapply Rle_trans; [exact H|].
    right. unfold float_limit_max, val, SF2R, F2R. cbn [cond_Zopp Fnum Fexp].
    destruct W as [W1 W2]. assert (B : (2 <= 2 ^ f_prec f)%Z) by (change 2%Z with (2 ^ 1)%Z at 1; apply Z.pow_le_mono_r; lia).
    rewrite Z2Pos.id by lia. rewrite minus_IZR.
    replace (IZR (2 ^ f_prec f)) with (bpow radix2 (f_prec f)) by (rewrite <- IZR_Zpower by lia; reflexivity).
    rewrite Rmult_minus_distr_r, <- bpow_plus, Rmult_1_l. f_equal. f_equal. lia.
Qed.
Lemma limit_min : finite f (float_limit_min f) /\ val (float_limit_min f) = smallest_normal f.
Proof.
  split.
  - destruct St as [->| ->]; split; reflexivity.
  - unfold float_limit_min, smallest_normal, val, SF2R, F2R. cbn [cond_Zopp Fnum Fexp]. destruct W as [W1 W2].
    assert (B : (1 <= 2 ^ (f_prec f - 1))%Z) by (change 1%Z with (2 ^ 0)%Z at 1; apply Z.pow_le_mono_r; lia).
    rewrite Z2Pos.id by lia.
    replace (IZR (2 ^ (f_prec f - 1))) with (bpow radix2 (f_prec f - 1)) by (rewrite <- IZR_Zpower by lia; reflexivity).
    rewrite <- bpow_plus. f_equal. lia.
Qed.

(** ** Extremes *)
Lemma fold_better (better : spec_float -> spec_float -> bool) (lt : R -> R -> Prop) l : forall init,
  (forall x y, finite f x -> finite f y -> better x y = true <-> lt (val x) (val y)) ->
  (forall a b, lt a b \/ ~ lt a b) -> (forall a b c, lt a b -> lt b c -> lt a c) -> (forall a b c, lt a b -> ~ lt c b -> lt a c) ->
  (forall a, ~ lt a a) ->
  finite f init -> (forall v, In v l -> finite f v) ->
  exists m, mfold (fun v m => Ok (if better v m then v else m)) l init = Ok m /\ finite f m /\ (m = init \/ In m l) /\
    ~ lt (val init) (val m) /\ forall v, In v l -> ~ lt (val v) (val m).
Proof.
  intros init Hb Hd Ht Hn Hi. revert init. induction l as [|a l IH]; intros init F0 Fl.
  - exists init. split; [reflexivity|]. split; [exact F0|]. split; [now left|]. split; [apply Hi|]. intros v Hv. destruct Hv.
  - cbn [mfold bind]. assert (Fa : finite f a) by (apply Fl; now left).
    destruct (IH (if better a init then a else init)) as (m & E & Fm & Hm & H1 & H2).
    { destruct (better a init); auto. }
    { intros v Hv. apply Fl. now right. }
    exists m. split; auto. split; auto.
    pose proof (Hb a init Fa F0) as B. destruct (better a init).
    + assert (L : lt (val a) (val init)) by (apply B; auto).
      split; [destruct Hm as [->|Hm]; right; [now left|now right]|]. split.
      * intros X. apply H1. eapply Ht; eauto.
      * intros v [<-|Hv]; auto.
    + split; [destruct Hm as [->|Hm]; [now left|right; now right]|]. split; auto.
      intros v [<-|Hv]; auto. intros X. assert (L : ~ lt (val a) (val init)) by (intros Y; apply B in Y; discriminate).
      apply L. destruct (Hd (val a) (val init)) as [Y|Y]; auto. eapply Hn; [exact X|exact H1].
Qed.

Variable g : gray spec_float.
Hypothesis Hg : wf g.
Hypothesis Hn : numbers f g.
Lemma all_finite v : In v (all_pixels g) -> finite f v.
Proof. intros H. apply (all_pixels_In g) in H as (x & y & E). eauto. Qed.

Lemma float_min_ok : g_sub g = false -> (0 < g_width g)%Z -> (0 < g_height g)%Z ->
  exists m, float_min f g = Ok m /\ (exists x y p, pixel g x y = Some p /\ val p = val m) /\
    forall x y p, pixel g x y = Some p -> val m <= val p.
Proof.
  intros S0 Hw Hh. destruct limit_max as [F0 B0].
  destruct (fold_better SFltb Rlt (all_pixels g) (float_limit_max f)) as (m & E & Fm & Hm & H1 & H2); auto.
  { intros x y Fx Fy. rewrite ltb_val by auto. destruct (Rlt_bool_spec (val x) (val y)); split; intros; auto; try discriminate. lra. }
  { intros a b. destruct (Rlt_dec a b); auto. }
  { intros a b c; lra. }
  { intros a b c; lra. }
  { intros a; lra. }
  { exact all_finite. }
  exists m. split; [unfold float_min, image_extreme; now rewrite scan_flat_ok|]. split.
  - destruct Hm as [->|Hm].
    + destruct (pixel_exists g 0 0 Hg) as (p & Ep); [split; lia|]. exists 0%Z, 0%Z, p. split; auto.
      assert (Ip : In p (all_pixels g)) by (apply all_pixels_In; eauto).
      pose proof (H2 p Ip). pose proof (B0 p (all_finite p Ip)). lra.
    + apply (all_pixels_In g) in Hm as (x & y & E'). eauto.
  - intros x y p Ep. assert (Ip : In p (all_pixels g)) by (apply all_pixels_In; eauto). pose proof (H2 p Ip). lra.
Qed.
Lemma float_max_ok : g_sub g = false ->
  exists m, float_max f g = Ok m /\ smallest_normal f <= val m /\ (forall x y p, pixel g x y = Some p -> val p <= val m) /\
    (val m = smallest_normal f \/ exists x y, pixel g x y = Some m).
Proof.
  intros S0. destruct limit_min as [F0 V0].
  destruct (fold_better (fun v m => SFltb m v) (fun a b => b < a) (all_pixels g) (float_limit_min f)) as (m & E & Fm & Hm & H1 & H2); auto.
  { intros x y Fx Fy. rewrite ltb_val by auto. destruct (Rlt_bool_spec (val y) (val x)); split; intros; auto; try discriminate. lra. }
  { intros a b. destruct (Rlt_dec b a); auto. }
  { intros a b c; lra. }
  { intros a b c; lra. }
  { intros a; lra. }
  { exact all_finite. }
  exists m. split; [unfold float_max, image_extreme; now rewrite scan_flat_ok|]. rewrite V0 in H1. split; [lra|]. split.
  - intros x y p Ep. assert (Ip : In p (all_pixels g)) by (apply all_pixels_In; eauto). pose proof (H2 p Ip). lra.
  - destruct Hm as [->|Hm]; [now left|]. right. now apply (all_pixels_In g) in Hm.
Qed.

(** ** Sum *)
Lemma sum_error_list l : (forall v, In v l -> finite f v) -> forall s S0 A k, finite f s -> Rabs S0 <= A ->
  Rabs (val s - S0) <= ((1 + u) ^ k - 1) * A ->
  (A + fold_right Rplus 0 (map (fun v => Rabs (val v)) l)) * (1 + u) ^ (k + length l) < huge f ->
  exists s', mfold (fun v s => Ok (fadd f s v)) l s = Ok s' /\ finite f s' /\
    Rabs (val s' - (S0 + fold_right Rplus 0 (map val l))) <=
      ((1 + u) ^ (k + length l) - 1) * (A + fold_right Rplus 0 (map (fun v => Rabs (val v)) l)).
Proof.
  intros Fl. induction l as [|a l IH]; intros s S0 A k Fs HA HE HH.
  - cbn in *. rewrite Nat.add_0_r, !Rplus_0_r in *. eauto.
  - cbn [map fold_right length mfold bind] in *.
    assert (Fa : finite f a) by (apply Fl; now left).
    assert (A0 : 0 <= A) by (pose proof (Rabs_pos S0); lra).
    set (m := fold_right Rplus 0 (map (fun v => Rabs (val v)) l)) in *.
    assert (m0 : 0 <= m) by (unfold m; clear; induction l; cbn; [lra|pose proof (Rabs_pos (val a)); lra]).
    pose proof (Rabs_pos (val a)) as Pa. pose proof (u_pos f) as U0.
    destruct (add_op f St s a S0 (A + Rabs (val a)) k Fs Fa) as [F1 E1].
    + eapply Rle_trans; [exact HE|]. apply Rmult_le_compat_l; [pose proof (G_1 f k); lra|lra].
    + eapply Rle_trans; [apply Rabs_triang|]. lra.
    + eapply Rle_lt_trans; [|exact HH]. apply Rmult_le_compat.
      * lra.
      * pose proof (G_1 f (S k)); lra.
      * lra.
      * apply G_mono. lia.
    + destruct (IH (fun v Hv => Fl v (or_intror Hv)) (fadd f s a) (S0 + val a) (A + Rabs (val a)) (S k) F1) as (s' & E' & F' & B').
      * eapply Rle_trans; [apply Rabs_triang|]. lra.
      * exact E1.
      * replace (S k + length l)%nat with (k + S (length l))%nat by lia. now rewrite Rplus_assoc.
      * exists s'. split; auto. split; auto. rewrite <- !Rplus_assoc.
        replace (k + S (length l))%nat with (S k + length l)%nat by lia. exact B'.
Qed.

Lemma mag_ge l : Rabs (fold_right Rplus 0 (map val l)) <= fold_right Rplus 0 (map (fun v => Rabs (val v)) l).
Proof. induction l; cbn; [rewrite Rabs_R0; lra|]. eapply Rle_trans; [apply Rabs_triang|]. lra. Qed.
Lemma count_len : length (all_pixels g) = Z.to_nat (count g).
Proof. pose proof (all_pixels_len g Hg). unfold count, zlen in *. lia. Qed.

Lemma float_sum_ok : magnitude g * (1 + u) ^ Z.to_nat (count g) < huge f ->
  exists s, float_sum f g = Ok s /\ finite f s /\
    Rabs (val s - exact_sum g) <= ((1 + u) ^ Z.to_nat (count g) - 1) * magnitude g.
Proof.
  intros HH. destruct (sum_error_list (all_pixels g) all_finite (S754_zero false) 0 0 0) as (s & E & F & B).
  - apply zero_fin; auto.
  - rewrite Rabs_R0. lra.
  - cbn. rewrite Rminus_0_r, Rabs_R0. lra.
  - rewrite Rplus_0_l, Nat.add_0_l, count_len. exact HH.
  - exists s. rewrite !Rplus_0_l, Nat.add_0_l, count_len in B. unfold float_sum. rewrite scan_window_ok by auto. auto.
Qed.

(** ** Mean *)
Lemma huge_more : 1099511627776 <= huge f.
Proof.
  clear g Hg Hn. replace 1099511627776 with (bpow radix2 40) by (unfold bpow; change (Z.pow_pos radix2 40) with 1099511627776%Z; lra).
  apply bpow_le. destruct St as [->| ->]; cbn; lia.
Qed.
Lemma pixel_count n : (0 < n < 4294967296)%Z ->
  finite f (float_of_Z f n) /\ exists d, Rabs d <= u /\ val (float_of_Z f n) = IZR n * (1 + d).
Proof.
  clear g Hg Hn. intros Hn'. destruct (unit_small f St) as [U0 U]. pose proof huge_more as H.
  assert (N1 : 1 <= IZR n) by (apply IZR_le; lia).
  assert (N2 : IZR n <= 4294967296) by (apply IZR_le; lia).
  assert (E : Rabs (rnd f (IZR n) - IZR n) <= u * IZR n).
  { pose proof (relative_error_N_FLT radix2 (3 - f_emax f - f_prec f) (f_prec f) (proj1 W) (fun x => negb (Z.even x)) (IZR n)) as E.
    assert (U' : u = / 2 * bpow radix2 (- f_prec f + 1)) by (unfold unit_error; rewrite bpow_plus; change (bpow radix2 1) with 2; field).
    rewrite U'. rewrite (Rabs_pos_eq (IZR n)) in E by lra. apply E. apply Rle_trans with 1; auto.
    change 1 with (bpow radix2 0). apply bpow_le. destruct W. lia. }
  assert (B : Rabs (rnd f (IZR n)) < huge f).
  { replace (rnd f (IZR n)) with (IZR n + (rnd f (IZR n) - IZR n)) by ring. eapply Rle_lt_trans; [apply Rabs_triang|].
    rewrite (Rabs_pos_eq (IZR n)) by lra. nra. }
  destruct (float_of_Z_fin f W n B) as [F V]. split; auto.
  exists ((rnd f (IZR n) - IZR n) / IZR n). split.
  - unfold Rdiv. rewrite Rabs_mult, (Rabs_pos_eq (/ _)) by (left; apply Rinv_0_lt_compat; lra).
    apply Rmult_le_reg_r with (IZR n); [lra|]. rewrite Rmult_assoc, Rinv_l by lra. lra.
  - rewrite V. field. lra.
Qed.

Lemma float_mean_ok : (0 < count g < 4294967296)%Z -> 2 * (magnitude g + 1) * (1 + u) ^ Z.to_nat (count g + 3) < huge f ->
  exists m, float_mean f g = Ok m /\ finite f m /\
    Rabs (val m - exact_sum g / IZR (count g)) <=
      ((1 + u) ^ Z.to_nat (count g + 3) - 1) * (magnitude g / IZR (count g)) + t.
Proof.
  intros Hc HH. destruct (unit_small f St) as [U0 U]. destruct (tiny_small f St) as [T0 T].
  set (A := magnitude g) in *. set (n := Z.to_nat (count g)).
  replace (Z.to_nat (count g + 3)) with (n + 3)%nat in * by (unfold n; lia).
  assert (A0 : 0 <= A) by (eapply Rle_trans; [apply Rabs_pos|apply mag_ge]).
  assert (SA : Rabs (exact_sum g) <= A) by apply mag_ge.
  pose proof (G_1 f n) as G1. pose proof (G_1 f (n + 3)) as G3.
  assert (GG : (1 + u) ^ (n + 3) = (1 + u) ^ n * (1 + u) ^ 3) by apply pow_add.
  assert (C3 : 1 <= (1 + u) ^ 3) by apply (G_1 f 3).
  destruct float_sum_ok as (s & Es & Fs & Bs).
  { fold A n. apply Rle_lt_trans with (2 * (A + 1) * (1 + u) ^ (n + 3)); [|exact HH].
    apply Rmult_le_compat; try lra. rewrite GG. nra. }
  fold A n in Bs. set (S0 := exact_sum g) in *.
  destruct (pixel_count (count g) Hc) as (Fn & d & Hd & Vn).
  set (N := IZR (count g)) in *. assert (N1 : 1 <= N) by (apply IZR_le; lia).
  apply Rabs_le_inv in Hd. set (c := / (1 + d)).
  assert (c1 : (1 + d) * c = 1) by (unfold c; field; lra).
  assert (c0 : 0 < c) by (apply Rinv_0_lt_compat; lra).
  assert (cU : c <= 1 + u + 2 * (u * u)) by nra.
  assert (cL : 1 - u <= c) by nra.
  assert (Q : val s / val (float_of_Z f (count g)) = val s / N * c) by (rewrite Vn; unfold c; field; lra).
  assert (sA : Rabs (val s) <= (1 + u) ^ n * A).
  { replace (val s) with (S0 + (val s - S0)) by ring. eapply Rle_trans; [apply Rabs_triang|]. lra. }
  assert (NI : 0 < / N <= 1) by (split; [apply Rinv_0_lt_compat; lra|rewrite <- Rinv_1; apply Rinv_le; lra]).
  set (q := val s / N * c) in *.
  assert (Aq : Rabs q <= (1 + u) ^ n * A * / N * c).
  { unfold q, Rdiv. rewrite !Rabs_mult, (Rabs_pos_eq c), (Rabs_pos_eq (/ N)) by lra.
    apply Rmult_le_compat_r; [lra|]. apply Rmult_le_compat_r; lra. }
  pose proof (rnd_err f W q) as E. set (a := (1 + u) ^ n * A) in *.
  assert (a0 : 0 <= a) by (apply Rmult_le_pos; lra).
  assert (aN : 0 <= a * / N <= a) by (split; [apply Rmult_le_pos; lra|]; rewrite <- (Rmult_1_r a) at 2; apply Rmult_le_compat_l; lra).
  assert (L : Rabs (rnd f q) < huge f).
  { replace (rnd f q) with (q + (rnd f q - q)) by ring. eapply Rle_lt_trans; [apply Rabs_triang|].
    apply Rle_lt_trans with (2 * (A + 1) * (1 + u) ^ (n + 3)); [|exact HH].
    assert (Rabs q <= a * c) by (eapply Rle_trans; [exact Aq|]; apply Rmult_le_compat_r; lra).
    assert (u * Rabs q <= / 16777216 * Rabs q) by (apply Rmult_le_compat_r; [apply Rabs_pos|lra]).
    assert (a * c <= a * (1 + / 1000)) by (apply Rmult_le_compat_l; nra).
    assert (a <= A * (1 + u) ^ (n + 3)).
    { unfold a. rewrite Rmult_comm. apply Rmult_le_compat_l; auto. apply G_mono. lia. }
    nra. }
  destruct (fdiv_fin f W s (float_of_Z f (count g)) Fs Fn) as [Fm Vm].
  { rewrite Vn. apply Rmult_integral_contrapositive. split; lra. }
  { rewrite Q. exact L. }
  rewrite Q in Vm. eexists. split; [unfold float_mean; rewrite Es; cbn [bind]; rewrite u32_id by (unfold count in Hc; lia); reflexivity|].
  fold (count g). split; [exact Fm|]. rewrite Vm.
  replace (rnd f q - S0 / N) with ((rnd f q - q) + ((val s - S0) * / N * c + S0 * / N * (c - 1))) by (unfold q; field; lra).
  eapply Rle_trans; [apply Rabs_triang|].
  assert (E1 : Rabs ((val s - S0) * / N * c + S0 * / N * (c - 1)) <= (((1 + u) ^ n - 1) * A * c + A * Rabs (c - 1)) * / N).
  { eapply Rle_trans; [apply Rabs_triang|]. rewrite !Rabs_mult, (Rabs_pos_eq c), (Rabs_pos_eq (/ N)) by lra.
    assert (X1 : Rabs (val s - S0) * / N * c <= ((1 + u) ^ n - 1) * A * / N * c).
    { apply Rmult_le_compat_r; [lra|]. apply Rmult_le_compat_r; lra. }
    assert (X2 : Rabs S0 * / N * Rabs (c - 1) <= A * / N * Rabs (c - 1)).
    { apply Rmult_le_compat; try apply Rabs_pos.
      - apply Rmult_le_pos; [apply Rabs_pos|lra].
      - apply Rmult_le_compat_r; lra.
      - lra. }
    replace ((((1 + u) ^ n - 1) * A * c + A * Rabs (c - 1)) * / N) with (((1 + u) ^ n - 1) * A * / N * c + A * / N * Rabs (c - 1)) by ring. lra. }
  assert (E2 : u * Rabs q <= u * (a * / N * c)) by (apply Rmult_le_compat_l; lra).
  assert (E3 : u * (a * / N * c) + (((1 + u) ^ n - 1) * A * c + A * Rabs (c - 1)) * / N <=
    ((1 + u) ^ (n + 3) - 1) * (A / N)).
  { unfold a, Rdiv. replace (u * ((1 + u) ^ n * A * / N * c) + (((1 + u) ^ n - 1) * A * c + A * Rabs (c - 1)) * / N)
      with ((A * / N) * ((u * c + c) * (1 + u) ^ n - c + Rabs (c - 1))) by ring.
    rewrite (Rmult_comm (_ - 1)). apply Rmult_le_compat_l; [apply Rmult_le_pos; lra|]. rewrite GG.
    set (G := (1 + u) ^ n) in *.
    destruct (Rle_lt_dec 1 c) as [C|C].
    - rewrite Rabs_pos_eq by lra. assert (X0 : c <= (1 + u) * (1 + u)) by nra.
      assert (X : (1 + u) * c <= (1 + u) ^ 3) by (replace ((1 + u) ^ 3) with ((1 + u) * ((1 + u) * (1 + u))) by ring; apply Rmult_le_compat_l; lra).
      assert (Y : (1 + u) * c * G <= (1 + u) ^ 3 * G) by (apply Rmult_le_compat_r; lra). lra.
    - rewrite Rabs_left by lra. assert (X : (u * c + c) * G <= (u + c) * G) by (apply Rmult_le_compat_r; nra).
      assert (X1 : (1 + u) + 2 * u <= (1 + u) ^ 3) by (replace ((1 + u) ^ 3) with (1 + 3 * u + 3 * (u * u) + u * u * u) by ring; nra).
      assert (Y : ((1 + u) + 2 * u) * G <= (1 + u) ^ 3 * G) by (apply Rmult_le_compat_r; lra).
      
      assert (Y2 : (2 * u + (1 - c)) * 1 <= (2 * u + (1 - c)) * G) by (apply Rmult_le_compat_l; lra). lra. }
  lra.
Qed.
End F.

(** ** Constants *)
Lemma neg_pow n : (0 <= n)%Z -> bpow radix2 (- n) = / IZR (2 ^ n).
Proof. intros H. rewrite bpow_opp, <- (IZR_Zpower radix2 n H). reflexivity. Qed.
Lemma constants : unit_error F32 = / IZR (2 ^ 24) /\ unit_error F64 = / IZR (2 ^ 53) /\
  tiny_error F32 = / IZR (2 ^ 150) /\ tiny_error F64 = / IZR (2 ^ 1075) /\
  huge F32 = IZR (2 ^ 128) /\ huge F64 = IZR (2 ^ 1024) /\
  smallest_normal F32 = / IZR (2 ^ 126) /\ smallest_normal F64 = / IZR (2 ^ 1022).
Proof.
  split; [exact (neg_pow 24 ltac:(lia))|]. split; [exact (neg_pow 53 ltac:(lia))|].
  split; [exact (neg_pow 150 ltac:(lia))|]. split; [exact (neg_pow 1075 ltac:(lia))|].
  split; [symmetry; exact (IZR_Zpower radix2 128 ltac:(lia))|]. split; [symmetry; exact (IZR_Zpower radix2 1024 ltac:(lia))|].
  split; [exact (neg_pow 126 ltac:(lia))|exact (neg_pow 1022 ltac:(lia))].
Qed.

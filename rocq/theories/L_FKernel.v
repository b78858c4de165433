(** Lemmas about kernels of floating point type. *)
From Coq Require Import Reals Lia Lra.
From Coq Require Import Floats.SpecFloat.
From Flocq Require Import Core Relative BinarySingleNaN.
From Verif Require Import Base BaseFacts M_Float S_Ieee L_Ieee S_FConv L_FConv L_FStats M_Stats S_Stats L_Stats M_Convolve M_Normalized M_Otsu M_Config M_Block M_Kernel S_Kernel L_Kernel S_FKernel.
Local Open Scope R_scope.

Lemma ops_standard f O : ops_of f O -> standard f.
Proof. intros [[-> _]|[-> _]]; [now left|now right]. Qed.

(** What [ops_of] means for each operation. *)
Lemma ops_parts f O : ops_of f O ->
  d_of O = float_of_Z f /\ d_add O = fadd f /\ d_sub O = fsub f /\ d_mul O = fmul f /\ d_div O = fdiv f /\ d_lt O = SFltb /\ d_le O = SFleb /\
  d_of O 0 = S754_zero false.
Proof. intros [[-> ->]|[-> ->]]; repeat split. Qed.

Section F.
Variable f : fty.
Hypothesis St : standard f.
Let W : wfty f := standard_wfty f St.
Notation u := (unit_error f).
Notation t := (tiny_error f).

Lemma leb_val x y : finite f x -> finite f y -> SFleb x y = Rle_bool (val x) (val y).
Proof.
  intros (a & -> & Fa & ->)%(finite_B f) (b & -> & Fb & ->)%(finite_B f).
  now apply (Bleb_correct (f_prec f) (f_emax f)).
Qed.

Lemma val_inj x y : finite f x -> finite f y -> val x = val y -> val x <> 0 -> x = y.
Proof.
  intros (a & -> & Fa & Ea)%(finite_B f) (b & -> & Fb & Eb)%(finite_B f) E N. rewrite Ea, Eb in *. f_equal.
  apply B2R_inj; auto; destruct a, b; cbn in *; congruence.
Qed.

Lemma rnd_nearest r y : fmt f y -> Rabs (rnd f r - r) <= Rabs (y - r).
Proof.
  intros H. assert (V : Valid_exp (SpecFloat.fexp (f_prec f) (f_emax f))) by (apply fexp_correct; exact (proj1 W)).
  destruct (round_N_pt radix2 (SpecFloat.fexp (f_prec f) (f_emax f)) (fun x => negb (Z.even x)) r) as [_ N]. now apply N.
Qed.

Lemma zero_fine : finite f (S754_zero false) /\ val (S754_zero false) = 0.
Proof. split; [now apply zero_fin|reflexivity]. Qed.

(** ** Extremes *)
Lemma fold_extreme (better : spec_float -> spec_float -> bool) (key : spec_float -> spec_float) (w : R -> R) l :
  (forall x y, finite f x -> finite f y -> better x y = true <-> w (val y) < w (val x)) ->
  (forall x, In x l -> finite f (key x)) -> forall i, finite f i ->
  let m := fold_left (fun m x => if better (key x) m then key x else m) l i in
  finite f m /\ (m = i \/ exists x, In x l /\ m = key x) /\ w (val i) <= w (val m) /\
  forall x, In x l -> w (val (key x)) <= w (val m).
Proof.
  intros Hb. induction l as [|a l IH]; intros Hk i Fi; cbn.
  - split; [auto|]. split; [auto|]. split; [lra|tauto].
  - assert (Fa : finite f (key a)) by (apply Hk; now left). pose proof (Hb (key a) i Fa Fi) as B.
    destruct (IH (fun x H => Hk x (or_intror H)) (if better (key a) i then key a else i)) as (F & M & L1 & L2).
    { destruct (better (key a) i); auto. }
    set (m := fold_left _ _ _) in *. split; auto. destruct (better (key a) i).
    + assert (w (val i) < w (val (key a))) by (apply B; auto). split.
      { right. destruct M as [->|(x & Hx & ->)]; [exists a|exists x]; auto. }
      split; [lra|]. intros x [<-|Hx]; auto.
    + assert (~ w (val i) < w (val (key a))) by (intros X; apply B in X; discriminate). split.
      { destruct M as [->|(x & Hx & ->)]; [now left|right; exists x; auto]. }
      split; [lra|]. intros x [<-|Hx]; [lra|auto].
Qed.

Lemma neg_fine x : finite f x -> finite f (fsub f (S754_zero false) x) /\ val (fsub f (S754_zero false) x) = - val x.
Proof.
  intros F. destruct zero_fine as [Z0 V0].
  assert (E : rnd f (val (S754_zero false) - val x) = - val x).
  { rewrite V0. replace (0 - val x) with (- val x) by lra. rewrite (rnd_opp f), rnd_id; auto. now apply finite_fmt. }
  destruct (fsub_fin f W _ x Z0 F) as [G1 G2]; [rewrite E, Rabs_Ropp; now apply finite_lt|]. now rewrite G2, E.
Qed.
End F.

Section O.
Variable f : fty.
Variable O : dops spec_float.
Hypothesis Ho : ops_of f O.
Let St : standard f := ops_standard f O Ho.
Let W : wfty f := standard_wfty f St.
Notation u := (unit_error f).
Notation t := (tiny_error f).

Lemma abs_fine x : finite f x -> finite f (d_abs O x) /\ val (d_abs O x) = Rabs (val x).
Proof.
  intros F. destruct (ops_parts f O Ho) as (_ & _ & P3 & _ & _ & _ & P7 & P8). destruct (zero_fine f) as [Z0 V0].
  unfold d_abs. rewrite P3, P7, P8, (leb_val f) by auto. rewrite V0. destruct (Rle_bool_spec (val x) 0) as [L|L].
  - destruct (neg_fine f St x F) as [G1 G2]. split; auto. rewrite G2, Rabs_left1; auto.
  - split; auto. rewrite Rabs_pos_eq; lra.
Qed.

Lemma extrema K : (forall v, In v (k_data K) -> finite f v) ->
  (k_data K = [] -> element_max O K = Throw /\ element_min O K = Throw /\ element_abs_max O K = Throw /\ element_abs_min O K = Throw) /\
  (k_data K <> [] ->
    (exists m, element_max O K = Ok m /\ In m (k_data K) /\ forall v, In v (k_data K) -> val v <= val m) /\
    (exists m, element_min O K = Ok m /\ In m (k_data K) /\ forall v, In v (k_data K) -> val m <= val v) /\
    (exists m, element_abs_max O K = Ok m /\ finite f m /\ (exists v, In v (k_data K) /\ val m = Rabs (val v)) /\
       forall v, In v (k_data K) -> Rabs (val v) <= val m) /\
    (exists m, element_abs_min O K = Ok m /\ finite f m /\ (exists v, In v (k_data K) /\ val m = Rabs (val v)) /\
       forall v, In v (k_data K) -> val m <= Rabs (val v))).
Proof.
  destruct K as [w off d]. cbn [k_data]. intros Hf. split.
  { intros ->. repeat split; apply k_best_empty. }
  destruct d as [|a l]; [congruence|]. intros _. destruct (ops_parts f O Ho) as (_ & _ & _ & _ & _ & P6 & _).
  unfold element_max, element_min, element_abs_max, element_abs_min. rewrite !k_best_fold, P6.
  assert (B1 : forall x y, finite f x -> finite f y -> SFltb y x = true <-> val y < val x).
  { intros x y Fx Fy. rewrite (ltb_val f) by auto. destruct (Rlt_bool_spec (val y) (val x)); split; intros; lra || congruence. }
  assert (B2 : forall x y, finite f x -> finite f y -> SFltb x y = true <-> - val y < - val x).
  { intros x y Fx Fy. rewrite B1 by auto. lra. }
  assert (Fa : finite f a) by (apply Hf; now left).
  split; [|split; [|split]].
  - destruct (fold_extreme f (fun x m => SFltb m x) (fun x => x) (fun r => r) l B1 (fun x H => Hf x (or_intror H)) a Fa) as (F & M & L1 & L2).
    eexists; split; [reflexivity|]. split.
    + destruct M as [M|(x & Hx & M)]; cbv beta in M; rewrite M; [now left|now right].
    + intros v [<-|Hv]; auto.
  - destruct (fold_extreme f (fun x m => SFltb x m) (fun x => x) Ropp l B2 (fun x H => Hf x (or_intror H)) a Fa) as (F & M & L1 & L2).
    eexists; split; [reflexivity|]. split.
    + destruct M as [M|(x & Hx & M)]; cbv beta in M; rewrite M; [now left|now right].
    + intros v [<-|Hv]; [lra|]. specialize (L2 v Hv). lra.
  - destruct (fold_extreme f (fun x m => SFltb m x) (d_abs O) (fun r => r) l B1 (fun x H => proj1 (abs_fine x (Hf x (or_intror H)))) (d_abs O a)
      (proj1 (abs_fine a Fa))) as (F & M & L1 & L2).
    eexists; split; [reflexivity|]. split; auto. split.
    + destruct M as [M|(x & Hx & M)]; cbv beta in M; rewrite M; [exists a|exists x]; (split; [auto with datatypes|]); apply abs_fine; auto.
      apply Hf; now right.
    + intros v [<-|Hv]; [rewrite <- (proj2 (abs_fine a Fa)); auto|]. rewrite <- (proj2 (abs_fine v (Hf v (or_intror Hv)))). auto.
  - destruct (fold_extreme f (fun x m => SFltb x m) (d_abs O) Ropp l B2 (fun x H => proj1 (abs_fine x (Hf x (or_intror H)))) (d_abs O a)
      (proj1 (abs_fine a Fa))) as (F & M & L1 & L2).
    eexists; split; [reflexivity|]. split; auto. split.
    + destruct M as [M|(x & Hx & M)]; cbv beta in M; rewrite M; [exists a|exists x]; (split; [auto with datatypes|]); apply abs_fine; auto.
      apply Hf; now right.
    + intros v [<-|Hv]; [rewrite <- (proj2 (abs_fine a Fa)); lra|]. rewrite <- (proj2 (abs_fine v (Hf v (or_intror Hv)))).
      specialize (L2 v Hv). lra.
Qed.

(** ** Sum *)
Lemma mfold_left {A B} (g : A -> B -> A) l : forall s, mfold (fun v s => Ok (g s v)) l s = Ok (fold_left g l s).
Proof. induction l as [|a l IH]; intros s; cbn; auto. Qed.

Lemma sum_fine K : (forall v, In v (k_data K) -> finite f v) ->
  weight (k_data K) * (1 + u) ^ length (k_data K) < huge f ->
  exists s, k_sum O K = Ok s /\ finite f s /\
    Rabs (val s - total (k_data K)) <= ((1 + u) ^ length (k_data K) - 1) * weight (k_data K).
Proof.
  intros Hf Hh. destruct (ops_parts f O Ho) as (_ & P2 & _ & _ & _ & _ & _ & P8). destruct (zero_fine f) as [Z0 V0].
  destruct (sum_error_list f St (k_data K) Hf (S754_zero false) 0 0 0) as (s & E & F & B); auto.
  - rewrite Rabs_R0. lra.
  - rewrite V0, Rminus_0_r, Rabs_R0. cbn. lra.
  - rewrite Rplus_0_l. exact Hh.
  - rewrite mfold_left in E. injection E as E. exists s. rewrite k_sum_fold, P2, P8, E. split; auto. split; auto.
    rewrite !Rplus_0_l in B. exact B.
Qed.

(** ** normalize *)
Lemma weight_pos l : (forall v, In v l -> finite f v /\ 0 <= val v) -> weight l = total l.
Proof.
  unfold weight, total. induction l as [|a l IH]; intros H; cbn; auto. rewrite Rabs_pos_eq by (apply H; now left). f_equal. apply IH.
  intros; apply H; now right.
Qed.
Lemma coef_le_total l v : (forall v, In v l -> finite f v /\ 0 <= val v) -> In v l -> val v <= total l.
Proof.
  unfold total. induction l as [|a l IH]; intros H; cbn; [tauto|].
  assert (0 <= val a) by (apply H; now left).
  assert (0 <= rsum (map val l)).
  { clear - H. induction l as [|b l IH]; cbn; [lra|]. assert (0 <= val b) by (apply H; right; now left).
    assert (0 <= rsum (map val l)) by (apply IH; intros w [<-|Hw]; apply H; [now left|right; now right]).
    unfold rsum in *. lra. }
  intros [<-|Hv]; unfold rsum in *; [lra|]. specialize (IH (fun w Hw => H w (or_intror Hw)) Hv). lra.
Qed.

Lemma pow_small n : INR n * u <= / 16 -> (1 + u) ^ n <= 1 + 16 / 15 * (INR n * u).
Proof.
  pose proof (u_pos f) as U. induction n as [|n IH]; intros H; [cbn; lra|].
  rewrite S_INR in *. cbn [pow]. assert (Hn : INR n * u <= / 16) by lra. specialize (IH Hn).
  assert (0 <= INR n) by apply pos_INR. assert (0 <= INR n * u) by (apply Rmult_le_pos; lra).
  assert ((1 + u) * (1 + u) ^ n <= (1 + u) * (1 + 16 / 15 * (INR n * u))) by (apply Rmult_le_compat_l; lra).
  assert (u * (INR n * u) <= u * / 16) by (apply Rmult_le_compat_l; lra). lra.
Qed.

Lemma u_le : u <= / 16777216.
Proof. 
  destruct constants as (C1 & C2 & _). destruct (ops_standard f O Ho) as [->| ->]; [rewrite C1|rewrite C2].
  - change (2 ^ 24)%Z with 16777216%Z. lra.
  - change (2 ^ 53)%Z with 9007199254740992%Z. lra.
Qed.

(** One coefficient divided by the computed sum. *)
Lemma quotient c s S g : finite f c -> finite f s -> 0 <= val c <= S -> 0 < S -> 0 <= g <= / 15 -> Rabs (val s - S) <= g * S ->
  finite f (fdiv f c s) /\ 0 <= val (fdiv f c s) /\
  Rabs (val (fdiv f c s) - val c / S) <= (g + u) * (15 / 14) * (val c / S) + t.
Proof.
  intros Fc Fs Hc HS Hg He. pose proof (u_pos f) as U. pose proof u_le as U1. pose proof (t_pos f) as T.
  assert (Hs : S * (14 / 15) <= val s <= S * (16 / 15)).
  { apply Rabs_le_inv in He. assert (g * S <= / 15 * S) by (apply Rmult_le_compat_r; lra). lra. }
  assert (s0 : 0 < val s) by lra.
  set (q := val c / val s). set (r := val c / S).
  assert (q0 : 0 <= q) by (apply Rmult_le_pos; [lra|left; now apply Rinv_0_lt_compat]).
  assert (r0 : 0 <= r) by (apply Rmult_le_pos; [lra|left; now apply Rinv_0_lt_compat]).
  assert (Er : val c = r * S) by (unfold r; field; lra). assert (Eq : val c = q * val s) by (unfold q; field; lra).
  assert (qr : q <= 15 / 14 * r).
  { apply Rmult_le_reg_r with (val s); auto. rewrite <- Eq, Er.
    assert (r * (S * (14 / 15)) <= r * val s) by (apply Rmult_le_compat_l; lra). lra. }
  assert (r1 : r <= 1). { apply Rmult_le_reg_r with S; auto. rewrite <- Er. lra. }
  assert (H2 : rnd f 2 = 2 /\ Rabs (rnd f 2) < huge f).
  { apply (int_exact f W 2). destruct (ops_standard f O Ho) as [->| ->]; vm_compute; congruence. }
  assert (R1 : 0 <= rnd f q <= 2).
  { split; [rewrite <- (rnd_0 f)|rewrite <- (proj1 H2)]; apply (rnd_le f W); lra. }
  destruct (fdiv_fin f W c s Fc Fs ltac:(lra)) as [G1 G2].
  { fold q. rewrite Rabs_pos_eq by lra. rewrite Rabs_pos_eq in H2 by (rewrite (proj1 H2); lra). destruct H2 as [H2 H3]. rewrite H2 in H3. lra. }
  fold q in G2. split; auto. rewrite G2. split; [lra|].
  replace (rnd f q - r) with ((rnd f q - q) + (q - r)) by lra.
  eapply Rle_trans; [apply Rabs_triang|]. pose proof (rnd_err f W q) as E. rewrite (Rabs_pos_eq q) in E by lra.
  assert (D : Rabs (q - r) <= g * (15 / 14) * r).
  { replace (q - r) with ((S - val s) * (r / val s)) by (unfold q; rewrite Er; field; lra).
    rewrite Rabs_mult, (Rabs_minus_sym S).
    assert (P : 0 <= r / val s) by (apply Rmult_le_pos; [lra|left; now apply Rinv_0_lt_compat]).
    rewrite (Rabs_pos_eq (r / val s)) by auto.
    assert (Rabs (val s - S) * (r / val s) <= g * S * (r / val s)) by (apply Rmult_le_compat_r; auto).
    assert (S * (r / val s) = q) by (unfold q; rewrite Er; field; lra).
    replace (g * S * (r / val s)) with (g * q) in * by (rewrite <- H0; ring).
    assert (g * q <= g * (15 / 14 * r)) by (apply Rmult_le_compat_l; lra). lra. }
  assert (u * q <= u * (15 / 14 * r)) by (apply Rmult_le_compat_l; lra). lra.
Qed.

Lemma normalize_fine w off d : (0 < w <= 1048576)%Z -> zlen d = w -> smoothing f d ->
  exists d', normalize O (mkKernel w off d) = Ok (mkKernel w off d') /\ zlen d' = w /\
    (forall i v, znth d i = Some v -> exists v', znth d' i = Some v' /\ finite f v' /\ 0 <= val v' /\
       Rabs (val v' - val v / total d) <= 2 * (IZR w + 1) * u * (val v / total d) + t) /\
    Rabs (total d' - 1) <= 2 * (IZR w + 1) * u + IZR w * t.
Proof.
  intros Hw L (Hf & S0 & S1). destruct (ops_parts f O Ho) as (_ & P2 & _ & _ & P5 & _ & _ & P8).
  pose proof (u_pos f) as U. pose proof u_le as U1. pose proof (t_pos f) as T.
  assert (Ln : INR (length d) = IZR w) by (rewrite INR_IZR_INZ; f_equal; unfold zlen in L; lia).
  assert (Hn : 0 < IZR w <= 1048576) by (split; [apply (IZR_lt 0)|apply (IZR_le w 1048576)]; lia).
  assert (Hu : IZR w * u <= / 16).
  { apply Rle_trans with (1048576 * / 16777216); [|lra]. apply Rmult_le_compat; lra. }
  assert (G : (1 + u) ^ length d <= 1 + 16 / 15 * (IZR w * u)) by (rewrite <- Ln; apply pow_small; rewrite Ln; auto).
  assert (G1 : 1 <= (1 + u) ^ length d) by apply (G_1 f).
  set (K := mkKernel w off d).
  destruct (sum_fine K) as (s & Es & Fs & Bs).
  { intros v Hv. now apply Hf. }
  { cbn [k_data K]. rewrite weight_pos by auto. eapply Rle_lt_trans; [|exact S1]. rewrite Rmult_comm. apply Rmult_le_compat_r; lra. }
  cbn [k_data K] in Bs. rewrite weight_pos in Bs by auto.
  rewrite k_sum_fold in Es. injection Es as Es.
  set (g := 16 / 15 * (IZR w * u)). assert (Hg : 0 <= g <= / 15).
  { unfold g. assert (0 <= IZR w * u) by (apply Rmult_le_pos; lra). lra. }
  assert (Bg : Rabs (val s - total d) <= g * total d).
  { eapply Rle_trans; [exact Bs|]. apply Rmult_le_compat_r; unfold g; lra. }
  assert (Q : forall c, In c d -> finite f (fdiv f c s) /\ 0 <= val (fdiv f c s) /\
     Rabs (val (fdiv f c s) - val c / total d) <= 2 * (IZR w + 1) * u * (val c / total d) + t).
  { intros c Hc. destruct (Hf c Hc) as [Fc c0]. pose proof (coef_le_total d c Hf Hc) as cS.
    destruct (quotient c s (total d) g Fc Fs) as (Q1 & Q2 & Q3); auto.
    split; auto. split; auto. eapply Rle_trans; [exact Q3|]. apply Rplus_le_compat_r. apply Rmult_le_compat_r.
    - apply Rmult_le_pos; [lra|left; now apply Rinv_0_lt_compat].
    - unfold g. assert (0 <= IZR w * u) by (apply Rmult_le_pos; lra). lra. }
  exists (map (fun v => fdiv f v s) d). unfold K. rewrite normalize_loop by auto. rewrite P5, P2, P8 in *.
  cbn [k_data K] in Es. rewrite Es. split; auto.
  split; [unfold zlen in *; now rewrite map_length|]. split.
  - intros i v Hv. exists (fdiv f v s). split; [|apply Q; eapply znth_In; eauto].
    unfold znth in *. destruct (i <? 0)%Z; [discriminate|]. exact (map_nth_error (fun c => fdiv f c s) _ _ Hv).
  - assert (Sum : forall l, (forall c, In c l -> In c d) ->
       Rabs (total (map (fun v => fdiv f v s) l) - total l / total d) <= 2 * (IZR w + 1) * u * (total l / total d) + IZR (zlen l) * t).
    { unfold total. induction l as [|c l IH]; intros Hl.
      - cbn [map]. rewrite rsum_nil. change (zlen []) with 0%Z. unfold Rdiv. rewrite Rmult_0_l, Rminus_0_r, Rabs_R0. lra.
      - cbn [map]. rewrite !rsum_cons. destruct (Q c (Hl c (or_introl eq_refl))) as (_ & _ & Qc).
        specialize (IH (fun x Hx => Hl x (or_intror Hx))). fold (total d) in *.
        set (tl := rsum (map val (map (fun v => fdiv f v s) l))) in *. set (sl := rsum (map val l)) in *.
        replace (zlen (c :: l)) with (zlen l + 1)%Z by (unfold zlen; cbn [length]; lia). rewrite plus_IZR.
        replace (val (fdiv f c s) + tl - (val c + sl) / total d) with
          ((val (fdiv f c s) - val c / total d) + (tl - sl / total d)) by (field; lra).
        eapply Rle_trans; [apply Rabs_triang|]. unfold Rdiv in *. lra. }
    specialize (Sum d (fun c H => H)). rewrite L in Sum.
    replace (total d / total d) with 1 in Sum by (field; lra). rewrite Rmult_1_r in Sum. exact Sum.
Qed.

(** ** mean1D *)
Lemma ones_sum k : (Z.of_nat k <= 2 ^ f_prec f)%Z -> (0 < k)%nat ->
  fold_left (fadd f) (repeat (float_of_Z f 1) k) (S754_zero false) = float_of_Z f (Z.of_nat k).
Proof.
  assert (P : (2 <= 2 ^ f_prec f)%Z) by (destruct St as [->| ->]; vm_compute; congruence).
  destruct (float_of_Z_exact f W 1 ltac:(lia)) as [F1 V1].
  intros H K. destruct k as [|k]; [lia|]. clear K.
  assert (E0 : fadd f (S754_zero false) (float_of_Z f 1) = float_of_Z f 1).
  { destruct St as [->| ->]; reflexivity. }
  cbn [repeat fold_left]. rewrite E0.
  assert (G : forall j i, (1 <= i)%Z -> (i + Z.of_nat j <= 2 ^ f_prec f)%Z ->
     fold_left (fadd f) (repeat (float_of_Z f 1) j) (float_of_Z f i) = float_of_Z f (i + Z.of_nat j)).
  { induction j as [|j IH]; intros i Hi Hj; cbn [repeat fold_left].
    - now rewrite Z.add_0_r.
    - destruct (float_of_Z_exact f W i ltac:(lia)) as [Fi Vi]. destruct (float_of_Z_exact f W (i + 1) ltac:(lia)) as [Fj Vj].
      destruct (int_exact f W (i + 1) ltac:(lia)) as [I1 I2].
      assert (Es : fadd f (float_of_Z f i) (float_of_Z f 1) = float_of_Z f (i + 1)).
      { destruct (fadd_fin f W _ _ Fi F1) as [A1 A2]; rewrite Vi, V1, <- plus_IZR in *; auto.
        apply (val_inj f); auto.
        - now rewrite A2, I1, Vj.
        - rewrite A2, I1. apply not_0_IZR. lia. }
      rewrite Es, IH by lia. f_equal. lia. }
  rewrite G by lia. f_equal. lia.
Qed.

Lemma mean_fine w : (0 < w <= 2 ^ f_prec f)%Z ->
  mean1D O w = Ok (mkKernel w (w / 2) (table w (fun _ => mean_coefficient f w))) /\
  nearest_float f (/ IZR w) (mean_coefficient f w).
Proof.
  intros Hw. destruct (ops_parts f O Ho) as (P1 & P2 & _ & _ & P5 & _ & _ & P8).
  assert (P : (2 <= 2 ^ f_prec f)%Z) by (destruct St as [->| ->]; vm_compute; congruence).
  destruct (float_of_Z_exact f W 1 ltac:(lia)) as [F1 V1]. destruct (float_of_Z_exact f W w ltac:(lia)) as [Fw Vw].
  split.
  - unfold mean1D, table1D, kernel1_width, kernel1_new.
    assert (w / 2 < w)%Z by (apply Z.div_lt; lia). replace (w <=? w / 2)%Z with false by lia. cbn [bind].
    rewrite (fill_all _ (fun _ => d_of O 1)).
    + cbn [bind]. rewrite normalize_loop by (apply table_zlen; lia). rewrite P2, P5, P8, P1, <- table_repeat.
      rewrite ones_sum by lia. rewrite Z2Nat.id by lia. rewrite table_repeat, table_map. reflexivity.
    + rewrite zlen_repeat. lia.
    + intros i e Hi Le _. apply put_in. lia.
  - unfold mean_coefficient. assert (0 < IZR w) by (apply (IZR_lt 0); lia).
    assert (Q : 0 <= 1 / IZR w <= 1).
    { split; [apply Rmult_le_pos; [lra|left; now apply Rinv_0_lt_compat]|].
      apply Rmult_le_reg_r with (IZR w); auto. replace (1 / IZR w * IZR w) with 1 by (field; lra).
      rewrite Rmult_1_l. apply (IZR_le 1). lia. }
    destruct (int_exact f W 1 ltac:(lia)) as [I1 I2]. cbn in I1, I2.
    destruct (fdiv_fin f W _ _ F1 Fw) as [D1 D2]; [lra| |].
    { rewrite V1, Vw. eapply Rle_lt_trans; [|exact I2]. rewrite !(rnd_abs f W). apply (rnd_le f W). rewrite !Rabs_pos_eq; lra. }
    split; auto. intros y Fy. rewrite D2, V1, Vw. replace (1 / IZR w) with (/ IZR w) by (field; lra).
    apply (rnd_nearest f St). now apply finite_fmt.
Qed.

(** From the largest run of integers on, adding one changes nothing. *)
Lemma ones_stuck k : fold_left (fadd f) (repeat (float_of_Z f 1) k) (float_of_Z f (2 ^ f_prec f)) = float_of_Z f (2 ^ f_prec f).
Proof.
  induction k as [|k IH]; cbn [repeat fold_left]; auto.
  assert (E : fadd f (float_of_Z f (2 ^ f_prec f)) (float_of_Z f 1) = float_of_Z f (2 ^ f_prec f)) by (destruct St as [->| ->]; vm_compute; reflexivity).
  now rewrite E.
Qed.

Lemma mean_large w : (2 ^ f_prec f <= w)%Z ->
  mean1D O w = Ok (mkKernel w (w / 2) (table w (fun _ => mean_coefficient f (2 ^ f_prec f)))) /\
  val (mean_coefficient f (2 ^ f_prec f)) = / IZR (2 ^ f_prec f).
Proof.
  intros Hw. destruct (ops_parts f O Ho) as (P1 & P2 & _ & _ & P5 & _ & _ & P8).
  assert (P : (2 <= 2 ^ f_prec f)%Z) by (destruct St as [->| ->]; vm_compute; congruence).
  split.
  - unfold mean1D, table1D, kernel1_width, kernel1_new.
    assert (w / 2 < w)%Z by (apply Z.div_lt; lia). replace (w <=? w / 2)%Z with false by lia. cbn [bind].
    rewrite (fill_all _ (fun _ => d_of O 1)).
    + cbn [bind]. rewrite normalize_loop by (apply table_zlen; lia). rewrite P2, P5, P8, P1, <- table_repeat.
      assert (Es : fold_left (fadd f) (repeat (float_of_Z f 1) (Z.to_nat w)) (S754_zero false) = float_of_Z f (2 ^ f_prec f)).
      { replace (Z.to_nat w) with (Z.to_nat (2 ^ f_prec f) + Z.to_nat (w - 2 ^ f_prec f))%nat by lia.
        rewrite repeat_app, fold_left_app, ones_sum by lia. rewrite Z2Nat.id by lia. apply ones_stuck. }
      rewrite Es.
      rewrite table_repeat, table_map. reflexivity.
    + rewrite zlen_repeat. lia.
    + intros i e Hi Le _. apply put_in. lia.
  - unfold mean_coefficient. destruct St as [->| ->]; vm_compute; lra.
Qed.

(** ** gaussian1D *)
Lemma gaussian_fine (D : dops spec_float) (narrow ex : spec_float -> spec_float) ce sigma width sg w :
  gaussian_size D ce sigma width = Ok (sg, w) -> (0 < w <= 1048576)%Z ->
  let adjust := if (w mod 2 =? 1)%Z then d_of D 0 else d_half D in
  let samples := table w (fun i => narrow (computePDF D ex (d_of D 0) sg (d_add D (d_of D (i - w / 2)) adjust))) in
  smoothing f samples ->
  exists d, gaussian1D D O narrow ex ce sigma width = Ok (mkKernel w (w / 2) d) /\ zlen d = w /\
    (forall i v, znth samples i = Some v -> exists v', znth d i = Some v' /\ finite f v' /\ 0 <= val v' /\
       Rabs (val v' - val v / total samples) <= 2 * (IZR w + 1) * u * (val v / total samples) + t) /\
    Rabs (total d - 1) <= 2 * (IZR w + 1) * u + IZR w * t.
Proof.
  intros Eg Hw adjust samples Hs.
  destruct (normalize_fine w (w / 2) samples Hw) as (d & E & Ld & Hd & Ht); auto.
  { unfold samples. apply table_zlen. lia. }
  exists d. split; [|auto]. unfold gaussian1D. rewrite Eg. cbn [bind]. unfold kernel1_width, kernel1_new.
  assert (w / 2 < w)%Z by (apply Z.div_lt; lia). replace (w <=? w / 2)%Z with false by lia. cbn [bind].
  rewrite (fill_all _ (fun i => narrow (computePDF D ex (d_of D 0) sg (d_add D (d_of D (i - w / 2)) adjust)))).
  - cbn [bind]. exact E.
  - rewrite zlen_repeat. lia.
  - intros i e Hi Le _. apply put_in. lia.
Qed.
End O.

(** ** Symmetry of gaussian1D *)
Section G.
Let W : wfty F64 := standard_wfty F64 (or_intror eq_refl).

Lemma bpow_fmt e : (-1000 <= e <= 1000)%Z -> fmt F64 (bpow radix2 e).
Proof.
  intros H. apply generic_format_bpow. unfold SpecFloat.fexp, SpecFloat.emin. change (f_prec F64) with 53%Z. change (f_emax F64) with 1024%Z. lia.
Qed.
Lemma b_half : bpow radix2 (-1) = / 2. Proof. reflexivity. Qed.
Lemma b_quarter : bpow radix2 (-2) = / 4. Proof. reflexivity. Qed.
Lemma huge64 e : (e <= 1000)%Z -> bpow radix2 e < huge F64.
Proof. intros H. unfold huge. apply bpow_lt. change (f_emax F64) with 1024%Z. lia. Qed.

(** The sample position: [k] or [k+1/2]. *)
Definition shift (odd : bool) : R := if odd then 0 else / 2.
Lemma shift_ok (odd : bool) : exists a, (if odd then d_of double 0 else d_half double) = a /\ finite F64 a /\ val a = shift odd.
Proof.
  eexists. split; [reflexivity|]. destruct odd; cbn [shift].
  - apply (float_of_Z_exact F64 W 0). vm_compute. congruence.
  - destruct (float_of_Z_exact F64 W 1) as [F1 V1]; [vm_compute; congruence|].
    destruct (float_of_Z_exact F64 W 2) as [F2 V2]; [vm_compute; congruence|].
    assert (E : rnd F64 (1 / 2) = / 2).
    { replace (1 / 2) with (bpow radix2 (-1)) by (rewrite b_half; lra). rewrite rnd_id; [apply b_half|]. apply bpow_fmt. lia. }
    change (d_half double) with (fdiv F64 (float_of_Z F64 1) (float_of_Z F64 2)).
    destruct (fdiv_fin F64 W _ _ F1 F2) as [G1 G2]; rewrite ?V1, ?V2 in *; [lra| |].
    + rewrite E, Rabs_pos_eq by lra. pose proof (huge64 0 ltac:(lia)) as H. change (bpow radix2 0) with 1 in H. lra.
    + split; auto. now rewrite G2.
Qed.

Definition place (odd : bool) (k : Z) : spec_float :=
  d_sub double (d_add double (d_of double k) (if odd then d_of double 0 else d_half double)) (d_of double 0).
Lemma place_ok odd k : (Z.abs k <= 2147483648)%Z -> finite F64 (place odd k) /\ val (place odd k) = rnd F64 (IZR k + shift odd) /\
  Rabs (val (place odd k)) <= bpow radix2 32 /\ (IZR k + shift odd <> 0 -> / 2 <= Rabs (val (place odd k))).
Proof.
  intros H. unfold place. destruct (shift_ok odd) as (a & -> & Fa & Va).
  destruct (float_of_Z_exact F64 W k) as [Fk Vk]; [change (2 ^ f_prec F64)%Z with 9007199254740992%Z; lia|].
  assert (Hs : 0 <= shift odd <= / 2) by (destruct odd; cbn; lra).
  assert (Hk : Rabs (IZR k) <= 2147483648) by (rewrite <- abs_IZR; now apply (IZR_le _ 2147483648)).
  assert (B : Rabs (IZR k + shift odd) <= bpow radix2 32).
  { eapply Rle_trans; [apply Rabs_triang|]. rewrite (Rabs_pos_eq (shift odd)) by lra. change (bpow radix2 32) with 4294967296. lra. }
  assert (B2 : Rabs (rnd F64 (IZR k + shift odd)) <= bpow radix2 32).
  { rewrite (rnd_abs F64 W). rewrite <- (rnd_id F64 (bpow radix2 32)) by (apply bpow_fmt; lia). now apply (rnd_le F64 W). }
  destruct (fadd_fin F64 W _ _ Fk Fa) as [G1 G2]; rewrite ?Vk, ?Va in *.
  { eapply Rle_lt_trans; [exact B2|apply huge64; lia]. }
  change (d_add double (d_of double k) a) with (fadd F64 (float_of_Z F64 k) a). set (s := fadd F64 (float_of_Z F64 k) a) in *.
  destruct (float_of_Z_exact F64 W 0) as [F0 V0]; [vm_compute; congruence|].
  assert (E0 : rnd F64 (val s - val (float_of_Z F64 0)) = val s).
  { rewrite V0, Rminus_0_r. apply rnd_id. now apply finite_fmt. }
  destruct (fsub_fin F64 W _ _ G1 F0) as [H1 H2]; [rewrite E0, G2; eapply Rle_lt_trans; [exact B2|apply huge64; lia]|].
  change (d_sub double s (d_of double 0)) with (fsub F64 s (float_of_Z F64 0)). rewrite E0 in H2. split; auto. rewrite H2, G2. split; auto. split; auto.
  intros N. rewrite (rnd_abs F64 W). replace (/ 2) with (rnd F64 (bpow radix2 (-1))) by (rewrite rnd_id; [apply b_half|apply bpow_fmt; lia]).
  apply (rnd_le F64 W). rewrite b_half.
  clear - N. destruct odd; cbn [shift] in *.
  - rewrite Rplus_0_r in *. rewrite <- abs_IZR. assert (k <> 0)%Z by (intros ->; apply N; reflexivity).
    apply Rle_trans with 1; [lra|]. apply (IZR_le 1). lia.
  - destruct (Z_le_gt_dec 0 k) as [L|L].
    + apply (IZR_le 0) in L. rewrite Rabs_pos_eq; lra.
    + assert (L2 : (k <= -1)%Z) by lia. apply (IZR_le _ (-1)) in L2. rewrite Rabs_left1; lra.
Qed.

Lemma square_sym x y : finite F64 x -> finite F64 y -> val y = - val x -> / 2 <= Rabs (val x) <= bpow radix2 32 ->
  fmul F64 (fmul F64 (float_of_Z F64 (-1)) x) x = fmul F64 (fmul F64 (float_of_Z F64 (-1)) y) y.
Proof.
  intros Fx Fy V B. destruct (float_of_Z_exact F64 W (-1)) as [F1 V1]; [vm_compute; congruence|].
  assert (N : forall z, finite F64 z -> finite F64 (fmul F64 (float_of_Z F64 (-1)) z) /\ val (fmul F64 (float_of_Z F64 (-1)) z) = - val z).
  { intros z Fz. assert (E : rnd F64 (val (float_of_Z F64 (-1)) * val z) = - val z).
    { rewrite V1. replace (-1 * val z) with (- val z) by lra. rewrite (rnd_opp F64), rnd_id; auto. now apply finite_fmt. }
    destruct (fmul_fin F64 W _ _ F1 Fz) as [G1 G2]; [rewrite E, Rabs_Ropp; now apply finite_lt|]. now rewrite G2, E. }
  destruct (N x Fx) as [X1 X2]. destruct (N y Fy) as [Y1 Y2].
  assert (Ep : Rabs (- val x * val x) = Rabs (val x) * Rabs (val x)) by (rewrite Rabs_mult, Rabs_Ropp; auto).
  assert (P1 : / 4 <= Rabs (val x) * Rabs (val x)).
  { replace (/ 4) with (/ 2 * / 2) by lra. apply Rmult_le_compat; lra. }
  assert (P2 : Rabs (val x) * Rabs (val x) <= bpow radix2 64).
  { replace (bpow radix2 64) with (bpow radix2 32 * bpow radix2 32) by (rewrite <- bpow_plus; reflexivity).
    assert (0 <= Rabs (val x)) by apply Rabs_pos. apply Rmult_le_compat; lra. }
  assert (Q : Rabs (rnd F64 (- val x * val x)) < huge F64).
  { rewrite (rnd_abs F64 W), Ep. apply Rle_lt_trans with (bpow radix2 64); [|apply huge64; lia].
    rewrite <- (rnd_id F64 (bpow radix2 64)) by (apply bpow_fmt; lia). now apply (rnd_le F64 W). }
  destruct (fmul_fin F64 W _ _ X1 Fx) as [A1 A2]; [rewrite X2; exact Q|].
  assert (Es : - val y * val y = - val x * val x) by (rewrite V; ring).
  destruct (fmul_fin F64 W _ _ Y1 Fy) as [B1 B2]; [rewrite Y2, Es; exact Q|].
  apply (val_inj F64); auto.
  - now rewrite A2, B2, X2, Y2, Es.
  - rewrite A2, X2. intros Z0. assert (Z1 : Rabs (rnd F64 (- val x * val x)) = 0) by (rewrite Z0; apply Rabs_R0).
    rewrite (rnd_abs F64 W), Ep in Z1.
    assert (bpow radix2 (-2) <= rnd F64 (Rabs (val x) * Rabs (val x))).
    { rewrite <- (rnd_id F64 (bpow radix2 (-2))) by (apply bpow_fmt; lia). apply (rnd_le F64 W). rewrite b_quarter. auto. }
    pose proof (bpow_gt_0 radix2 (-2)). lra.
Qed.

Lemma pdf_sym ex sg (odd : bool) k k' : (Z.abs k <= 2147483648)%Z -> (Z.abs k' <= 2147483648)%Z ->
  IZR k' + shift odd = - (IZR k + shift odd) ->
  let adjust := if odd then d_of double 0 else d_half double in
  computePDF double ex (d_of double 0) sg (d_add double (d_of double k) adjust) =
  computePDF double ex (d_of double 0) sg (d_add double (d_of double k') adjust).
Proof.
  intros H H' E adjust. destruct (Req_dec (IZR k + shift odd) 0) as [Z0|N].
  { assert (k = k') as -> by (apply eq_IZR; lra). reflexivity. }
  destruct (place_ok odd k H) as (F1 & V1 & B1 & C1). destruct (place_ok odd k' H') as (F2 & V2 & _).
  assert (Q : d_mul double (d_mul double (d_of double (-1)) (place odd k)) (place odd k) =
              d_mul double (d_mul double (d_of double (-1)) (place odd k')) (place odd k')).
  { apply square_sym; auto. rewrite V1, V2, E. apply (rnd_opp F64). }
  unfold place in Q. fold adjust in Q. unfold computePDF. now rewrite Q.
Qed.

Lemma gaussian_sym {E} (OE : dops E) narrow ex ce sigma width K : (width <= 2147483647)%Z ->
  gaussian1D double OE narrow ex ce sigma width = Ok K ->
  forall i, znth (k_data K) i = znth (k_data K) (k_width K - 1 - i).
Proof.
  intros Hw H. unfold gaussian1D in H. destruct (gaussian_size double ce sigma width) as [[sg w]| | |] eqn:Eg; try discriminate. cbn [bind] in H.
  assert (Bw : (w <= 2147483647)%Z).
  { unfold gaussian_size in Eg. destruct (width <=? 0)%Z eqn:E1.
    - destruct (radiusForSigma double ce sigma 0) as [r| | |]; try discriminate. cbn [bind] in Eg. unfold arith_result in Eg.
      destruct (_ && _)%bool eqn:E2 in Eg; try discriminate. cbn in Eg. injection Eg as _ <-.
      apply andb_prop in E2. destruct E2 as [_ E2]. apply Z.leb_le in E2. exact E2.
    - destruct (d_le double sigma (d_of double 0)).
      + destruct (sigmaForRadius _ _ _) as [s| | |]; try discriminate. cbn [bind] in Eg. injection Eg as _ <-. exact Hw.
      + injection Eg as _ <-. exact Hw. }
  unfold kernel1_width, kernel1_new in H. destruct (w <=? w / 2)%Z eqn:E1; [discriminate|]. apply Z.leb_gt in E1.
  assert (W0 : (0 < w)%Z) by (pose proof (Z.div_mod w 2); pose proof (Z.mod_pos_bound w 2); lia).
  cbn [bind] in H. set (adjust := if (w mod 2 =? 1)%Z then d_of double 0 else d_half double) in *.
  rewrite (fill_all _ (fun i => narrow (computePDF double ex (d_of double 0) sg (d_add double (d_of double (i - w / 2)) adjust)))) in H.
  2: { rewrite zlen_repeat. lia. }
  2: { intros i e Hi Le _. apply put_in. lia. }
  cbn [bind] in H. rewrite normalize_loop in H by (apply table_zlen; lia). rewrite table_map in H. injection H as <-. cbn [k_data k_width].
  intros i. destruct (Z_le_dec 0 i) as [L1|L1]; [destruct (Z_lt_dec i w) as [L2|L2]|].
  - rewrite !table_znth by lia. do 3 f_equal. unfold adjust.
    assert (B1 : (0 <= w / 2 <= w)%Z) by (split; [apply Z.div_pos; lia|lia]).
    apply (pdf_sym ex sg (w mod 2 =? 1)%Z); [lia|lia|].
    pose proof (Z.div_mod w 2 ltac:(lia)) as Dm. destruct (Z.eqb_spec (w mod 2) 1) as [M|M]; cbn [shift].
    + rewrite !Rplus_0_r, <- opp_IZR. f_equal. lia.
    + assert (M0 : (w mod 2 = 0)%Z) by (pose proof (Z.mod_pos_bound w 2); lia).
      replace (w - 1 - i - w / 2)%Z with (- (i - w / 2) - 1)%Z by lia. rewrite minus_IZR, opp_IZR. lra.
  - rewrite !table_out by lia. reflexivity.
  - rewrite !table_out by lia. reflexivity.
Qed.
End G.

Lemma rsum_same n (v : R) : rsum (repeat v n) = INR n * v.
Proof. induction n as [|n IH]; [cbn; lra|]. cbn [repeat]. rewrite rsum_cons, IH, S_INR. ring. Qed.
Lemma total_same w v : (0 <= w)%Z -> total (table w (fun _ => v)) = IZR w * val v.
Proof.
  intros H. unfold total. rewrite table_map, <- table_repeat, rsum_same, INR_IZR_INZ, Z2Nat.id by auto. reflexivity.
Qed.
Lemma mean_saturates f O w : ops_of f O -> (2 ^ f_prec f <= w)%Z ->
  exists d, mean1D O w = Ok (mkKernel w (w / 2) d) /\ total d = IZR w / IZR (2 ^ f_prec f).
Proof.
  intros Ho H. destruct (mean_large f O Ho w H) as [E V]. eexists. split; [exact E|].
  assert (0 <= 2 ^ f_prec f)%Z by (apply Z.pow_nonneg; lia). rewrite total_same, V by lia. reflexivity.
Qed.

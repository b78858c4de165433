(** The sliding window of the mean filter for any arithmetic. *)
From Verif Require Import BaseFacts M_Image S_Image L_Image M_Convolve S_Convolve L_Convolve L_Convolve2 M_Normalized S_Normalized
  L_Normalized L_Window M_Blur L_Blur.

Section Gen.
Context {E S : Type}.
Variables (A : marith E S) (r : Z) (g o : gray E).
Notation kw := (2 * r + 1).
Notation n := (Z.to_nat (2 * r + 1)).
Hypothesis Hr : 0 <= r.
Hypothesis Hkw : kw <= 1073741824.
Hypothesis Hg : wf g.
Hypothesis Ho : wf o.
Hypothesis Ew : g_width o = g_width g.
Hypothesis Eh : g_height o = g_height g.
Hypothesis Sw : 0 < g_width g <= 1073741824.
Hypothesis Sh : 0 < g_height g <= 1073741824.
Variable Q : Z -> Z -> E.
Hypothesis HQ : forall x y, inside g x y -> pixel g x y = Some (Q x y).

Lemma gen_px x y : inside g x y -> bget (g_data g) (pos g x y) = Ok (Q x y).
Proof. intros Hi. destruct (px_some g Hg x y Hi) as (v & V1 & V2 & V3). rewrite HQ in V1 by auto. congruence. Qed.
Lemma gen_kw : u32 (r * 2 + 1) = kw.
Proof. rewrite u32_id; lia. Qed.

(** Sum of the first window along a line of samples [q]. *)
Definition first_sum (q : Z -> E) : outcome S := for_range 0 kw (fun j s => m_add A s (q j)) (m_zero A).

Variables (T : Z -> Z -> S) (V : Z -> Z -> E).

Lemma gen_inner_h d : zlen d = zlen (g_data o) -> kw <= g_width g ->
  (forall y, 0 <= y < g_height g -> first_sum (fun j => Q j y) = Ok (T 0 y)) ->
  (forall x y, 0 <= x -> x + kw < g_width g -> 0 <= y < g_height g ->
     (let* s := m_sub A (T x y) (Q x y) in m_add A s (Q (x + kw) y)) = Ok (T (x + 1) y)) ->
  (forall x y, 0 <= x -> x + kw <= g_width g -> 0 <= y < g_height g -> m_out A kw (T x y) = Ok (V (x + r) y)) ->
  exists d', mean_inner_h A r g o d = Ok d' /\ zlen d' = zlen (g_data o) /\
    writes d (win o (fun x y => Some (V x y)) (fun x y => r <= x < g_width g - r)) d'.
Proof.
  intros L Hw H1 H2 H3. unfold mean_inner_h. cbn zeta. rewrite gen_kw.
  match goal with |- context [for_range _ _ ?f d] =>
    destruct (win_loop o (fun x y => Some (V x y)) (fun y x' y' => y' = y /\ r <= x' < g_width g - r) 0 (g_height g) f d L)
      as (d' & Ed & L' & W) end.
  - intros y d0 Hy L0.
    assert (I0 : inside g 0 y) by (split; lia). assert (I9 : inside g (g_width g - 1) y) by (split; lia).
    pose proof (wf_index _ _ _ Hg I0) as X0. pose proof (wf_pos _ _ _ Hg I0) as B0. pose proof (wf_pos _ _ _ Hg I9) as B9.
    assert (ZL : zlen (g_data g) < 4294967296) by (unfold wf in Hg; lia).
    assert (J0 : inside o r y) by (split; lia).
    pose proof (wf_index _ _ _ Ho J0) as Y0.
    unfold gray_index in X0, Y0. rewrite Z.add_0_r in X0. rewrite (Z.mul_comm (g_stride g)), (Z.mul_comm (g_stride o)), X0, Y0.
    unfold pos in X0, B0, B9 |- *. rewrite Z.add_0_r.
    set (p := g_offset g + y * g_stride g) in *. assert (Ep : p = g_offset g + y * g_stride g) by reflexivity. clearbody p.
    rewrite (u32_id (p + kw)) by lia.
    assert (PX : forall x, 0 <= x < g_width g -> bget (g_data g) (p + x) = Ok (Q x y)).
    { intros x Hx. pose proof (gen_px x y) as P. unfold pos in P. rewrite <- Ep in P. apply P. split; lia. }
    assert (FIRST : for_range p (p + kw) (fun i s => let* q := bget (g_data g) i in m_add A s q) (m_zero A) = Ok (T 0 y)).
    { replace (for_range p) with (for_range (S := S) (0 + p)) by (f_equal; lia). rewrite (Z.add_comm p kw), for_range_shift.
      rewrite <- (H1 y Hy). unfold first_sum. apply for_range_ext. intros j s Hj. rewrite Z.add_comm, PX by lia. reflexivity. }
    rewrite FIRST. cbn [bind].
    rewrite (H3 0 y) by lia. cbn [bind]. rewrite Z.add_0_l.
    destruct (bset_exists d0 (g_offset o + y * g_stride o + r) (V r y)) as (d1 & E1 & L1 & _).
    { rewrite L0. apply (wf_pos _ _ _ Ho J0). }
    rewrite E1. cbn [bind].
    assert (W1 : writes d0 (win o (fun x y => Some (V x y)) (fun x' y' => x' = r /\ y' = y)) d1).
    { eapply win_put; [reflexivity|exact J0|]. exact E1. }
    rewrite Z.max_r by lia. replace (p + kw - kw) with p by lia. rewrite (u32_id p) by lia.
    rewrite (u32_id (g_width g - kw)) by lia.
    replace (for_range 0 (g_width g - kw)) with (for_range (S := S * list E) (r + 1 + - (r + 1)) (g_width g - r + - (r + 1))) by (f_equal; lia).
    rewrite for_range_shift.
    match goal with |- context [for_range _ _ ?f (_, d1)] =>
      destruct (win_state_row o (fun x y => Some (V x y)) Ho (fun x s => s = T (x - r - 1) y) y (r + 1) (g_width g - r) f
        (T 0 y) d1) as (s' & d' & E' & _ & L' & W'); try lia end.
    { f_equal. lia. }
    { intros x s d2 Hx -> L2. split; [split; lia|]. exists (V x y), (T (x - r) y). split; auto.
      split; [f_equal; lia|]. cbn [fst snd].
      replace (p + (x + - (r + 1))) with (p + (x - r - 1)) by lia. rewrite PX by lia. cbn [bind].
      replace (p + kw + (x + - (r + 1))) with (p + (x + r)) by lia. rewrite PX by lia.
      pose proof (H2 (x - r - 1) y ltac:(lia) ltac:(lia) Hy) as SL.
      replace (x - r - 1 + kw) with (x + r) in SL by lia.
      replace (x - r - 1 + 1) with (x - r) in SL by lia.
      destruct (m_sub A (T (x - r - 1) y) (Q (x - r - 1) y)) as [q| | |] eqn:Eq; try discriminate. cbn [bind] in SL |- *.
      rewrite SL. cbn [bind]. rewrite H3 by lia. cbn [bind]. replace (x - r + r) with x by lia.
      replace (g_offset o + y * g_stride o + r + 1 + (x + - (r + 1))) with (pos o x y) by (unfold pos; lia). reflexivity. }
    rewrite E'. cbn [bind snd]. exists d'; split; auto. eapply win_iff; [|eapply win_seq; [exact W1|exact W']].
    intros x' y' [I3 I4]. cbn beta. lia.
  - exists d'. split; auto. split; auto. eapply win_iff; [|exact W]. intros x y [I1 I2]; split.
    + intros (i & Hi & -> & Hx); auto.
    + intros Hx. exists y. lia.
Qed.

(** [T x y]: window of column [x] that starts in row [y]. *)
Lemma gen_inner_v d : zlen d = zlen (g_data o) -> kw <= g_height g ->
  g_offset g + g_width g + g_height g * g_stride g <= 4294967296 ->
  (forall x, 0 <= x < g_width g -> first_sum (fun j => Q x j) = Ok (T x 0)) ->
  (forall x y, 0 <= x < g_width g -> 0 <= y -> y + kw < g_height g ->
     (let* s := m_sub A (T x y) (Q x y) in m_add A s (Q x (y + kw))) = Ok (T x (y + 1))) ->
  (forall x y, 0 <= x < g_width g -> 0 <= y -> y + kw <= g_height g -> m_out A kw (T x y) = Ok (V x (y + r))) ->
  exists d', mean_inner_v A r g o d = Ok d' /\ zlen d' = zlen (g_data o) /\
    writes d (win o (fun x y => Some (V x y)) (fun x y => r <= y < g_height g - r)) d'.
Proof.
  intros L Hw HB H1 H2 H3. unfold mean_inner_v. cbn zeta. rewrite gen_kw.
  replace (g_width g =? 0) with false by lia.
  assert (PX : forall x y, 0 <= x < g_width g -> 0 <= y < g_height g ->
     bget (g_data g) (g_offset g + y * g_stride g + x) = Ok (Q x y)).
  { intros x y Hx Hy. apply (gen_px x y). split; lia. }
  assert (Wg := Hg). unfold wf in Wg. assert (Wo := Ho). unfold wf in Wo.
  assert (MS : forall m, 0 <= m <= g_height g -> 0 <= m * g_stride g <= g_height g * g_stride g).
  { intros m Hm. split; [apply Z.mul_nonneg_nonneg; lia|apply Z.mul_le_mono_nonneg_r; lia]. }
  set (Tot y m (L : list S) := zlen L = g_width g /\ forall x, 0 <= x < m -> znth L x = Some (T x y)).
  match goal with |- context [for_range 0 (g_width g) ?f (?T0, d)] =>
    destruct (win_state_row o (fun x y => Some (V x y)) Ho (Tot 0) r 0 (g_width g) f T0 d) as (T1 & d1 & E1 & I1 & L1 & W1); try lia end.
  { split; [unfold zlen; rewrite repeat_length; lia|intros; lia]. }
  { intros x T0 d2 Hx [LT HT] L2. split; [split; lia|]. exists (V x r). cbn [fst snd].
    pose proof (MS kw ltac:(lia)) as MK. rewrite Z.mul_comm in MK.
    rewrite (u32_id (g_offset g + x)) by lia. rewrite (u32_id (g_offset g + x + g_stride g * kw)) by lia.
    assert (FIRST : for_step n (g_offset g + x) (g_offset g + x + g_stride g * kw) (g_stride g)
        (fun i s => let* p := bget (g_data g) i in m_add A s p) (m_zero A) = Ok (T x 0)).
    { pose proof (fun b => for_step_exact (S := S) b n (g_offset g + x) (g_stride g)) as X.
      replace (Z.of_nat n) with kw in X by lia.
      rewrite X by lia. clear X. rewrite <- (H1 x Hx). unfold first_sum. apply for_range_ext. intros j s Hj.
      replace (g_offset g + x + j * g_stride g) with (g_offset g + j * g_stride g + x) by lia.
      rewrite PX by lia. reflexivity. }
    rewrite FIRST. cbn [bind].
    destruct (bset_exists T0 x (T x 0)) as (T' & ET & LT' & GT); [lia|]. rewrite ET. cbn [bind].
    rewrite H3 by lia. cbn [bind]. rewrite Z.add_0_l. exists T'. split; auto. split.
    { split; [lia|]. intros x' Hx'. rewrite GT. destruct (Z.eqb_spec x' x) as [->|]; auto. apply HT. lia. }
    rewrite (Z.mul_comm (g_stride o) r).
    assert (J0 : inside o x r) by (split; lia). pose proof (wf_index _ _ _ Ho J0) as Y0. unfold gray_index in Y0. rewrite Y0. reflexivity. }
  rewrite E1. cbn [bind].
  rewrite (u32_id (r + 1)) by lia. rewrite (u32_id (g_height o - r)) by lia.
  match goal with |- context [for_range (r + 1) _ ?f (T1, d1)] =>
    destruct (win_state_loop o (fun x y => Some (V x y)) (fun y x' y' => y' = y /\ 0 <= x' < g_width g)
      (fun y => Tot (y - r - 1) (g_width g)) (r + 1) (g_height o - r) f T1 d1) as (T2 & d2 & E2 & I2 & L2 & W2); try lia end.
  { now replace (r + 1 - r - 1) with 0 by lia. }
  { intros y T0 d3 Hy HT L3.
    assert (BK : u32 (g_offset g + (y + r) * g_stride g) = g_offset g + (y + r) * g_stride g)
      by (pose proof (MS (y + r) ltac:(lia)); apply u32_id; lia).
    rewrite BK.
    assert (FR : u32 (g_offset g + (y + r) * g_stride g - u32 (kw * g_stride g)) = g_offset g + (y - r - 1) * g_stride g).
    { pose proof (MS kw ltac:(lia)). rewrite (u32_id (kw * g_stride g)) by lia. pose proof (MS (y - r - 1) ltac:(lia)).
      replace (g_offset g + (y + r) * g_stride g - kw * g_stride g) with (g_offset g + (y - r - 1) * g_stride g) by lia.
      apply u32_id. lia. }
    rewrite FR.
    assert (OUT : forall x, 0 <= x < g_width g -> u32 (g_offset o + y * g_stride o) + x = pos o x y).
    { intros x Hx. rewrite u32_id; [reflexivity|]. assert (J : inside o x y) by (split; lia). pose proof (wf_pos _ _ _ Ho J) as B. unfold pos in B.
      assert (0 <= y * g_stride o) by (apply Z.mul_nonneg_nonneg; lia). lia. }
    match goal with |- context [for_range 0 (g_width g) ?f (T0, d3)] =>
      destruct (win_state_row o (fun x y => Some (V x y)) Ho (fun m T0 => zlen T0 = g_width g /\
         (forall x, 0 <= x < m -> znth T0 x = Some (T x (y - r))) /\
         (forall x, m <= x < g_width g -> znth T0 x = Some (T x (y - r - 1)))) y 0 (g_width g) f T0 d3)
         as (T4 & d4 & E4 & I4 & L4 & W4); try lia end.
    { destruct HT as [Q1 Q2]. split; auto. split; [intros; lia|auto]. }
    { intros x T' d5 Hx (LT & HT1 & HT2) L5. split; [split; lia|]. exists (V x y). cbn [fst snd].
      rewrite (proj2 (bget_Ok _ _ _) (HT2 x ltac:(lia))). cbn [bind].
      rewrite !PX by lia. cbn [bind].
      pose proof (H2 x (y - r - 1) Hx ltac:(lia) ltac:(lia)) as SL.
      replace (y - r - 1 + kw) with (y + r) in SL by lia.
      replace (y - r - 1 + 1) with (y - r) in SL by lia.
      destruct (m_sub A (T x (y - r - 1)) (Q x (y - r - 1))) as [q| | |] eqn:Eq; try discriminate. cbn [bind] in SL |- *.
      rewrite SL. cbn [bind].
      destruct (bset_exists T' x (T x (y - r))) as (T'' & ET & LT' & GT); [lia|]. rewrite ET. cbn [bind].
      rewrite H3 by lia. cbn [bind]. replace (y - r + r) with y by lia. exists T''. split; auto. split.
      { split; [lia|]. split; intros x' Hx'; rewrite GT; destruct (Z.eqb_spec x' x) as [->|]; auto; [apply HT1; lia|lia|apply HT2; lia]. }
      rewrite OUT by lia. reflexivity. }
    exists T4, d4. split; auto. split; auto. replace (y + 1 - r - 1) with (y - r) by lia. destruct I4 as (Q1 & Q2 & _). split; auto. }
  rewrite E2. cbn [bind snd]. exists d2. split; auto. split; auto.
  eapply win_iff; [|eapply win_seq; [exact W1|exact W2]].
  intros x y [I3 I4]. cbn beta. split.
  - intros [Hx|(i & Hi & -> & Hx)]; lia.
  - intros Hy. destruct (Z.eq_dec y r); [left; lia|]. right. exists y. lia.
Qed.
End Gen.

From Verif Require Import BaseFacts M_Image S_Image L_Image M_Border S_Border M_Convolve S_Convolve L_Window
  L_Convolve L_Convolve2 L_ConvolveInt M_Normalized S_Normalized L_Normalized L_NormalizedInt M_Blur S_Blur.

Lemma zsum_cons v l : zsum (v :: l) = v + zsum l.
Proof. reflexivity. Qed.
Lemma zsum_app l k : zsum (l ++ k) = zsum l + zsum k.
Proof. induction l; cbn [app]; rewrite ?zsum_cons; [cbn|]; lia. Qed.

Lemma present_zcovered n : forall px i,
  zcovered (repeat 1 n) px i = (zsum (present px i n), zlen (present px i n)).
Proof.
  induction n as [|n IH]; intros px i; cbn [repeat zcovered present]; [reflexivity|].
  rewrite IH. destruct (px i); auto. rewrite zsum_cons, zlen_cons. f_equal; lia.
Qed.
Lemma present_ext n : forall px px' i i', (forall j, 0 <= j < Z.of_nat n -> px (i + j) = px' (i' + j)) ->
  present px i n = present px' i' n.
Proof.
  induction n as [|n IH]; intros px px' i i' H; cbn [present]; auto.
  pose proof (H 0 ltac:(lia)) as H1. rewrite !Z.add_0_r in H1. rewrite H1.
  rewrite (IH px px' (i + 1) (i' + 1)); auto.
  intros j Hj. replace (i + 1 + j) with (i + (j + 1)) by lia. replace (i' + 1 + j) with (i' + (j + 1)) by lia. apply H; lia.
Qed.
Lemma present_len n : forall px i, 0 <= zlen (present px i n) <= Z.of_nat n.
Proof.
  induction n as [|n IH]; intros px i; cbn [present]; [zlen_nil; lia|]. specialize (IH px (i + 1)).
  destruct (px i); rewrite ?zlen_cons; lia.
Qed.
Lemma present_all n : forall px i, (forall j, 0 <= j < Z.of_nat n -> exists v, px (i + j) = Some v) ->
  zlen (present px i n) = Z.of_nat n.
Proof.
  induction n as [|n IH]; intros px i H; cbn [present]; [zlen_nil; lia|].
  pose proof (H 0 ltac:(lia)) as (v & H1). rewrite !Z.add_0_r in H1. rewrite H1, zlen_cons, IH; [lia|].
  intros j Hj. replace (i + 1 + j) with (i + (j + 1)) by lia. apply H; lia.
Qed.
Lemma present_In n : forall px i v, In v (present px i n) -> exists j, 0 <= j < Z.of_nat n /\ px (i + j) = Some v.
Proof.
  induction n as [|n IH]; intros px i v H; cbn [present] in H; [destruct H|].
  assert (D : (px i = Some v) \/ In v (present px (i + 1) n)).
  { destruct (px i); auto. destruct H as [->|H]; auto. }
  destruct D as [D|D].
  - exists 0. rewrite Z.add_0_r. split; auto; lia.
  - apply IH in D as (j & Hj & E). exists (j + 1). replace (i + (j + 1)) with (i + 1 + j) by lia. split; auto; lia.
Qed.
Lemma present_pos n px i j v : 0 <= j < Z.of_nat n -> px (i + j) = Some v -> 0 < zlen (present px i n).
Proof.
  revert i j. induction n as [|n IH]; intros i j Hj E; [lia|]. cbn [present].
  pose proof (present_len n px (i + 1)). destruct (Z.eq_dec j 0) as [->|].
  - rewrite Z.add_0_r in E. rewrite E, zlen_cons. lia.
  - assert (0 < zlen (present px (i + 1) n)).
    { apply (IH (i + 1) (j - 1)); [lia|]. now replace (i + 1 + (j - 1)) with (i + j) by lia. }
    destruct (px i); rewrite ?zlen_cons; lia.
Qed.
Lemma present_snoc n : forall px i v, px (i + Z.of_nat n) = Some v -> present px i (S n) = present px i n ++ [v].
Proof.
  induction n as [|n IH]; intros px i v E.
  - cbn [present app]. rewrite Z.add_0_r in E. now rewrite E.
  - change (present px i (S (S n))) with (match px i with Some v => v :: present px (i + 1) (S n) | None => present px (i + 1) (S n) end).
    rewrite (IH px (i + 1) v) by (rewrite <- E; f_equal; lia). clear IH. cbn [present]. destruct (px i); auto.
Qed.
(** The window moves by one. *)
Lemma present_slide n px i a b : px i = Some a -> px (i + Z.of_nat n) = Some b ->
  zsum (present px (i + 1) n) = zsum (present px i n) - a + b.
Proof.
  intros Ea Eb. assert (H : present px i (S n) = a :: present px (i + 1) n) by (cbn; now rewrite Ea).
  rewrite (present_snoc n px i b) in H by auto. apply (f_equal zsum) in H. rewrite zsum_app, !zsum_cons in H.
  change (zsum []) with 0 in H. lia.
Qed.
Lemma zsum_range lo hi l : (forall v, In v l -> lo <= v <= hi) -> lo * zlen l <= zsum l <= hi * zlen l.
Proof.
  induction l as [|v l IH]; intros H; [zlen_nil; cbn; lia|]. rewrite zsum_cons, zlen_cons.
  pose proof (H v (or_introl eq_refl)). assert (lo * zlen l <= zsum l <= hi * zlen l) by (apply IH; intros; apply H; now right).
  lia.
Qed.
Lemma round_mean_range lo hi l : lo <= 0 <= hi -> 0 < zlen l -> (forall v, In v l -> lo <= v <= hi) ->
  lo <= round_mean l <= hi.
Proof.
  intros H0 Hl Hv. pose proof (zsum_range lo hi l Hv) as HS. unfold round_mean. set (n := zlen l) in *. clearbody n.
  set (s := zsum l) in *. clearbody s. clear Hv l.
  assert (0 <= n / 2) by (apply Z.div_pos; lia). assert (2 * (n / 2) <= n) by (apply Z.mul_div_le; lia).
  destruct (Z.le_gt_cases 0 (s + n / 2)).
  - rewrite Z.quot_div_nonneg by lia. split.
    + enough (0 <= (s + n / 2) / n) by lia. apply Z.div_pos; lia.
    + enough ((s + n / 2) / n < hi + 1) by lia. apply Z.div_lt_upper_bound; nia.
  - replace (s + n / 2) with (- (- (s + n / 2))) by lia. rewrite Z.quot_opp_l by lia.
    rewrite Z.quot_div_nonneg by lia. split.
    + enough (- (s + n / 2) / n <= - lo) by lia. apply Z.div_le_upper_bound; nia.
    + enough (0 <= - (s + n / 2) / n) by lia. apply Z.div_pos; lia.
Qed.
Lemma round_mean_range_nonneg lo hi l : 0 <= lo -> 0 < zlen l -> (forall v, In v l -> lo <= v <= hi) ->
  lo <= round_mean l <= hi.
Proof.
  intros H0 Hl Hv. pose proof (zsum_range lo hi l Hv) as HS. unfold round_mean.
  pose proof (rounded_range lo hi (zsum l) (zlen l) H0 Hl HS) as R. unfold rounded in R. cbn [fst snd] in R.
  now rewrite (Z.quot_div_nonneg (zlen l) 2) in R by lia.
Qed.
Lemma zabs_sum_ones n : zabs_sum (repeat 1 n) = Z.of_nat n.
Proof. induction n; cbn [repeat zabs_sum]; lia. Qed.

Lemma sum_arith t z : (ity_min t = 0 -> 0 <= z) -> Z.abs z <= ity_max (signed_type t) -> arith_result (sum_type t) z = Ok z.
Proof. intros H1 H2. apply arith_result_in. destruct t; cbn in *; lia. Qed.

Lemma t_zero t : ity_min t <= 0 <= ity_max t.
Proof. destruct t; cbn; lia. Qed.

(** One window of the integer arithmetic. *)
Section Win.
Variables (t : ity) (M : Z) (n : nat).
Hypothesis HM : 0 <= M.
Hypothesis Hn : 0 < Z.of_nat n.
Hypothesis HS : Z.of_nat n * (M + 1) <= ity_max (signed_type t).

Definition typed (v : Z) : Prop := ity_min t <= v <= ity_max t /\ Z.abs v <= M.

Lemma typed_bound l : (forall v, In v l -> typed v) ->
  Z.abs (zsum l) <= M * zlen l /\ (ity_min t = 0 -> 0 <= zsum l).
Proof.
  intros H. split.
  - pose proof (zsum_range (-M) M l) as R. unfold typed in H. assert (- M * zlen l <= zsum l <= M * zlen l); [|lia].
    apply R. intros v Hv. specialize (H v Hv). lia.
  - intros E. pose proof (zsum_range 0 (ity_max t) l) as R. pose proof (zlen_nonneg l).
    assert (0 * zlen l <= zsum l <= ity_max t * zlen l); [|lia]. apply R. intros v Hv. specialize (H v Hv). unfold typed in H. lia.
Qed.
Lemma m_out_ok l : zlen l = Z.of_nat n -> (forall v, In v l -> typed v) ->
  m_out (int_marith t) (Z.of_nat n) (zsum l) = Ok (round_mean l).
Proof.
  intros L H. destruct (typed_bound l H) as [B1 B2]. cbn [m_out int_marith].
  rewrite (cast_id (sum_type t)) by (destruct t; cbn in *; nia).
  unfold int_div. change (2 =? 0) with false. cbn iota. 
  assert (0 <= Z.of_nat n / 2) by (apply Z.div_pos; lia). assert (2 * (Z.of_nat n / 2) <= Z.of_nat n) by (apply Z.mul_div_le; lia).
  rewrite (Z.quot_div_nonneg _ 2) by lia.
  rewrite sum_arith by (intros; nia). cbn [bind]. rewrite sum_arith; [|intros E; specialize (B2 E); lia|nia]. cbn [bind].
  replace (Z.of_nat n =? 0) with false by lia.
  assert (R : ity_min t <= round_mean l <= ity_max t).
  { apply round_mean_range; [apply t_zero|lia|]. intros v Hv. now apply H. }
  assert (R2 : - M <= round_mean l <= M).
  { apply round_mean_range; [lia|lia|]. intros v Hv. specialize (H v Hv). unfold typed in H. lia. }
  unfold round_mean in R, R2 |- *. rewrite L in *.
  rewrite sum_arith; [|intros; lia|nia]. cbn [bind]. now rewrite cast_id.
Qed.
Lemma m_slide_ok px i a b : px i = Some a -> px (i + Z.of_nat n) = Some b ->
  (forall j, 0 <= j <= Z.of_nat n -> exists v, px (i + j) = Some v /\ typed v) ->
  (let* s := m_sub (int_marith t) (zsum (present px i n)) a in m_add (int_marith t) s b) =
  Ok (zsum (present px (i + 1) n)).
Proof.
  intros Ea Eb H. cbn [m_sub m_add int_marith].
  assert (T : forall v, In v (present px i n) -> typed v).
  { intros v Hv. apply present_In in Hv as (j & Hj & E). destruct (H j ltac:(lia)) as (v' & E' & T). congruence. }
  assert (T' : forall v, In v (present px (i + 1) n) -> typed v).
  { intros v Hv. apply present_In in Hv as (j & Hj & E). destruct (H (j + 1) ltac:(lia)) as (v' & E' & T0).
    replace (i + (j + 1)) with (i + 1 + j) in E' by lia. congruence. }
  assert (T2 : forall v, In v (present px (i + 1) (n - 1)) -> typed v).
  { intros v Hv. apply present_In in Hv as (j & Hj & E). destruct (H (j + 1) ltac:(lia)) as (v' & E' & T0).
    replace (i + (j + 1)) with (i + 1 + j) in E' by lia. congruence. }
  assert (D : zsum (present px i n) - a = zsum (present px (i + 1) (n - 1))).
  { replace n with (S (n - 1)) at 1 by lia. cbn [present]. rewrite Ea, zsum_cons. lia. }
  destruct (typed_bound _ T') as [B1 B2]. destruct (typed_bound _ T2) as [B3 B4].
  pose proof (present_len n px (i + 1)). pose proof (present_len (n - 1) px (i + 1)).
  rewrite D. rewrite sum_arith; [|auto|nia]. cbn [bind].
  assert (D2 : zsum (present px (i + 1) (n - 1)) + b = zsum (present px (i + 1) n)) by (rewrite (present_slide n px i a b) by auto; lia).
  rewrite D2. apply sum_arith; [auto|nia].
Qed.
(** Sum of a prefix of the window, with any indexing. *)
Lemma m_sum_from (px : Z -> option Z) (rd : Z -> outcome Z) (i : Z) k s :
  (k <= n)%nat -> s = zsum (present px i (n - k)) ->
  (forall j, 0 <= j < Z.of_nat n -> exists v, px (i + j) = Some v /\ typed v /\ rd j = Ok v) ->
  for_range (Z.of_nat (n - k)) (Z.of_nat n) (fun j s => let* p := rd j in m_add (int_marith t) s p) s =
  Ok (zsum (present px i n)).
Proof.
  revert s. induction k as [|k IH]; intros s Hk Es H.
  - rewrite Nat.sub_0_r in *. rewrite for_range_nil by lia. now subst.
  - rewrite for_range_step by lia. destruct (H (Z.of_nat (n - S k)) ltac:(lia)) as (v & E & T & R). rewrite R. cbn [bind m_add int_marith].
    assert (N : (n - k = S (n - S k))%nat) by lia.
    assert (Ev : s + v = zsum (present px i (n - k))).
    { rewrite N. rewrite (present_snoc _ px i v) by auto. rewrite zsum_app, Es. cbn. lia. }
    assert (T2 : forall v, In v (present px i (n - k)) -> typed v).
    { intros w Hw. apply present_In in Hw as (j & Hj & E'). destruct (H j ltac:(lia)) as (v' & E'' & T0 & _). congruence. }
    destruct (typed_bound _ T2) as [B3 B4]. pose proof (present_len (n - k) px i).
    rewrite Ev. rewrite sum_arith; [|auto|nia]. cbn [bind].
    replace (Z.of_nat (n - S k) + 1) with (Z.of_nat (n - k)) by lia. apply IH; auto; lia.
Qed.
Lemma m_sum_ok (px : Z -> option Z) (rd : Z -> outcome Z) (i : Z) :
  (forall j, 0 <= j < Z.of_nat n -> exists v, px (i + j) = Some v /\ typed v /\ rd j = Ok v) ->
  for_range 0 (Z.of_nat n) (fun j s => let* p := rd j in m_add (int_marith t) s p) 0 =
  Ok (zsum (present px i n)).
Proof.
  intros H. pose proof (m_sum_from px rd i n 0) as X. rewrite Nat.sub_diag in X. apply X; auto.
Qed.
End Win.

(** [for_step] with an exact number of steps. *)
Lemma for_step_exact {S} (body : Z -> S -> outcome S) : forall n i step s, 0 < step -> 0 <= i ->
  i + step * Z.of_nat n < 4294967296 ->
  for_step n i (i + step * Z.of_nat n) step body s = for_range 0 (Z.of_nat n) (fun j => body (i + j * step)) s.
Proof.
  induction n as [|n IH]; intros i step s Hs Hi Hb.
  - cbn [for_step]. rewrite for_range_nil by lia. replace (i <? i + step * Z.of_nat 0) with false by lia. reflexivity.
  - rewrite for_range_step by lia. cbn [for_step]. replace (i <? i + step * Z.of_nat (Datatypes.S n)) with true by nia.
    replace (i + 0 * step) with i by lia. apply bind_ext. intros a _.
    rewrite u32_id by nia. replace (i + step * Z.of_nat (Datatypes.S n)) with (i + step + step * Z.of_nat n) by lia.
    rewrite IH by nia. replace (Z.of_nat (Datatypes.S n)) with (Z.of_nat n + 1) by lia.
    change (0 + 1) with (0 + 1). rewrite for_range_shift. apply for_range_ext. intros j s0 Hj. f_equal. lia.
Qed.

Section Mean.
Variables (t : ity) (r M : Z) (g o : gray Z).
Notation kw := (2 * r + 1).
Notation n := (Z.to_nat (2 * r + 1)).
Hypothesis Hr : 0 <= r.
Hypothesis Hkw : kw <= 1073741824.
Hypothesis Hg : wf g.
Hypothesis Ho : wf o.
Hypothesis Ew : g_width o = g_width g.
Hypothesis Eh : g_height o = g_height g.
Hypothesis Sw : 0 < g_width g <= 1073741824.
Hypothesis Sh : 0 < g_height g <= 1073741824.
Hypothesis HM : 0 <= M.
Hypothesis HP : forall x y v, pixel g x y = Some v -> ity_min t <= v <= ity_max t /\ Z.abs v <= M.
Hypothesis HS : kw * (M + 1) <= ity_max (signed_type t).
Let K := mean_kernel 1 kw.

Lemma nZ : Z.of_nat n = kw.
Proof. lia. Qed.
Lemma K_ok : kernel1_ok K.
Proof.
  unfold kernel1_ok, K, mean_kernel; cbn [k_width k_offset k_data].
  replace (kw / 2) with r. 2:{ apply Z.div_unique with 1; lia. }
  unfold zlen. rewrite repeat_length. lia.
Qed.
Lemma K_off : k_offset K = r.
Proof. cbn. symmetry. apply Z.div_unique with 1; lia. Qed.
Lemma kw_u32 : u32 (r * 2 + 1) = kw.
Proof. rewrite u32_id; lia. Qed.

Lemma averaged_mean px i0 c : 0 <= c < kw -> (exists v, px (i0 + c) = Some v) ->
  (forall j v, px j = Some v -> typed t M v) ->
  averaged (int_narith t) (repeat 1 n) (fun i => px (i0 + i)) = Some (round_mean (present px i0 n)).
Proof.
  intros Hc (v0 & Hv0) Hp.
  assert (Pz : zcovered (repeat 1 n) (fun i => px (i0 + i)) 0 = (zsum (present px i0 n), zlen (present px i0 n))).
  { rewrite present_zcovered. rewrite (present_ext n (fun i => px (i0 + i)) px 0 i0); auto. }
  pose proof (present_pos n px i0 c v0 ltac:(lia) Hv0) as Pos.
  rewrite (averaged_int t M).
  - rewrite Pz. f_equal. rewrite cast_id.
    + unfold rounded, round_mean; cbn [fst snd]. rewrite (Z.quot_div_nonneg (zlen _) 2) by lia. reflexivity.
    + unfold rounded; cbn [fst snd]. rewrite (Z.quot_div_nonneg (zlen _) 2) by lia.
      apply (round_mean_range (ity_min t) (ity_max t)); [apply t_zero|auto|]. intros v Hv.
      apply present_In in Hv as (j & Hj & E). now apply Hp in E as [E _].
  - auto.
  - intros j v Hj Hv. now apply Hp in Hv as [_ Hv].
  - rewrite zabs_sum_ones. lia.
  - rewrite Pz. cbn [snd]. lia.
Qed.
Lemma nvalue_h_mean x y : inside g x y -> nvalue_h (int_narith t) K g x y = Some (mean_row g r x y).
Proof.
  intros Hi. unfold nvalue_h, mean_row. rewrite K_off. cbn [K mean_kernel k_data].
  rewrite <- (averaged_mean (fun i => pixel g i y) (x - r) r); auto; try lia.
  - replace (x - r + r) with x by lia. now apply pixel_exists.
  - intros j v Hv. now apply HP in Hv.
Qed.
Lemma nvalue_v_mean x y : inside g x y -> nvalue_v (int_narith t) K g x y = Some (mean_col g r x y).
Proof.
  intros Hi. unfold nvalue_v, mean_col. rewrite K_off. cbn [K mean_kernel k_data].
  rewrite <- (averaged_mean (fun i => pixel g x i) (y - r) r); auto; try lia.
  - replace (y - r + r) with y by lia. now apply pixel_exists.
  - intros j v Hv. now apply HP in Hv.
Qed.

Lemma px_typed x y : inside g x y -> exists v, pixel g x y = Some v /\ typed t M v /\ bget (g_data g) (pos g x y) = Ok v.
Proof.
  intros Hi. destruct (px_some g Hg x y Hi) as (v & V1 & V2 & V3). exists v. split; auto. split; auto. now apply HP in V1.
Qed.

Lemma mean_inner_h_ok d : zlen d = zlen (g_data o) -> kw <= g_width g ->
  exists d', mean_inner_h (int_marith t) r g o d = Ok d' /\ zlen d' = zlen (g_data o) /\
    writes d (win o (fun x y => Some (mean_row g r x y)) (fun x y => r <= x < g_width g - r)) d'.
Proof.
  intros L Hw. unfold mean_inner_h. cbn zeta. rewrite kw_u32.
  match goal with |- context [for_range _ _ ?f d] => 
    destruct (win_loop o (fun x y => Some (mean_row g r x y)) (fun y x' y' => y' = y /\ r <= x' < g_width g - r) 0 (g_height g) f d L) 
      as (d' & Ed & L' & W) end.
  - intros y d0 Hy L0. 
    assert (I0 : inside g 0 y) by (split; lia). assert (I9 : inside g (g_width g - 1) y) by (split; lia).
    pose proof (wf_index _ _ _ Hg I0) as X0. pose proof (wf_pos _ _ _ Hg I0) as B0. pose proof (wf_pos _ _ _ Hg I9) as B9.
    assert (ZL : zlen (g_data g) < 4294967296) by (unfold wf in Hg; lia).
    assert (J0 : inside o r y) by (split; lia).
    pose proof (wf_index _ _ _ Ho J0) as Y0. 
    unfold gray_index in X0, Y0. rewrite Z.add_0_r in X0. rewrite (Z.mul_comm (g_stride g)), (Z.mul_comm (g_stride o)), X0, Y0.
    unfold pos in X0, B0, B9 |- *. rewrite Z.add_0_r.
    set (p := g_offset g + y * g_stride g) in *. assert (Ep : p = g_offset g + y * g_stride g) by reflexivity. clearbody p.
    rewrite (u32_id (p + kw)) by lia.
    set (px := fun i => pixel g i y).
    assert (PX : forall x, 0 <= x < g_width g -> exists v, px x = Some v /\ typed t M v /\ bget (g_data g) (p + x) = Ok v).
    { intros x Hx. destruct (px_typed x y) as (v & V1 & V2 & V3); [split; lia|]. exists v. split; auto. split; auto.
      unfold pos in V3. now rewrite <- Ep in V3. }
    assert (FIRST : for_range p (p + kw) (fun i s => let* q := bget (g_data g) i in m_add (int_marith t) s q) (m_zero (int_marith t)) =
       Ok (zsum (present px 0 n))).
    { replace (for_range p) with (for_range (S := Z) (0 + p)) by (f_equal; lia). rewrite (Z.add_comm p kw), for_range_shift.
      pose proof (m_sum_ok t M n HM ltac:(lia) ltac:(rewrite nZ; auto) px (fun i => bget (g_data g) (i + p)) 0) as X.
      rewrite nZ in X. apply X.
      intros j Hj. destruct (PX j ltac:(lia)) as (v & V1 & V2 & V3). exists v. rewrite Z.add_0_l. split; auto. split; auto.
      now rewrite Z.add_comm. }
    rewrite FIRST. cbn [bind].
    assert (PT : forall x v, 0 <= x -> x + kw <= g_width g -> In v (present px x n) -> typed t M v).
    { intros x v Hx Hx2 Hv. apply present_In in Hv as (j & Hj & E). destruct (PX (x + j) ltac:(lia)) as (v' & V1 & V2 & V3). congruence. }
    assert (PL : forall x, 0 <= x -> x + kw <= g_width g -> zlen (present px x n) = Z.of_nat n).
    { intros x Hx Hx2. apply present_all. intros j Hj. destruct (PX (x + j) ltac:(lia)) as (v' & V1 & V2 & V3). eauto. }
    assert (MO : forall x, 0 <= x -> x + kw <= g_width g -> m_out (int_marith t) kw (zsum (present px x n)) = Ok (mean_row g r (x + r) y)).
    { intros x Hx Hx2. pose proof (m_out_ok t M n HM) as X. rewrite nZ in X. rewrite X; [|lia|auto|rewrite PL by auto; apply nZ|]; clear X.
      - unfold mean_row. now replace (x + r - r) with x by lia.
      - intros v Hv. apply (PT x); auto. }
    rewrite MO by lia. cbn [bind]. rewrite Z.add_0_l.
    destruct (bset_exists d0 (g_offset o + y * g_stride o + r) (mean_row g r r y)) as (d1 & E1 & L1 & _).
    { rewrite L0. apply (wf_pos _ _ _ Ho J0). }
    rewrite E1. cbn [bind].
    assert (W1 : writes d0 (win o (fun x y => Some (mean_row g r x y)) (fun x' y' => x' = r /\ y' = y)) d1).
    { eapply win_put; [reflexivity|exact J0|]. exact E1. }
    rewrite Z.max_r by lia. replace (p + kw - kw) with p by lia. rewrite (u32_id p) by lia.
    rewrite (u32_id (g_width g - kw)) by lia.
    replace (for_range 0 (g_width g - kw)) with (for_range (S := Z * list Z) (r + 1 + - (r + 1)) (g_width g - r + - (r + 1))) by (f_equal; lia).
    rewrite for_range_shift.
    match goal with |- context [for_range _ _ ?f (_, d1)] =>
      destruct (win_state_row o (fun x y => Some (mean_row g r x y)) Ho (fun x s => s = zsum (present px (x - r - 1) n)) y (r + 1) (g_width g - r) f
        (zsum (present px 0 n)) d1) as (s' & d' & E' & _ & L' & W'); try lia end.
    { f_equal. f_equal. lia. }
    { intros x s d2 Hx -> L2. split; [split; lia|]. exists (mean_row g r x y), (zsum (present px (x - r) n)). split; auto.
      split; [f_equal; f_equal; lia|]. cbn [fst snd].
      destruct (PX (x - r - 1) ltac:(lia)) as (a & A1 & A2 & A3). destruct (PX (x + r) ltac:(lia)) as (b & B1 & B2 & B3).
      replace (p + (x + - (r + 1))) with (p + (x - r - 1)) by lia. rewrite A3. cbn [bind].
      replace (p + kw + (x + - (r + 1))) with (p + (x + r)) by lia. rewrite B3.
      pose proof (m_slide_ok t M n HM ltac:(lia) ltac:(rewrite nZ; auto) px (x - r - 1) a b A1) as SL.
      rewrite nZ in SL. replace (x - r - 1 + kw) with (x + r) in SL by lia. specialize (SL B1).
      replace (x - r - 1 + 1) with (x - r) in SL by lia.
      assert (SL' := SL (fun j Hj => match PX (x - r - 1 + j) ltac:(lia) with ex_intro _ v (conj V1 (conj V2 _)) => ex_intro _ v (conj V1 V2) end)).
      destruct (m_sub (int_marith t) (zsum (present px (x - r - 1) n)) a) as [q| | |] eqn:Q; try discriminate. cbn [bind] in SL' |- *.
      rewrite SL'. cbn [bind]. rewrite MO by lia. cbn [bind]. replace (x - r + r) with x by lia.
      replace (g_offset o + y * g_stride o + r + 1 + (x + - (r + 1))) with (pos o x y) by (unfold pos; lia). reflexivity. }
    rewrite E'. cbn [bind snd]. exists d'; split; auto. eapply win_iff; [|eapply win_seq; [exact W1|exact W']].
    intros x' y' [I3 I4]. cbn beta. lia.
  - exists d'. split; auto. split; auto. eapply win_iff; [|exact W]. intros x y [I1 I2]; split.
    + intros (i & Hi & -> & Hx); auto.
    + intros Hx. exists y. lia.
Qed.

Lemma mean_inner_v_ok d : zlen d = zlen (g_data o) -> kw <= g_height g ->
  g_offset g + g_width g + g_height g * g_stride g <= 4294967296 ->
  exists d', mean_inner_v (int_marith t) r g o d = Ok d' /\ zlen d' = zlen (g_data o) /\
    writes d (win o (fun x y => Some (mean_col g r x y)) (fun x y => r <= y < g_height g - r)) d'.
Proof.
  intros L Hw HB. unfold mean_inner_v. cbn zeta. rewrite kw_u32.
  replace (g_width g =? 0) with false by lia.
  set (px := fun x i => pixel g x i).
  assert (PX : forall x y, 0 <= x < g_width g -> 0 <= y < g_height g -> exists v, px x y = Some v /\ typed t M v /\
     bget (g_data g) (g_offset g + y * g_stride g + x) = Ok v).
  { intros x y Hx Hy. destruct (px_typed x y) as (v & V1 & V2 & V3); [split; lia|]. exists v. auto. }
  assert (PT : forall x y v, 0 <= x < g_width g -> 0 <= y -> y + kw <= g_height g -> In v (present (px x) y n) -> typed t M v).
  { intros x y v Hx Hy Hy2 Hv. apply present_In in Hv as (j & Hj & E). destruct (PX x (y + j)) as (v' & V1 & V2 & V3); try lia. congruence. }
  assert (PL : forall x y, 0 <= x < g_width g -> 0 <= y -> y + kw <= g_height g -> zlen (present (px x) y n) = Z.of_nat n).
  { intros x y Hx Hy Hy2. apply present_all. intros j Hj. destruct (PX x (y + j)) as (v' & V1 & V2 & V3); try lia. eauto. }
  assert (MO : forall x y, 0 <= x < g_width g -> 0 <= y -> y + kw <= g_height g -> 
      m_out (int_marith t) kw (zsum (present (px x) y n)) = Ok (mean_col g r x (y + r))).
  { intros x y Hx Hy Hy2. pose proof (m_out_ok t M n HM) as X. rewrite nZ in X. rewrite X; [|lia|auto|rewrite PL by auto; apply nZ|]; clear X.
    - unfold mean_col. now replace (y + r - r) with y by lia.
    - intros v Hv. eapply (PT x y); eauto. }
  assert (Wg := Hg). unfold wf in Wg. assert (Wo := Ho). unfold wf in Wo.
  assert (MS : forall m, 0 <= m <= g_height g -> 0 <= m * g_stride g <= g_height g * g_stride g).
  { intros m Hm. split; [apply Z.mul_nonneg_nonneg; lia|apply Z.mul_le_mono_nonneg_r; lia]. }
  (* first loop: row r *)
  set (Tot y m (T : list Z) := zlen T = g_width g /\ forall x, 0 <= x < m -> znth T x = Some (zsum (present (px x) y n))).
  match goal with |- context [for_range 0 (g_width g) ?f (?T0, d)] =>
    destruct (win_state_row o (fun x y => Some (mean_col g r x y)) Ho (Tot 0) r 0 (g_width g) f T0 d) as (T1 & d1 & E1 & I1 & L1 & W1); try lia end.
  { split; [unfold zlen; rewrite repeat_length; lia|intros; lia]. }
  { intros x T d2 Hx [LT HT] L2. split; [split; lia|]. exists (mean_col g r x r). cbn [fst snd].
    pose proof (MS kw ltac:(lia)) as MK. rewrite Z.mul_comm in MK.
    rewrite (u32_id (g_offset g + x)) by lia. rewrite (u32_id (g_offset g + x + g_stride g * kw)) by lia.
    assert (FIRST : for_step n (g_offset g + x) (g_offset g + x + g_stride g * kw) (g_stride g)
        (fun i s => let* p := bget (g_data g) i in m_add (int_marith t) s p) (m_zero (int_marith t)) = Ok (zsum (present (px x) 0 n))).
    { pose proof (fun b => for_step_exact (S := Z) b n (g_offset g + x) (g_stride g)) as X. rewrite nZ in X.
      rewrite X by lia. clear X. rewrite <- nZ at 1.
      apply (m_sum_ok t M n HM ltac:(lia) ltac:(rewrite nZ; auto) (px x) (fun j => bget (g_data g) (g_offset g + x + j * g_stride g)) 0).
      intros j Hj. destruct (PX x j) as (v & V1 & V2 & V3); try lia. exists v. rewrite Z.add_0_l. split; auto. split; auto.
      rewrite <- V3. f_equal. lia. }
    rewrite FIRST. cbn [bind].
    destruct (bset_exists T x (zsum (present (px x) 0 n))) as (T' & ET & LT' & GT); [lia|]. rewrite ET. cbn [bind].
    rewrite MO by lia. cbn [bind]. rewrite Z.add_0_l. exists T'. split; auto. split.
    { split; [lia|]. intros x' Hx'. rewrite GT. destruct (Z.eqb_spec x' x) as [->|]; auto. apply HT. lia. }
    rewrite (Z.mul_comm (g_stride o) r).
    assert (J0 : inside o x r) by (split; lia). pose proof (wf_index _ _ _ Ho J0) as Y0. unfold gray_index in Y0. rewrite Y0. reflexivity. }
  rewrite E1. cbn [bind].
  rewrite (u32_id (r + 1)) by lia. rewrite (u32_id (g_height o - r)) by lia.
  match goal with |- context [for_range (r + 1) _ ?f (T1, d1)] =>
    destruct (win_state_loop o (fun x y => Some (mean_col g r x y)) (fun y x' y' => y' = y /\ 0 <= x' < g_width g) 
      (fun y => Tot (y - r - 1) (g_width g)) (r + 1) (g_height o - r) f T1 d1) as (T2 & d2 & E2 & I2 & L2 & W2); try lia end.
  { now replace (r + 1 - r - 1) with 0 by lia. }
  { intros y T d3 Hy HT L3.
    assert (BK : u32 (g_offset g + (y + r) * g_stride g) = g_offset g + (y + r) * g_stride g)
      by (pose proof (MS (y + r) ltac:(lia)); apply u32_id; lia).
    rewrite BK.
    assert (FR : u32 (g_offset g + (y + r) * g_stride g - u32 (kw * g_stride g)) = g_offset g + (y - r - 1) * g_stride g).
    { pose proof (MS kw ltac:(lia)). rewrite (u32_id (kw * g_stride g)) by lia. pose proof (MS (y - r - 1) ltac:(lia)).
      replace (g_offset g + (y + r) * g_stride g - kw * g_stride g) with (g_offset g + (y - r - 1) * g_stride g) by lia.
      apply u32_id. lia. }
    rewrite FR.
    assert (OUT : forall x, 0 <= x < g_width g -> u32 (g_offset o + y * g_stride o) + x = pos o x y).
    { intros x Hx. rewrite u32_id; [reflexivity|]. assert (J : inside o x y) by (split; lia). pose proof (wf_pos _ _ _ Ho J) as B. unfold pos in B.
      assert (0 <= y * g_stride o) by (apply Z.mul_nonneg_nonneg; lia). lia. }
    match goal with |- context [for_range 0 (g_width g) ?f (T, d3)] =>
      destruct (win_state_row o (fun x y => Some (mean_col g r x y)) Ho (fun m T => zlen T = g_width g /\ 
         (forall x, 0 <= x < m -> znth T x = Some (zsum (present (px x) (y - r) n))) /\
         (forall x, m <= x < g_width g -> znth T x = Some (zsum (present (px x) (y - r - 1) n)))) y 0 (g_width g) f T d3) 
         as (T4 & d4 & E4 & I4 & L4 & W4); try lia end.
    { destruct HT as [H1 H2]. split; auto. split; [intros; lia|auto]. }
    { intros x T' d5 Hx (LT & HT1 & HT2) L5. split; [split; lia|]. exists (mean_col g r x y). cbn [fst snd].
      rewrite (proj2 (bget_Ok _ _ _) (HT2 x ltac:(lia))). cbn [bind].
      destruct (PX x (y - r - 1)) as (a & A1 & A2 & A3); try lia. destruct (PX x (y + r)) as (b & B1 & B2 & B3); try lia.
      rewrite A3, B3. cbn [bind].
      pose proof (m_slide_ok t M n HM ltac:(lia) ltac:(rewrite nZ; auto) (px x) (y - r - 1) a b A1) as SL.
      rewrite nZ in SL. replace (y - r - 1 + kw) with (y + r) in SL by lia. specialize (SL B1).
      replace (y - r - 1 + 1) with (y - r) in SL by lia.
      assert (SL' := SL (fun j Hj => match PX x (y - r - 1 + j) ltac:(lia) ltac:(lia) with ex_intro _ v (conj V1 (conj V2 _)) => ex_intro _ v (conj V1 V2) end)).
      destruct (m_sub (int_marith t) (zsum (present (px x) (y - r - 1) n)) a) as [q| | |] eqn:Q; try discriminate. cbn [bind] in SL' |- *.
      rewrite SL'. cbn [bind].
      destruct (bset_exists T' x (zsum (present (px x) (y - r) n))) as (T'' & ET & LT' & GT); [lia|]. rewrite ET. cbn [bind].
      rewrite MO by lia. cbn [bind]. replace (y - r + r) with y by lia. exists T''. split; auto. split.
      { split; [lia|]. split; intros x' Hx'; rewrite GT; destruct (Z.eqb_spec x' x) as [->|]; auto; [apply HT1; lia|lia|apply HT2; lia]. }
      rewrite OUT by lia. reflexivity. }
    exists T4, d4. split; auto. split; auto. replace (y + 1 - r - 1) with (y - r) by lia. destruct I4 as (Q1 & Q2 & _). split; auto. }
  rewrite E2. cbn [bind snd]. exists d2. split; auto. split; auto.
  eapply win_iff; [|eapply win_seq; [exact W1|exact W2]].
  intros x y [I3 I4]. cbn beta. split.
  - intros [Hx|(i & Hi & -> & Hx)]; lia.
  - intros Hy. destruct (Z.eq_dec y r); [left; lia|]. right. exists y. lia.
Qed.

Lemma mean_shape : checkSameShape g o = Ok tt.
Proof. unfold checkSameShape. rewrite Ew, Eh. now rewrite !Z.eqb_refl. Qed.

Lemma mean_h_ok : exists o', mean_h (int_narith t) (int_marith t) 1 r g o = Ok o' /\
  holds g o o' (fun x y => Some (mean_row g r x y)).
Proof.
  unfold mean_h. rewrite mean_shape. cbn [bind]. rewrite kw_u32. fold K. change (k_width K) with kw. cbn zeta.
  destruct (g_width g <? kw) eqn:C.
  - destruct (normalized_h_all (int_narith t) K g o (int_ok t) K_ok Hg Ho Ew Eh Sw Sh) as (o' & E' & Hh).
    { intros; discriminate. }
    { intros x y Hi. eexists; now apply nvalue_h_mean. }
    exists o'. split; auto. destruct Hh as (H1 & H2 & H3 & H4 & H5). do 3 (split; auto). split; auto.
    intros x y Hi. rewrite H4 by auto. now apply nvalue_h_mean.
  - destruct (just_h_ok (int_narith t) K g o K_ok Hg Ho Ew Eh (proj2 Sw) (g_data o) eq_refl) as (d & Ed & L & W).
    { change (k_width K) with kw. lia. }
    { intros x y Hi. eexists; now apply nvalue_h_mean. }
    rewrite Ed. cbn [bind]. destruct (mean_inner_h_ok d L) as (d' & Ed' & L' & W'); [lia|].
    rewrite Ed'. cbn [bind]. eexists; split; [reflexivity|]. apply finish; auto; [intros; eauto|].
    eapply win_iff; [|eapply win_seq; [eapply win_ext; [|exact W]|exact W']].
    + intros x y _. rewrite K_off. change (k_width K) with kw. cbn beta. split; auto; intros _; lia.
    + intros x y Hi _. apply nvalue_h_mean. destruct Hi; split; lia.
Qed.
Lemma mean_v_ok : g_width g < kw \/ kw <= g_height g ->
  g_offset g + g_width g + g_height g * g_stride g <= 4294967296 ->
  exists o', mean_v (int_narith t) (int_marith t) 1 r g o = Ok o' /\
  holds g o o' (fun x y => Some (mean_col g r x y)).
Proof.
  intros HC HB.
  unfold mean_v. rewrite mean_shape. cbn [bind]. rewrite kw_u32. fold K. change (k_width K) with kw. cbn zeta.
  destruct (g_width g <? kw) eqn:C.
  - destruct (normalized_v_all (int_narith t) K g o (int_ok t) K_ok Hg Ho Ew Eh Sw Sh) as (o' & E' & Hh).
    { intros; discriminate. }
    { intros _ c Hc. apply repeat_spec in Hc as ->. cbn. now rewrite cast_id by (destruct t; cbn; lia). }
    { intros x y Hi. eexists; now apply nvalue_v_mean. }
    exists o'. split; auto. destruct Hh as (H1 & H2 & H3 & H4 & H5). do 3 (split; auto). split; auto.
    intros x y Hi. rewrite H4 by auto. now apply nvalue_v_mean.
  - destruct (just_v_ok (int_narith t) K g o K_ok Hg Ho Ew Eh (proj2 Sh) (g_data o) eq_refl (proj1 Sw)) as (d & Ed & L & W).
    { change (k_width K) with kw. lia. }
    { intros x y Hi. eexists; now apply nvalue_v_mean. }
    rewrite Ed. cbn [bind]. destruct (mean_inner_v_ok d L) as (d' & Ed' & L' & W'); [lia|auto|].
    rewrite Ed'. cbn [bind]. eexists; split; [reflexivity|]. apply finish; auto; [intros; eauto|].
    eapply win_iff; [|eapply win_seq; [eapply win_ext; [|exact W]|exact W']].
    + intros x y _. rewrite K_off. change (k_width K) with kw. cbn beta. split; auto; intros _; lia.
    + intros x y Hi _. apply nvalue_v_mean. destruct Hi; split; lia.
Qed.
End Mean.

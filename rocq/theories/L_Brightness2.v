(** Lemmas about the global threshold of related images. *)
From Coq Require Import QArith Lqa.
From Verif Require Import Base BaseFacts M_Image S_Image L_Image M_Convolve S_Convolve M_Normalized M_Blur S_Blur L_Blur L_BlurTop
  M_GrowArray M_Stats S_Stats L_Stats M_Binary L_Binary M_Otsu S_Otsu L_Otsu L_OtsuImage S_Symmetry L_Symmetry S_Brightness L_Brightness.
Open Scope Z_scope.

Lemma zsum_app2 l m : zsum (l ++ m) = zsum l + zsum m.
Proof. induction l as [|a l IH]; cbn [app]; rewrite ?zsum_cons; [reflexivity|lia]. Qed.
Lemma zsum_zeros n : zsum (repeat 0 n) = 0.
Proof. induction n; cbn [repeat]; rewrite ?zsum_cons; [reflexivity|lia]. Qed.
Lemma moment_zeros n : forall k, moment k (repeat 0 n) = 0.
Proof. induction n as [|n IH]; intros k; cbn [repeat moment]; [reflexivity|]. rewrite IH. lia. Qed.
Lemma moment_from l : forall k c, moment (k + c) l = moment k l + c * zsum l.
Proof.
  induction l as [|a l IH]; intros k c; cbn [moment]; [cbn; lia|]. rewrite zsum_cons.
  replace (k + c + 1) with (k + 1 + c) by lia. rewrite IH. lia.
Qed.

(** Histogram [a] at the lower end and [k] bins higher. *)
Section Move.
Variables (a : list Z) (k : Z).
Hypothesis Hk : 0 <= k.
Let z := repeat 0 (Z.to_nat k).
Let zl : zlen z = k.
Proof. unfold z. rewrite zlen_repeat. lia. Qed.
Let l := a ++ z.
Let m := z ++ a.
Lemma below_low i : 0 <= i -> i + 1 <= zlen a -> below l i = firstn (Z.to_nat (i + 1)) a /\ above l i = skipn (Z.to_nat (i + 1)) a ++ z.
Proof.
  intros H H1. unfold below, above, l. rewrite firstn_app, skipn_app. unfold zlen in H1.
  replace (Z.to_nat (i + 1) - length a)%nat with 0%nat by lia. cbn [firstn skipn]. now rewrite app_nil_r.
Qed.
Lemma below_high i : 0 <= i -> below m (i + k) = z ++ firstn (Z.to_nat (i + 1)) a /\ above m (i + k) = skipn (Z.to_nat (i + 1)) a.
Proof.
  intros H. unfold below, above, m. rewrite firstn_app, skipn_app. assert (L : length z = Z.to_nat k) by (unfold z; apply repeat_length). rewrite L.
  replace (Z.to_nat (i + k + 1) - Z.to_nat k)%nat with (Z.to_nat (i + 1)) by lia.
  rewrite firstn_all2 by lia. rewrite skipn_all2 by lia. split; reflexivity.
Qed.
Lemma moved i : 0 <= i < zlen a -> (separation m (i + k) == separation l i)%Q.
Proof.
  intros Hi. destruct (below_low i) as (B1 & A1); try lia. destruct (below_high i) as (B2 & A2); try lia.
  unfold separation, low_mean, high_mean. rewrite B1, A1, B2, A2.
  set (p := firstn _ a). set (s := skipn _ a).
  assert (E1 : zsum (z ++ p) = zsum p) by (rewrite zsum_app2; unfold z; rewrite zsum_zeros; lia).
  assert (E2 : zsum (s ++ z) = zsum s) by (rewrite zsum_app2; unfold z; rewrite zsum_zeros; lia).
  assert (E3 : moment 0 (z ++ p) = moment 0 p + k * zsum p).
  { rewrite moment_app, zl. unfold z. rewrite moment_zeros. rewrite (moment_from p 0 k). lia. }
  assert (E4 : moment (i + 1) (s ++ z) = moment (i + 1) s) by (rewrite moment_app; unfold z; rewrite moment_zeros; lia).
  assert (E5 : moment (i + k + 1) s = moment (i + 1) s + k * zsum s).
  { replace (i + k + 1) with (i + 1 + k) by lia. apply moment_from. }
  rewrite E1, E2, E3, E4, E5. destruct (zsum p =? 0) eqn:P0; [reflexivity|]. destruct (zsum s =? 0) eqn:S0; [reflexivity|]. cbn [orb].
  apply Z.eqb_neq in P0, S0. rewrite !inject_Z_plus, !inject_Z_mult.
  pose proof (inj_neq _ P0). pose proof (inj_neq _ S0). field. auto.
Qed.
Lemma empty_low i : 0 <= i < k -> separation m i = 0%Q.
Proof.
  intros Hi. unfold separation. assert (E : zsum (below m i) = 0).
  { unfold below, m. rewrite firstn_app. assert (L : length z = Z.to_nat k) by (unfold z; apply repeat_length). rewrite L.
    replace (Z.to_nat (i + 1) - Z.to_nat k)%nat with 0%nat by lia. cbn [firstn]. rewrite app_nil_r. unfold z.
    replace (Z.to_nat k) with (Z.to_nat (i + 1) + (Z.to_nat k - Z.to_nat (i + 1)))%nat by lia. rewrite repeat_app, firstn_app, repeat_length.
    rewrite firstn_all2 by (rewrite repeat_length; lia). replace (_ - _)%nat with 0%nat by lia. cbn [firstn]. rewrite app_nil_r. apply zsum_zeros. }
  rewrite E. reflexivity.
Qed.
Lemma empty_high i : zlen a <= i -> separation l i = 0%Q.
Proof.
  intros Hi. unfold separation. assert (E : zsum (above l i) = 0).
  { unfold above, l. rewrite skipn_app. rewrite skipn_all2 by (unfold zlen in Hi; lia). cbn [app]. unfold z.
    assert (Q : forall n j, zsum (skipn j (repeat 0 n)) = 0).
    { induction n as [|n IH]; intros [|j]; cbn [repeat skipn]; rewrite ?zsum_cons; auto. rewrite zsum_zeros. lia. }
    apply Q. }
  rewrite E. now rewrite Bool.orb_true_r.
Qed.
Lemma best_moved t : best_split l t -> (0 < separation l t)%Q -> best_split m (t + k).
Proof.
  intros (R & B & F) P.
  assert (Ra : 0 <= t < zlen a).
  { split; [lia|]. destruct (Z.lt_ge_cases t (zlen a)); auto. rewrite (empty_high t) in P by auto. exfalso. revert P. apply Qlt_irrefl. }
  assert (Ll : zlen l = zlen a + k) by (unfold l; rewrite zlen_app, zl; lia).
  assert (Lm : zlen m = zlen a + k) by (unfold m; rewrite zlen_app, zl; lia).
  assert (V : forall i, 0 <= i < zlen m -> (separation m i == 0)%Q \/ exists j, i = j + k /\ 0 <= j < zlen a).
  { intros i Hi. destruct (Z.lt_ge_cases i k); [left; rewrite empty_low by lia; reflexivity|]. right. exists (i - k). lia. }
  split; [lia|]. split.
  - intros i Hi. rewrite (moved t Ra). destruct (V i Hi) as [E|(j & -> & Hj)]; [rewrite E; now apply Qlt_le_weak|]. rewrite (moved j Hj). apply B. lia.
  - intros i Hi. rewrite (moved t Ra). destruct (V i ltac:(lia)) as [E|(j & -> & Hj)]; [now rewrite E|]. rewrite (moved j Hj). apply F. lia.
Qed.
End Move.

Lemma zrange_plus a b : 0 <= a -> 0 <= b -> zrange (a + b) = zrange a ++ map (Z.add a) (zrange b).
Proof.
  intros Ha Hb. pattern b. apply natlike_ind; [|clear b Hb; intros b Hb IH|exact Hb].
  - rewrite Z.add_0_r. cbn. now rewrite app_nil_r.
  - unfold Z.succ. replace (a + (b + 1)) with (a + b + 1) by lia. rewrite !zrange_S by lia. rewrite IH, map_app, app_assoc. reflexivity.
Qed.
Lemma map_zero {A} (f : A -> Z) l : (forall i, In i l -> f i = 0) -> map f l = repeat 0 (length l).
Proof. induction l as [|a l IH]; intros H; cbn; auto. rewrite H by now left. f_equal. apply IH. intros; apply H; now right. Qed.
Lemma zrange_len n : length (zrange n) = Z.to_nat n.
Proof. unfold zrange. now rewrite map_length, seq_length. Qed.
Lemma zcount_none v l : (forall a, In a l -> a <> v) -> zcount v l = 0.
Proof.
  induction l as [|a l IH]; intros H; cbn [zcount]; auto. rewrite IH by (intros; apply H; now right).
  destruct (Z.eqb_spec a v) as [E|]; [|lia]. exfalso. apply (H a); [now left|auto].
Qed.

Section Counts.
Variables (k mx : Z) (g h : gray Z).
Hypothesis Hk : 0 <= k <= mx.
Hypothesis Wg : wf g.
Hypothesis Wh : wf h.
Hypothesis Sh : shifted k g h.
Hypothesis Pg : forall x y v, pixel g x y = Some v -> 0 <= v <= mx.
Hypothesis Ph : forall x y v, pixel h x y = Some v -> 0 <= v <= mx.
Let a := value_counts g 0 (mx - k).
Lemma counts_low : value_counts g 0 mx = a ++ repeat 0 (Z.to_nat k).
Proof.
  unfold a, value_counts. replace (mx - 0 + 1) with (mx - k - 0 + 1 + k) by lia. rewrite zrange_plus by lia. rewrite map_app. f_equal.
  rewrite map_map, map_zero, zrange_len; auto. intros i Hi. apply zrange_In in Hi. apply zcount_none. intros v Iv E. apply all_pixels_In in Iv as (x & y & Ev).
  pose proof (proj2 Sh _ _ _ Ev) as Ev'. apply Ph in Ev'. lia.
Qed.
Lemma counts_high : value_counts h 0 mx = repeat 0 (Z.to_nat k) ++ a.
Proof.
  unfold a, value_counts. replace (mx - 0 + 1) with (k + (mx - k - 0 + 1)) by lia. rewrite zrange_plus by lia. rewrite map_app. f_equal.
  - rewrite map_zero, zrange_len; auto. intros i Hi. apply zrange_In in Hi. apply zcount_none. intros v Iv E.
    rewrite (shifted_pixels k g h Wg Sh) in Iv. apply in_map_iff in Iv as (u & Eu & Iu). apply all_pixels_In in Iu as (x & y & Ev). apply Pg in Ev. lia.
  - rewrite map_map. apply map_ext. intros i. replace (0 + (k + i)) with (0 + i + k) by lia. apply (shifted_counts k g h Wg Sh).
Qed.
End Counts.

Lemma zcount_pos v l : In v l -> 0 < zcount v l.
Proof.
  induction l as [|a l IH]; [intros []|]. intros [->|J]; cbn [zcount].
  - rewrite Z.eqb_refl. pose proof (zcount_range v l). lia.
  - specialize (IH J). destruct (a =? v); lia.
Qed.
Lemma split_shift k mx g h s s' : wf g -> wf h -> 0 <= k -> shifted k g h -> two_values g -> mx < 2147483647 ->
  (forall x y v, pixel g x y = Some v -> 0 <= v <= mx) -> (forall x y v, pixel h x y = Some v -> 0 <= v <= mx) ->
  best_split (value_counts g 0 mx) s -> best_split (value_counts h 0 mx) s' -> s' = s + k.
Proof.
  intros Wg Wh Hk Sh (x & y & x' & y' & u & v & Eu & Ev & Ne) Hm Pg Ph B B'.
  pose proof (Pg _ _ _ Eu) as Ru. pose proof (Pg _ _ _ Ev) as Rv. pose proof (Ph _ _ _ (proj2 Sh _ _ _ Ev)) as Rv'.
  assert (P : (0 < separation (value_counts g 0 mx) s)%Q).
  { apply (best_two (value_counts g 0 mx) s u v (zcount u (all_pixels g)) (zcount v (all_pixels g))); auto.
    - apply value_counts_counts; auto. lia.
    - rewrite value_counts_nth by lia. reflexivity.
    - rewrite value_counts_nth by lia. reflexivity.
    - apply zcount_pos, all_pixels_In. eauto.
    - apply zcount_pos, all_pixels_In. eauto. }
  rewrite (counts_low k mx g h) in B, P by (auto; lia). rewrite (counts_high k mx g h) in B' by (auto; lia).
  apply (best_split_unique _ _ _ B'). apply best_moved; auto.
Qed.
Lemma shifted_back k g h : wf g -> shifted k g h -> shifted (- k) h g.
Proof.
  intros Wg ((S1 & S2) & P). split; [split; congruence|]. intros x y v E. pose proof (pixel_Some _ _ _ _ E) as I.
  destruct (pixel_exists g x y Wg) as (u & Eu); [unfold inside in *; lia|]. rewrite Eu. rewrite (P _ _ _ Eu) in E. f_equal. injection E. lia.
Qed.
Lemma split_shift_any k mx g h s s' : wf g -> wf h -> shifted k g h -> two_values g -> mx < 2147483647 ->
  (forall x y v, pixel g x y = Some v -> 0 <= v <= mx) -> (forall x y v, pixel h x y = Some v -> 0 <= v <= mx) ->
  best_split (value_counts g 0 mx) s -> best_split (value_counts h 0 mx) s' -> s' = s + k.
Proof.
  intros Wg Wh Sh Tw Hm Pg Ph B B'. destruct (Z.le_ge_cases 0 k) as [K|K]; [now apply (split_shift k mx g h)|].
  assert (s = s' + - k); [|lia]. apply (split_shift (- k) mx h g); auto; [lia|now apply shifted_back|].
  destruct Tw as (x & y & x' & y' & u & v & Eu & Ev & Lt). exists x, y, x', y', (u + k), (v + k). repeat split; try (apply (proj2 Sh); auto). lia.
Qed.

(** ** The filter *)
Lemma global_shift t mx down k g h out out2 : t = U8 \/ t = U16 -> wf g -> wf h -> wf out -> wf out2 ->
  (g_sub out = false \/ (g_width out = g_width g /\ g_height out = g_height g)) ->
  (g_sub out2 = false \/ (g_width out2 = g_width g /\ g_height out2 = g_height g)) ->
  shifted k g h -> two_values g -> mx <= ity_max t ->
  (forall x y v, pixel g x y = Some v -> 0 <= v <= mx) -> (forall x y v, pixel h x y = Some v -> 0 <= v <= mx) ->
  exists o p, global_otsu exact t g 0 mx down out = Ok o /\ global_otsu exact t h 0 mx down out2 = Ok p /\ alike o p.
Proof.
  intros T Wg Wh Wo Wo2 So So2 Sh Tw Hm Pg Ph. assert (Sz := proj1 Sh). destruct Sz as (Z1 & Z2).
  assert (M0 : 0 <= mx < 2147483647).
  { destruct Tw as (x & y & _ & _ & u & _ & Eu & _). apply Pg in Eu. destruct T as [-> | ->]; cbn in Hm; lia. }
  destruct (L_Convolve2.reshape_for 0 g out Wg Wo So) as (r1 & Er1 & _). rewrite <- Z1, <- Z2 in So2.
  destruct (L_Convolve2.reshape_for 0 h out2 Wh Wo2 So2) as (r2 & Er2 & _).
  destruct (global_otsu_ok t g mx down out r1) as (s & o & E & B & (A1 & A2 & _ & A3 & _)); auto.
  destruct (global_otsu_ok t h mx down out2 r2) as (s' & p & E' & B' & (C1 & C2 & _ & C3 & _)); auto.
  exists o, p. split; auto. split; auto. assert (X : s' = s + k) by (apply (split_shift_any k mx g h); auto; lia).
  split; [split; congruence|]. intros x y.
  assert (Dc : inside g x y \/ ~ inside g x y) by (unfold inside; lia). destruct Dc as [I|N].
  2: { rewrite !pixel_outside; auto; unfold inside in *; lia. }
  rewrite A3, C3 by (unfold inside in *; lia). destruct (pixel_exists g x y Wg I) as (v & Ev). rewrite Ev, (proj2 Sh _ _ _ Ev). rewrite X. f_equal.
  destruct down.
  - replace (v + k <=? s + k) with (v <=? s) by lia. reflexivity.
  - replace (v + k >? s + k) with (v >? s) by lia. reflexivity.
Qed.
Lemma global_mirror {D} (O : dops D) t mn mx down g h out out2 o : wf g -> wf h -> wf out -> wf out2 ->
  (g_sub out2 = false \/ (g_width out2 = g_width g /\ g_height out2 = g_height g)) ->
  mirrored_x g h \/ mirrored_y g h -> (forall x y v, pixel g x y = Some v -> mn <= v <= mx) -> 0 <= mx - mn < 2147483647 ->
  ity_min (promote t) <= mn -> mx < ity_max (promote t) -> global_otsu O t g mn mx down out = Ok o ->
  exists p, global_otsu O t h mn mx down out2 = Ok p /\ (mirrored_x g h -> mirrored_x o p) /\ (mirrored_y g h -> mirrored_y o p).
Proof.
  intros Wg Wh Wo Wo2 So2 Mi P R A1 A2 E.
  assert (Sz : same_size g h) by (destruct Mi as [(Q & _)|(Q & _)]; exact Q). destruct Sz as (Z1 & Z2).
  assert (C : same_counts 0 g h) by (destruct Mi; [now apply mirrored_x_counts|now apply mirrored_y_counts]).
  unfold global_otsu in *. pose proof (image_otsu_counts O t false g h mn mx 0 Wg Wh C P R A1 A2) as X. rewrite !Z.add_0_r in X. rewrite X by auto.
  destruct (image_otsu O t g mn mx false) as [th| | |]; try discriminate. cbn [bind] in *.
  rewrite <- Z1, <- Z2 in So2. destruct (L_Convolve2.reshape_for 0 h out2 Wh Wo2 So2) as (r2 & Er2 & _).
  assert (exists r1, gray_reshape 0 out (g_width g) (g_height g) = Ok r1) as (r1 & Er1).
  { unfold threshold in E. destruct (gray_reshape 0 out (g_width g) (g_height g)) as [r| | |]; try discriminate. eauto. }
  destruct (threshold_ok Z.leb Z.gtb g (cast t th) down out r1 Wg Wo Er1) as (o' & E1 & (B1 & B2 & _ & B3 & _)).
  destruct (threshold_ok Z.leb Z.gtb h (cast t th) down out2 r2 Wh Wo2 Er2) as (p & E2 & (D1 & D2 & _ & D3 & _)).
  rewrite E1 in E. injection E as <-. exists p. split; auto.
  split; intros (_ & M); (split; [split; congruence|]); intros x y I; rewrite D3 by (unfold inside in *; lia); rewrite M by (unfold inside in *; lia);
    rewrite ?B1, ?B2, B3 by (unfold inside in *; lia); reflexivity.
Qed.

(** Lemmas about thresholding by blocks and brightness. *)
From Coq Require Import QArith Qround Lqa Psatz.
From Verif Require Import Base BaseFacts M_Image S_Image L_Image M_GrowArray M_Convolve S_Convolve M_Normalized M_Blur S_Blur L_Blur M_Stats S_Stats L_Stats M_Otsu S_Otsu L_Otsu L_OtsuImage M_Config M_Block
  S_Block L_Block L_BlockInt L_BlockOtsu S_Symmetry S_Brightness L_Brightness L_Brightness2 S_BlockShift.
Open Scope Z_scope.
Notation plus k := (fun a : Z => a + k).

(** ** Pixels of the blocks *)
Section Pixels.
Variables (k req : Z) (local : bool) (g h : gray Z).
Hypothesis Wg : wf g.
Hypothesis Hw : 1 <= req <= g_width g.
Hypothesis Hh : 1 <= req <= g_height g.
Hypothesis Sh : shifted k g h.
Lemma near_blocks_shift b : near_blocks h req local b = near_blocks g req local b.
Proof. destruct Sh as ((S1 & S2) & _). apply near_same; auto. Qed.
Lemma home_shift x y : home h req x y = home g req x y.
Proof. destruct Sh as ((S1 & S2) & _). unfold home. now rewrite S1, S2. Qed.
Lemma block_shift b : is_block g req b -> block_pixels h req b = map (plus k) (block_pixels g req b).
Proof.
  intros B. pose proof Sh as ((S1 & S2) & P). unfold block_pixels. rewrite S1, S2, <- flat_map_map. apply L_Brightness.flat_map_ext_in. intros y Hy.
  rewrite <- flat_map_map. apply L_Brightness.flat_map_ext_in. intros x Hx. apply zseq_In in Hx, Hy.
  destruct (pixel_exists g x y Wg) as (v & E); [eapply block_inside; eauto|]. now rewrite E, (P _ _ _ E).
Qed.
Lemma near_shift b : is_block g req b -> near_pixels h req local b = map (plus k) (near_pixels g req local b).
Proof.
  intros B. unfold near_pixels. rewrite near_blocks_shift, <- flat_map_map. apply L_Brightness.flat_map_ext_in. intros c Hc. apply block_shift.
  eapply near_blocks_ok; eauto.
Qed.
End Pixels.
Lemma zsum_plus k l : zsum (map (plus k) l) = zsum l + k * zlen l.
Proof. induction l as [|a l IH]; cbn [map]; [change (zlen (@nil Z)) with 0; cbn; lia|]. rewrite !zsum_cons, IH, zlen_cons. lia. Qed.

(** Two results that agree inside agree everywhere. *)
Lemma same_result (g h o p : gray Z) F G : same_size g h -> g_width o = g_width g -> g_height o = g_height g -> g_width p = g_width h -> g_height p = g_height h ->
  (forall x y, inside g x y -> pixel o x y = F x y) -> (forall x y, inside h x y -> pixel p x y = G x y) -> (forall x y, inside g x y -> F x y = G x y) -> alike o p.
Proof.
  intros (S1 & S2) A1 A2 B1 B2 PF PG E. split; [split; congruence|]. intros x y. assert (D : inside g x y \/ ~ inside g x y) by (unfold inside; lia).
  destruct D as [I|N].
  - rewrite PF, PG, E; auto. unfold inside in *. lia.
  - rewrite !pixel_outside; auto; unfold inside in *; lia.
Qed.
Lemma fits_shift {D} (O : dops D) c k g h o req : wf h -> wf o -> shifted k g h -> g_width o = g_width g -> g_height o = g_height g ->
  forall o0, S_Block.fits O c g o0 req -> S_Block.fits O c h o req.
Proof. intros Wh Wo ((S1 & S2) & _) E1 E2 o0 (_ & _ & _ & _ & F & G1 & G2). unfold S_Block.fits. rewrite S1, S2. exact (conj Wh (conj Wo (conj E1 (conj E2 (conj F (conj G1 G2)))))). Qed.

(** ** Means *)
Lemma scaled_shift k l : l <> [] -> scaled_mean 1 (map (plus k) l) = scaled_mean 1 l + k.
Proof.
  intros N. unfold scaled_mean. rewrite zlen_map, zsum_plus. assert (L : 0 < zlen l) by (destruct l; [congruence|rewrite zlen_cons; pose proof (zlen_nonneg l); lia]).
  assert (E : (1 * inject_Z (zsum l + k * zlen l) / inject_Z (zlen l) + (1 # 2) == (1 * inject_Z (zsum l) / inject_Z (zlen l) + (1 # 2)) + inject_Z k)%Q).
  { rewrite inject_Z_plus, inject_Z_mult. field. apply inj_neq. lia. }
  rewrite E. set (q := (1 * inject_Z (zsum l) / inject_Z (zlen l) + (1 # 2))%Q). clearbody q.
  pose proof (Qfloor_le q) as A1. pose proof (Qlt_floor q) as A2. pose proof (Qfloor_le (q + inject_Z k)) as B1. pose proof (Qlt_floor (q + inject_Z k)) as B2.
  rewrite inject_Z_plus in A2, B2. change (inject_Z 1) with 1%Q in A2, B2.
  assert (C1 : (inject_Z (Qfloor (q + inject_Z k)) < inject_Z (Qfloor q + k + 1))%Q) by (rewrite !inject_Z_plus; change (inject_Z 1) with 1%Q; lra).
  assert (C2 : (inject_Z (Qfloor q + k) < inject_Z (Qfloor (q + inject_Z k) + 1))%Q) by (rewrite !inject_Z_plus; change (inject_Z 1) with 1%Q; lra).
  rewrite <- Zlt_Qlt in C1, C2. lia.
Qed.
Lemma mean_level_shift k req local g h b : wf g -> 1 <= req <= g_width g -> 1 <= req <= g_height g -> shifted k g h -> is_block g req b ->
  mean_level 1 h req local b = mean_level 1 g req local b + k.
Proof.
  intros Wg Hw Hh Sh B. unfold mean_level. rewrite (near_blocks_shift k req local g h Sh).
  rewrite (map_ext_in _ (fun c => scaled_mean 1 (block_pixels g req c) + k)).
  - rewrite <- (map_map (fun c => scaled_mean 1 (block_pixels g req c)) (plus k)), zsum_plus, zlen_map. apply Z.div_add.
    pose proof (self_near g req local Wg Hw Hh b B) as I.
    destruct (near_blocks g req local b); [destruct I|]. rewrite zlen_cons. pose proof (zlen_nonneg l). lia.
  - intros c Hc. assert (Bc : is_block g req c) by (eapply near_blocks_ok; eauto). rewrite (block_shift k req g h Wg Hw Hh Sh c Bc). apply scaled_shift.
    intros E. pose proof (block_area g req Wg Hw Hh c Bc) as A. rewrite E in A. change (zlen (@nil Z)) with 0 in A. lia.
Qed.
Lemma block_mean_shift t k local down c g o h o2 req st st2 : t = U8 \/ t = U16 ->
  S_Block.fits exact c g o req -> typed t g -> typed t h -> g_width g * g_height g * ity_max t < 4294967296 ->
  shifted k g h -> wf h -> wf o2 -> same_size g o2 ->
  ready (block_mean (int_bmean exact t 1%Q) 0 local down) st -> ready (block_mean (int_bmean exact t 1%Q) 0 local down) st2 ->
  exists s r s2 r2, block_process (block_mean (int_bmean exact t 1%Q) 0 local down) exact c st g o = Ok (s, r) /\
    block_process (block_mean (int_bmean exact t 1%Q) 0 local down) exact c st2 h o2 = Ok (s2, r2) /\ alike r r2.
Proof.
  intros T F Tg Th Hn Sh Wh Wo2 (Z1 & Z2) R1 R2. pose proof F as (Wg & _ & _ & _ & _ & Hw & Hh). pose proof (proj1 Sh) as Sz. pose proof Sz as (S1 & S2).
  pose proof (fits_shift exact c k g h o2 req Wh Wo2 Sh Z1 Z2 o F) as F2.
  destruct (mean_fits t 1%Q local down c g o req st T ltac:(split; [discriminate|apply Qle_refl]) F Tg Hn R1) as (s & r & E1 & _ & (A1 & A2 & _ & A3 & _)).
  destruct (mean_fits t 1%Q local down c h o2 req st2 T ltac:(split; [discriminate|apply Qle_refl]) F2 Th ltac:(rewrite S1, S2; auto) R2) as (s2 & r2 & E2 & _ & (B1 & B2 & _ & B3 & _)).
  exists s, r, s2, r2. do 2 (split; auto). apply (same_result g h r r2 _ _ Sz A1 A2 B1 B2 A3 B3). intros x y I.
  destruct (pixel_exists g x y Wg I) as (v & Ev). rewrite Ev, (proj2 Sh _ _ _ Ev). rewrite (home_shift k req g h Sh), (mean_level_shift k req local g h) by (auto; now apply home_block).
  do 2 f_equal. lia.
Qed.

(** ** Ranges *)
Lemma lowest_shift k l : l <> [] -> lowest (map (plus k) l) = lowest l + k.
Proof.
  destruct l as [|a l]; [congruence|]. intros _. cbn. revert a. induction l as [|c l IH]; intros a; cbn; auto. rewrite <- IH. f_equal. lia.
Qed.
Lemma highest_shift k l : l <> [] -> highest (map (plus k) l) = highest l + k.
Proof.
  destruct l as [|a l]; [congruence|]. intros _. cbn. revert a. induction l as [|c l IH]; intros a; cbn; auto. rewrite <- IH. f_equal. lia.
Qed.
Lemma range_shift spread down k l v : l <> [] -> range_value spread 1 down (map (plus k) l) (v + k) = range_value spread 1 down l v.
Proof.
  intros N. unfold range_value. rewrite lowest_shift, highest_shift by auto. replace (highest l + k - (lowest l + k)) with (highest l - lowest l) by lia.
  destruct (_ <=? Qfloor spread); auto. f_equal. rewrite !Qmult_1_l, !Qfloor_Z.
  replace (highest l + k + (lowest l + k)) with (highest l + lowest l + k * 2) by lia. rewrite Z.div_add by lia. lia.
Qed.
Lemma near_nonempty (g : gray Z) req local b : wf g -> 1 <= req <= g_width g -> 1 <= req <= g_height g -> is_block g req b -> near_pixels g req local b <> [].
Proof.
  intros Wg Hw Hh B E. assert (A := block_area g req Wg Hw Hh b B). destruct (block_pixels g req b) as [|v l] eqn:P; [change (zlen (@nil Z)) with 0 in A; lia|].
  assert (I : In v (near_pixels g req local b)) by (unfold near_pixels; apply in_flat_map; exists b; split; [now apply self_near|rewrite P; now left]).
  rewrite E in I. destruct I.
Qed.
Lemma block_minmax_shift t spread k local down c g o h o2 req st st2 : t = U8 \/ t = U16 -> (0 <= spread)%Q -> (spread < inject_Z 4294967296)%Q ->
  S_Block.fits exact c g o req -> typed t g -> typed t h -> cols g req * rows g req * 2 < 4294967296 ->
  shifted k g h -> wf h -> wf o2 -> same_size g o2 ->
  ready (block_minmax (int_bminmax exact t spread 1%Q) 0 local down) st -> ready (block_minmax (int_bminmax exact t spread 1%Q) 0 local down) st2 ->
  exists s r s2 r2, block_process (block_minmax (int_bminmax exact t spread 1%Q) 0 local down) exact c st g o = Ok (s, r) /\
    block_process (block_minmax (int_bminmax exact t spread 1%Q) 0 local down) exact c st2 h o2 = Ok (s2, r2) /\ alike r r2.
Proof.
  intros T P1 P2 F Tg Th Hn Sh Wh Wo2 (Z1 & Z2) R1 R2. pose proof F as (Wg & _ & _ & _ & _ & Hw & Hh). pose proof (proj1 Sh) as Sz. pose proof Sz as (S1 & S2).
  pose proof (fits_shift exact c k g h o2 req Wh Wo2 Sh Z1 Z2 o F) as F2.
  assert (M : (1 * inject_Z (ity_max t) < inject_Z 4294967296)%Q) by (destruct T as [-> | ->]; reflexivity).
  destruct (minmax_fits t spread 1%Q local down c g o req st T ltac:(discriminate) M P1 P2 F Tg Hn R1) as (s & r & E1 & _ & (A1 & A2 & _ & A3 & _)).
  destruct (minmax_fits t spread 1%Q local down c h o2 req st2 T ltac:(discriminate) M P1 P2 F2 Th ltac:(unfold cols, rows in *; rewrite S1, S2; auto) R2)
    as (s2 & r2 & E2 & _ & (B1 & B2 & _ & B3 & _)).
  exists s, r, s2, r2. do 2 (split; auto). apply (same_result g h r r2 _ _ Sz A1 A2 B1 B2 A3 B3). intros x y I.
  destruct (pixel_exists g x y Wg I) as (v & Ev). rewrite Ev, (proj2 Sh _ _ _ Ev). pose proof (home_block g req Hw Hh x y I) as Hb.
  rewrite (home_shift k req g h Sh), (near_shift k req local g h Wg Hw Hh Sh) by auto. rewrite range_shift; auto. now apply near_nonempty.
Qed.

(** ** Otsu *)
Section Bytes.
Variables (l : list Z) (k : Z).
Hypothesis Hk : 0 <= k.
Hypothesis Vl : forall v, In v l -> 0 <= v <= 255.
Hypothesis Vk : forall v, In v l -> v + k <= 255.
Hypothesis Ne : l <> [].
Let a := map (fun i => zcount i l) (zrange (256 - k)).
Let small : k <= 255.
Proof. destruct l as [|v r] eqn:E; [congruence|]. rewrite <- E in *. assert (I : In v l) by (rewrite E; now left). specialize (Vk v I). specialize (Vl v I). lia. Qed.
Lemma bytes_low : byte_counts l = a ++ repeat 0 (Z.to_nat k).
Proof.
  unfold byte_counts, a. replace 256 with (256 - k + k) at 1 by lia. rewrite zrange_plus by lia. rewrite map_app. f_equal.
  rewrite map_map, map_zero, zrange_len; auto. intros i Hi. apply zrange_In in Hi. apply zcount_none. intros v Iv E. specialize (Vk v Iv). lia.
Qed.
Lemma bytes_high : byte_counts (map (plus k) l) = repeat 0 (Z.to_nat k) ++ a.
Proof.
  unfold byte_counts, a. replace 256 with (k + (256 - k)) at 1 by lia. rewrite zrange_plus by lia. rewrite map_app. f_equal.
  - rewrite map_zero, zrange_len; auto. intros i Hi. apply zrange_In in Hi. apply zcount_none. intros v Iv E.
    apply in_map_iff in Iv as (u & Eu & Iu). specialize (Vl u Iu). lia.
  - rewrite map_map. apply map_ext. intros i. rewrite (Z.add_comm k i). apply zcount_map.
Qed.
Hypothesis Two : exists u v, In u l /\ In v l /\ u < v.
Hypothesis Few : zlen l < 4294967296.
Lemma bytes_positive s : best_split (byte_counts l) s -> (0 < separation (byte_counts l) s)%Q.
Proof.
  destruct Two as (u & v & Iu & Iv & Lt). intros B. destruct (byte_counts_ok l Vl Few) as (C & _ & _ & _). pose proof (Vl u Iu). pose proof (Vl v Iv).
  assert (N : forall i, 0 <= i <= 255 -> znth (byte_counts l) i = Some (zcount i l)).
  { intros i Hi. unfold byte_counts. rewrite znth_map, znth_zrange by lia. reflexivity. }
  apply (best_two (byte_counts l) s u v (zcount u l) (zcount v l)); auto; try apply N; try lia; now apply zcount_pos.
Qed.
Lemma bytes_split s s' : best_split (byte_counts l) s -> best_split (byte_counts (map (plus k) l)) s' -> s' = s + k.
Proof.
  intros B B'. pose proof (bytes_positive s B) as P. rewrite bytes_low in B, P. rewrite bytes_high in B'.
  apply (best_split_unique _ _ _ B'). apply best_moved; auto.
Qed.
End Bytes.
Lemma bytes_split_any l k s s' : (forall v, In v l -> 0 <= v <= 255) -> (forall v, In v l -> 0 <= v + k <= 255) -> (exists u v, In u l /\ In v l /\ u < v) ->
  zlen l < 4294967296 -> best_split (byte_counts l) s -> best_split (byte_counts (map (plus k) l)) s' -> s' = s + k.
Proof.
  intros V1 V2 Tw Few B B'. assert (Ne : l <> []) by (destruct Tw as (u & _ & I & _); intros ->; destruct I).
  destruct (Z.le_ge_cases 0 k) as [K|K].
  - apply (bytes_split l k); auto. intros v I. apply V2; auto.
  - assert (Bk : l = map (plus (- k)) (map (plus k) l)).
    { rewrite map_map. rewrite <- (map_id l) at 1. apply map_ext. intros; lia. }
    assert (s = s' + - k); [|lia]. rewrite Bk in B.
    assert (I2 : forall v, In v (map (plus k) l) -> exists u, v = u + k /\ In u l) by (intros v I; apply in_map_iff in I as (u & <- & I); eauto).
    apply (bytes_split (map (plus k) l) (- k)); auto; try lia.
    + intros v I. destruct (I2 v I) as (u & -> & Iu). auto.
    + intros v I. destruct (I2 v I) as (u & -> & Iu). specialize (V1 u Iu). lia.
    + intros E. apply map_eq_nil in E. auto.
    + destruct Tw as (u & v & Iu & Iv & Lt). exists (u + k), (v + k). repeat split; try (apply in_map_iff; eauto). lia.
    + now rewrite zlen_map.
Qed.

(** ** The second method: the middle between the means *)
Definition level (l : list Z) (t : Z) : Prop := exists s, best_split l s /\
  ((0 < separation l s)%Q -> nearest ((low_mean l s + high_mean l s) / 2) t) /\ (~ (0 < separation l s)%Q -> t = 0).
Lemma means_moved (a : list Z) k i : 0 <= k -> 0 <= i < zlen a -> 0 < zsum (below (a ++ repeat 0 (Z.to_nat k)) i) -> 0 < zsum (above (a ++ repeat 0 (Z.to_nat k)) i) ->
  (low_mean (repeat 0%Z (Z.to_nat k) ++ a) (i + k)%Z == low_mean (a ++ repeat 0%Z (Z.to_nat k)) i + inject_Z k)%Q /\
  (high_mean (repeat 0%Z (Z.to_nat k) ++ a) (i + k)%Z == high_mean (a ++ repeat 0%Z (Z.to_nat k)) i + inject_Z k)%Q.
Proof.
  intros Hk Hi P0 S0. destruct (below_low a k i) as (B1 & A1); try lia. destruct (below_high a k Hk i) as (B2 & A2); try lia.
  unfold low_mean, high_mean. rewrite B1 in *. rewrite A1 in *. rewrite B2, A2.
  set (p := firstn _ a) in *. set (s := skipn _ a) in *. set (z := repeat 0 (Z.to_nat k)) in *.
  assert (zl : zlen z = k) by (unfold z; rewrite zlen_repeat; lia).
  assert (E1 : zsum (z ++ p) = zsum p) by (rewrite zsum_app2; unfold z; rewrite zsum_zeros; lia).
  assert (E2 : zsum (s ++ z) = zsum s) by (rewrite zsum_app2; unfold z; rewrite zsum_zeros; lia).
  assert (E3 : moment 0 (z ++ p) = moment 0 p + k * zsum p).
  { rewrite moment_app, zl. unfold z. rewrite moment_zeros. rewrite (moment_from p 0 k). lia. }
  assert (E4 : moment (i + 1) (s ++ z) = moment (i + 1) s) by (rewrite moment_app; unfold z; rewrite moment_zeros; lia).
  assert (E5 : moment (i + k + 1) s = moment (i + 1) s + k * zsum s).
  { replace (i + k + 1) with (i + 1 + k) by lia. apply moment_from. }
  rewrite E2 in S0. rewrite E1, E2, E3, E4, E5. pose proof (inj_neq (zsum p) ltac:(lia)). pose proof (inj_neq (zsum s) ltac:(lia)).
  rewrite !inject_Z_plus, !inject_Z_mult. split; field; auto.
Qed.
Lemma nearest_unique q q' z z' : (q == q')%Q -> nearest q z -> nearest q' z' -> z = z'.
Proof.
  intros E (A1 & A2) (B1 & B2). assert (C1 : (inject_Z z < inject_Z (z' + 1))%Q) by (rewrite inject_Z_plus; change (inject_Z 1) with 1%Q; lra).
  assert (C2 : (inject_Z z' < inject_Z (z + 1))%Q) by (rewrite inject_Z_plus; change (inject_Z 1) with 1%Q; lra). rewrite <- Zlt_Qlt in C1, C2. lia.
Qed.
Lemma level_shift l k t t' : 0 <= k -> (forall v, In v l -> 0 <= v <= 255) -> (forall v, In v l -> v + k <= 255) -> (exists u v, In u l /\ In v l /\ u < v) ->
  zlen l < 4294967296 -> level (byte_counts l) t -> level (byte_counts (map (plus k) l)) t' -> t' = t + k.
Proof.
  intros Hk V1 V2 Tw Few (s & B & N & _) (s' & B' & N' & _). assert (Ne : l <> []) by (destruct Tw as (u & _ & I & _); intros ->; destruct I).
  pose proof (bytes_positive l k V1 V2 Tw Few s B) as P. pose proof (bytes_split l k Hk V1 V2 Ne Tw Few s s' B B') as ->. specialize (N P).
  destruct (byte_counts_ok l V1 Few) as (C & _ & _ & _). pose proof P as P2. apply separation_pos in P2; auto; [|apply B]. destruct P2 as (P3 & P4).
  pose proof (bytes_low l k Hk V1 V2 Ne) as L. pose proof (bytes_high l k Hk V1 V2 Ne) as H. set (a := map (fun i => zcount i l) (zrange (256 - k))) in *. clearbody a.
  rewrite L in *. rewrite H in *.
  assert (Ra : 0 <= s < zlen a).
  { split; [apply B|]. destruct (Z.lt_ge_cases s (zlen a)); auto. rewrite (empty_high a k s) in P by auto. exfalso. revert P. apply Qlt_irrefl. }
  destruct (means_moved a k s Hk Ra P3 P4) as (M1 & M2).
  assert (P' : (0 < separation (repeat 0%Z (Z.to_nat k) ++ a) (s + k)%Z)%Q) by (rewrite (moved a k Hk s Ra); auto). specialize (N' P').
  symmetry. apply (nearest_unique (((low_mean (a ++ repeat 0%Z (Z.to_nat k)) s + high_mean (a ++ repeat 0%Z (Z.to_nat k)) s) / 2) + inject_Z k)%Q _ (t + k) t') in N'; auto.
  - rewrite M1, M2. field.
  - destruct N as (N1 & N2). unfold nearest. rewrite inject_Z_plus. split; lra.
Qed.
Lemma level_shift_any l k t t' : (forall v, In v l -> 0 <= v <= 255) -> (forall v, In v l -> 0 <= v + k <= 255) -> (exists u v, In u l /\ In v l /\ u < v) ->
  zlen l < 4294967296 -> level (byte_counts l) t -> level (byte_counts (map (plus k) l)) t' -> t' = t + k.
Proof.
  intros V1 V2 Tw Few B B'. destruct (Z.le_ge_cases 0 k) as [K|K].
  - apply (level_shift l k); auto. intros v I. apply V2; auto.
  - assert (Bk : l = map (plus (- k)) (map (plus k) l)).
    { rewrite map_map. rewrite <- (map_id l) at 1. apply map_ext. intros; lia. }
    assert (t = t' + - k); [|lia]. rewrite Bk in B.
    assert (I2 : forall v, In v (map (plus k) l) -> exists u, v = u + k /\ In u l) by (intros v I; apply in_map_iff in I as (u & <- & I); eauto).
    apply (level_shift (map (plus k) l) (- k)); auto; try lia.
    + intros v I. destruct (I2 v I) as (u & -> & Iu). auto.
    + intros v I. destruct (I2 v I) as (u & -> & Iu). specialize (V1 u Iu). lia.
    + destruct Tw as (u & v & Iu & Iv & Lt). exists (u + k), (v + k). repeat split; try (apply in_map_iff; eauto). lia.
    + now rewrite zlen_map.
Qed.
Lemma block_otsu_shift two k local down c g o h o2 req st st2 :
  S_Block.fits exact c g o req -> typed U8 g -> typed U8 h -> cols g req * rows g req * 256 < 4294967296 -> g_width g * g_height g < 2147483648 ->
  shifted k g h -> wf h -> wf o2 -> same_size g o2 -> varied g req local ->
  ready (block_otsu exact int_u8 two 0%Q 1%Q local down) st -> ready (block_otsu exact int_u8 two 0%Q 1%Q local down) st2 ->
  exists s r s2 r2, block_process (block_otsu exact int_u8 two 0%Q 1%Q local down) exact c st g o = Ok (s, r) /\
    block_process (block_otsu exact int_u8 two 0%Q 1%Q local down) exact c st2 h o2 = Ok (s2, r2) /\ alike r r2.
Proof.
  intros F Tg Th Hn Hn2 Sh Wh Wo2 (Z1 & Z2) V R1 R2. pose proof F as (Wg & _ & _ & _ & _ & Hw & Hh). pose proof (proj1 Sh) as Sz. pose proof Sz as (S1 & S2).
  pose proof (fits_shift exact c k g h o2 req Wh Wo2 Sh Z1 Z2 o F) as F2.
  assert (G : forall g o st, S_Block.fits exact c g o req -> typed U8 g -> cols g req * rows g req * 256 < 4294967296 -> g_width g * g_height g < 2147483648 ->
    ready (block_otsu exact int_u8 two 0%Q 1%Q local down) st ->
    exists s r th, block_process (block_otsu exact int_u8 two 0%Q 1%Q local down) exact c st g o = Ok (s, r) /\
      (forall b, is_block g req b -> if two then level (byte_counts (near_pixels g req local b)) (th b) else best_split (byte_counts (near_pixels g req local b)) (th b)) /\
      S_Convolve.holds g o r (fun x y => match pixel g x y with Some v => Some (side down (v <=? th (home g req x y))) | None => None end)).
  { clear. intros g o st F T N1 N2 R. destruct two.
    - destruct (otsu2_fits local down c g o req st F T N1 N2 R) as (s & r & th & E & _ & Q & H). exists s, r, th. auto.
    - destruct (otsu_fits local down c g o req st F T N1 N2 R) as (s & r & th & E & _ & Q & H). exists s, r, th. auto. }
  destruct (G g o st F Tg Hn Hn2 R1) as (s & r & th & E1 & Q1 & (A1 & A2 & _ & A3 & _)).
  destruct (G h o2 st2 F2 Th ltac:(unfold cols, rows in *; rewrite S1, S2; auto) ltac:(rewrite S1, S2; auto) R2)
    as (s2 & r2 & th2 & E2 & Q2 & (B1 & B2 & _ & B3 & _)).
  exists s, r, s2, r2. do 2 (split; auto). apply (same_result g h r r2 _ _ Sz A1 A2 B1 B2 A3 B3). intros x y I.
  destruct (pixel_exists g x y Wg I) as (v & Ev). rewrite Ev, (proj2 Sh _ _ _ Ev). pose proof (home_block g req Hw Hh x y I) as Hb.
  rewrite (home_shift k req g h Sh). set (b := home g req x y) in *.
  assert (Hb2 : is_block h req b) by (unfold is_block, cols, rows in *; rewrite S1, S2; auto).
  specialize (Q1 b Hb). specialize (Q2 b Hb2). rewrite (near_shift k req local g h Wg Hw Hh Sh b Hb) in Q2.
  assert (Y : forall u, In u (near_pixels g req local b) -> exists x y, pixel g x y = Some u).
  { intros u Iu. unfold near_pixels in Iu. apply in_flat_map in Iu as (d & Id & Iu). apply (block_pixels_In g req Hw Hh) in Iu as (x' & y' & _ & E); eauto.
    eapply near_blocks_ok; eauto. }
  assert (X : th2 b = th b + k).
  { assert (J1 : forall u, In u (near_pixels g req local b) -> 0 <= u <= 255) by (intros u Iu; destruct (Y u Iu) as (x' & y' & E); apply (Tg _ _ _ E)).
    assert (J2 : forall u, In u (near_pixels g req local b) -> 0 <= u + k <= 255) by (intros u Iu; destruct (Y u Iu) as (x' & y' & E); apply (Th _ _ _ (proj2 Sh _ _ _ E))).
    pose proof (near_pixels_len g req local Wg Hw Hh b Hb).
    destruct two; [apply (level_shift_any (near_pixels g req local b) k)|apply (bytes_split_any (near_pixels g req local b) k)]; auto; lia. }
  rewrite X. do 2 f_equal. lia.
Qed.

(** ** Counterexamples *)
Definition dim : gray Z := mkGray 2 1 0 2 false [10; 20].
Definition lit : gray Z := mkGray 2 1 0 2 false [110; 120].
Definition dark : gray Z := mkGray 2 1 0 2 false [0; 0].
Definition grey : gray Z := mkGray 2 1 0 2 false [7; 7].
Definition page : gray Z := mkGray 2 1 0 2 false [0; 0].
Lemma small_pixel (a b : Z) x y v : pixel (mkGray 2 1 0 2 false [a; b]) x y = Some v -> (x = 0 /\ v = a \/ x = 1 /\ v = b) /\ y = 0.
Proof.
  intros E. pose proof (pixel_Some _ _ _ _ E) as [[X1 X2] [Y1 Y2]]. cbn in X2, Y2. assert (y = 0) as -> by lia.
  assert (x = 0 \/ x = 1) as [->| ->] by lia; cbn in E; injection E as <-; auto.
Qed.
Lemma small_shift a b k : shifted k (mkGray 2 1 0 2 false [a; b]) (mkGray 2 1 0 2 false [a + k; b + k]).
Proof. split; [split; reflexivity|]. intros x y v E. apply small_pixel in E as ([(-> & ->)|(-> & ->)] & ->); reflexivity. Qed.
Lemma small_typed a b : 0 <= a <= 255 -> 0 <= b <= 255 -> typed U8 (mkGray 2 1 0 2 false [a; b]).
Proof. intros A B x y v E. apply small_pixel in E as ([(-> & ->)|(-> & ->)] & ->); cbn; lia. Qed.
Lemma mean_scale_depends : exists k (g h o r r2 : gray Z) st s s2, shifted k g h /\ typed U8 g /\ typed U8 h /\
  S_Block.fits exact (clen_fixed exact 1%Q) g o 1 /\ S_Block.fits exact (clen_fixed exact 1%Q) h o 1 /\
  block_init (block_mean (int_bmean exact U8 (3 # 4)%Q) 0 true true) = Ok st /\
  block_process (block_mean (int_bmean exact U8 (3 # 4)%Q) 0 true true) exact (clen_fixed exact 1%Q) st g o = Ok (s, r) /\
  block_process (block_mean (int_bmean exact U8 (3 # 4)%Q) 0 true true) exact (clen_fixed exact 1%Q) st h o = Ok (s2, r2) /\
  pixel r 0 0 = Some 1 /\ pixel r2 0 0 = Some 0.
Proof.
  exists 100, dim, lit, page. eexists _, _, _, _, _. split; [apply (small_shift 10 20 100)|]. do 2 (split; [apply small_typed; lia|]).
  do 2 (split; [unfold S_Block.fits; repeat split; try (vm_compute; congruence); vm_compute in *; congruence|]).
  do 4 (split; [vm_compute; reflexivity|]). vm_compute; reflexivity.
Qed.
Lemma otsu_flat_depends : exists k (g h o r r2 : gray Z) st s s2, shifted k g h /\ typed U8 g /\ typed U8 h /\
  S_Block.fits exact (clen_fixed exact 1%Q) g o 1 /\ S_Block.fits exact (clen_fixed exact 1%Q) h o 1 /\
  block_init (block_otsu exact int_u8 false 0%Q 1%Q true true) = Ok st /\
  block_process (block_otsu exact int_u8 false 0%Q 1%Q true true) exact (clen_fixed exact 1%Q) st g o = Ok (s, r) /\
  block_process (block_otsu exact int_u8 false 0%Q 1%Q true true) exact (clen_fixed exact 1%Q) st h o = Ok (s2, r2) /\
  pixel r 0 0 = Some 1 /\ pixel r2 0 0 = Some 0.
Proof.
  exists 7, dark, grey, page. eexists _, _, _, _, _. split; [apply (small_shift 0 0 7)|]. do 2 (split; [apply small_typed; lia|]).
  do 2 (split; [unfold S_Block.fits; repeat split; try (vm_compute; congruence); vm_compute in *; congruence|]).
  do 4 (split; [vm_compute; reflexivity|]). vm_compute; reflexivity.
Qed.

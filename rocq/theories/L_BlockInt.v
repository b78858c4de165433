(** Lemmas about thresholding integer images by blocks, in exact arithmetic. *)
From Coq Require Import QArith Qround Lqa Floats.SpecFloat.
From Verif Require Import BaseFacts M_Image M_Convolve S_Image L_Image L_Inter M_GrowArray M_PackedSet M_Float M_Stats M_Misc S_Convolve S_Blur L_Blur S_Stats
  L_Stats M_Otsu S_Otsu L_Otsu L_OtsuImage M_Config M_Block S_Block L_Block L_BlockVar L_BlockOtsu.
Open Scope Z_scope.

Lemma d_to_exact_t t q : (0 <= q)%Q -> Qfloor q <= ity_max t -> d_to exact t q = Ok (Qfloor q).
Proof.
  intros Hq Hm. unfold d_to. rewrite d_int_exact by auto. assert (0 <= Qfloor q) by (apply (Qfloor_resp_le 0 q); auto).
  replace ((ity_min t <=? Qfloor q) && (Qfloor q <=? ity_max t)) with true; auto. assert (ity_min t <= 0) by (destruct t; cbn; lia). lia.
Qed.
Lemma floor_le q z : (q < inject_Z (z + 1))%Q -> Qfloor q <= z.
Proof. intros H. apply Z.lt_succ_r. apply Qlt_le_trans with (z := inject_Z (z + 1)) in H || idtac. 2: apply Qle_refl.
  pose proof (Qfloor_le q) as L. assert (X : (inject_Z (Qfloor q) < inject_Z (z + 1))%Q) by lra. rewrite <- Zlt_Qlt in X. lia. Qed.
Lemma floor_nonneg q : (0 <= q)%Q -> 0 <= Qfloor q.
Proof. intros H. exact (Qfloor_resp_le 0 q H). Qed.

Lemma mfold_sum st l : forall s, (forall k v r, l = k ++ v :: r -> ity_min st <= s + zsum (k ++ [v]) <= ity_max st) ->
  mfold (fun v s => arith_result st (s + v)) l s = Ok (s + zsum l).
Proof.
  induction l as [|v l IH]; intros s H; cbn [mfold]; [cbn; now rewrite Z.add_0_r|].
  pose proof (H [] v l eq_refl) as H0. cbn [app] in H0. rewrite zsum_cons in H0. change (zsum []) with 0 in H0.
  rewrite arith_result_in by lia. cbn [bind]. rewrite IH.
  - rewrite zsum_cons. f_equal. lia.
  - intros k w r E. specialize (H (v :: k) w r ltac:(now rewrite E)). cbn [app] in H. rewrite zsum_cons in H. lia.
Qed.
Lemma sum_prefix lo hi l (k : list Z) v r : l = k ++ v :: r -> 0 <= lo -> (forall w, In w l -> lo <= w <= hi) -> 0 <= zsum (k ++ [v]) <= zsum l.
Proof.
  intros -> Hlo H. replace (k ++ v :: r) with ((k ++ [v]) ++ r) in * by now rewrite <- app_assoc.
  rewrite (L_Blur.zsum_app (k ++ [v]) r).
  assert (0 <= zsum (k ++ [v])) by (apply zsum_nonneg; intros w Hw; specialize (H w ltac:(apply in_or_app; now left)); lia).
  assert (0 <= zsum r) by (apply zsum_nonneg; intros w Hw; specialize (H w ltac:(apply in_or_app; now right)); lia). lia.
Qed.

Lemma holds_ext {E R} (g : gray E) (o out : gray R) F F' : (forall x y, inside g x y -> F x y = F' x y) -> holds g o out F -> holds g o out F'.
Proof. intros H (H1 & H2 & H3 & H4 & H5). split; auto. split; auto. split; auto. split; auto. intros x y I. rewrite <- H; auto. Qed.

(** ** Mean *)
Section Mean.
Variables (t : ity) (scale : Q) (local down : bool) (c : clen Q) (g : gray Z) (o : gray Z) (req : Z).
Hypothesis Ht : t = U8 \/ t = U16.
Hypothesis Hs : (0 <= scale)%Q.
Hypothesis Hs1 : (scale <= 1)%Q.
Hypothesis Hg : wf g.
Hypothesis Hp : forall x y v, pixel g x y = Some v -> 0 <= v <= ity_max t.
Hypothesis Ho : wf o.
Hypothesis Ew : g_width o = g_width g.
Hypothesis Eh : g_height o = g_height g.
Hypothesis Hc : clen_computeI exact c (inject_Z (Z.min (g_width g) (g_height g))) = Ok req.
Hypothesis Hw : 1 <= req <= g_width g.
Hypothesis Hh : 1 <= req <= g_height g.
Hypothesis Hn : g_width g * g_height g * ity_max t < 4294967296.
Notation M := (int_bmean exact t scale).

Lemma block_values b v : is_block g req b -> In v (block_pixels g req b) -> 0 <= v <= ity_max t.
Proof. intros B Hv. apply (block_pixels_In g req Hw Hh) in Hv; auto. destruct Hv as (x & y & _ & E). eauto. Qed.
Lemma t_max : 0 < ity_max t /\ sum_type t = U32.
Proof. destruct Ht as [-> | ->]; split; (reflexivity || lia). Qed.

Lemma scaled_range b : is_block g req b -> 0 <= scaled_mean scale (block_pixels g req b) <= ity_max t /\
  mean_stat M g req b = Ok (scaled_mean scale (block_pixels g req b)).
Proof.
  intros B. pose proof t_max as [T1 T2]. pose proof (block_area g req Hg Hw Hh b B) as A.
  pose proof (zsum_range 0 (ity_max t) (block_pixels g req b) (fun v => block_values b v B)) as S.
  assert (S1 : zsum (block_pixels g req b) < 4294967296).
  { assert (ity_max t * zlen (block_pixels g req b) <= ity_max t * (g_width g * g_height g)) by (apply Z.mul_le_mono_nonneg_l; lia). lia. }
  set (l := block_pixels g req b) in *.
  assert (Q0 : (0 < inject_Z (zlen l))%Q) by (apply inj_pos; lia).
  set (q := (scale * inject_Z (zsum l) / inject_Z (zlen l))%Q).
  assert (Q1 : (0 <= q)%Q).
  { unfold q, Qdiv. apply Qmult_le_0_compat; [apply Qmult_le_0_compat; auto; apply inj_nonneg; lia|]. apply Qinv_le_0_compat. lra. }
  assert (Q2 : (q <= inject_Z (ity_max t))%Q).
  { unfold q. apply Qle_shift_div_r; auto. rewrite <- inject_Z_mult.
    assert (scale * inject_Z (zsum l) <= 1 * inject_Z (zsum l))%Q by (apply Qmult_le_compat_r; auto; apply inj_nonneg; lia).
    assert (inject_Z (zsum l) <= inject_Z (ity_max t * zlen l))%Q by (rewrite <- Zle_Qle; lia). lra. }
  assert (R : 0 <= scaled_mean scale l <= ity_max t).
  { unfold scaled_mean. fold q. split; [apply floor_nonneg; lra|]. apply floor_le. rewrite inject_Z_plus. change (inject_Z 1) with 1%Q. lra. }
  split; auto. unfold mean_stat. fold l. cbn [bm_add bm_zero bm_stat int_bmean]. rewrite T2. rewrite mfold_sum.
  2:{ intros k v r E. pose proof (sum_prefix 0 (ity_max t) l k v r E ltac:(lia) (fun v => block_values b v B)). cbn; lia. }
  cbn [bind]. rewrite Z.add_0_l. rewrite d_to_exact_t.
  - cbn [bind]. change (Qfloor _) with (scaled_mean scale l). rewrite cast_id; auto. destruct Ht as [-> | ->]; cbn in *; lia.
  - cbn [d_add d_div d_mul d_of exact d_half]. unfold d_half. cbn [d_div d_of exact]. fold q. change (inject_Z 1 / inject_Z 2)%Q with (1 # 2). lra.
  - change (Qfloor _) with (scaled_mean scale l). cbn [ity_max]. destruct Ht as [-> | ->]; cbn in *; lia.
Qed.

Lemma level_ok b : is_block g req b -> 0 <= mean_level scale g req local b <= ity_max t /\
  mean_threshold M g req local b = Ok (mean_level scale g req local b).
Proof.
  intros B. pose proof t_max as [T1 T2]. pose proof (near_len_small local g req Hg Hw Hh b B) as NL.
  pose proof (counts_small g req Hg Hw Hh) as CS.
  set (n := near_blocks g req local b) in *. set (l := map (fun c => scaled_mean scale (block_pixels g req c)) n).
  assert (V : forall v, In v l -> 0 <= v <= ity_max t).
  { intros v Hv. apply in_map_iff in Hv. destruct Hv as (c0 & <- & Hc0). apply scaled_range. eapply near_blocks_ok; eauto. }
  pose proof (zsum_range 0 (ity_max t) l V) as S. assert (LL : zlen l = zlen n) by apply zlen_map. rewrite LL in S.
  assert (S1 : zsum l < 4294967296).
  { assert (ity_max t * zlen n <= ity_max t * (g_width g * g_height g)) by (apply Z.mul_le_mono_nonneg_l; lia). lia. }
  assert (R : 0 <= zsum l / zlen n <= ity_max t).
  { split; [apply Z.div_pos; lia|]. apply Z.div_le_upper_bound; lia. }
  unfold mean_level. fold n. fold l. split; auto.
  unfold mean_threshold. fold n. cbn [bm_add bm_zero bm_mean int_bmean]. rewrite T2.
  replace (mfold _ n 0) with (mfold (fun v s => arith_result U32 (s + v)) l 0).
  2:{ unfold l. rewrite mfold_map. apply mfold_ext. intros a s Ha.
      destruct (scaled_range a) as [_ E]; [eapply near_blocks_ok; eauto|]. now rewrite E. }
  rewrite mfold_sum.
  2:{ intros k v r E. pose proof (sum_prefix 0 (ity_max t) l k v r E ltac:(lia) V). cbn; lia. }
  cbn [bind]. rewrite Z.add_0_l. unfold div_u32. replace (zlen n =? 0) with false by lia. cbn [bind].
  rewrite u32_id by lia. rewrite cast_id; auto. destruct Ht as [-> | ->]; cbn in *; lia.
Qed.

Lemma mean_int st0 : ready (block_mean M 0 local down) st0 ->
  exists st out, block_process (block_mean M 0 local down) exact c st0 g o = Ok (st, out) /\ ready (block_mean M 0 local down) st /\
    holds g o out (fun x y => match pixel g x y with
      | Some v => Some (side down (v <=? mean_level scale g req local (home g req x y))) | None => None end).
Proof.
  intros R. destruct (mean_ok M 0 local down exact c g o req Hg Ho Ew Eh Hc Hw Hh) with (st0 := st0) as (st & out & E & R' & H); auto.
  - intros b B. eexists. apply scaled_range; auto.
  - intros b B. eexists. apply level_ok; auto.
  - exists st, out. split; auto. split; auto. eapply holds_ext; [|exact H]. intros x y I. cbn beta.
    unfold mean_value. destruct (pixel_exists g x y Hg I) as (v & ->). destruct (level_ok _ (home_block g req Hw Hh x y I)) as [_ ->]. reflexivity.
Qed.
End Mean.

(** ** Min and max *)
Lemma fmin_app a l k : fold_left Z.min (l ++ k) a = fold_left Z.min k (fold_left Z.min l a).
Proof. apply fold_left_app. Qed.
Lemma fmin_min l : forall a b, fold_left Z.min l (Z.min a b) = Z.min a (fold_left Z.min l b).
Proof. induction l as [|v l IH]; intros a b; cbn; auto. rewrite <- IH. f_equal. lia. Qed.
Lemma fmax_max l : forall a b, fold_left Z.max l (Z.max a b) = Z.max a (fold_left Z.max l b).
Proof. induction l as [|v l IH]; intros a b; cbn; auto. rewrite <- IH. f_equal. lia. Qed.
Lemma fmin_lowest a l : l <> [] -> fold_left Z.min l a = Z.min a (lowest l).
Proof. destruct l as [|v l]; [congruence|]. intros _. cbn. apply fmin_min. Qed.
Lemma fmax_highest a l : l <> [] -> fold_left Z.max l a = Z.max a (highest l).
Proof. destruct l as [|v l]; [congruence|]. intros _. cbn. apply fmax_max. Qed.
Lemma lowest_In l : l <> [] -> In (lowest l) l /\ forall v, In v l -> lowest l <= v.
Proof.
  destruct l as [|a l]; [congruence|]. intros _. cbn [lowest]. revert a. induction l as [|b l IH]; intros a; cbn [fold_left].
  - split; [now left|]. intros v [->|[]]. lia.
  - destruct (IH (Z.min a b)) as [I1 I2]. split.
    + destruct I1 as [I1|I1]; [|right; now right]. rewrite <- I1. destruct (Z.min_spec a b) as [[_ ->]|[_ ->]]; [now left|right; now left].
    + intros v [->|[->|Hv]]; [|pose proof (I2 (Z.min a v) (or_introl eq_refl)); lia|apply I2; now right].
      pose proof (I2 (Z.min v b) (or_introl eq_refl)); lia.
Qed.
Lemma highest_In l : l <> [] -> In (highest l) l /\ forall v, In v l -> v <= highest l.
Proof.
  destruct l as [|a l]; [congruence|]. intros _. cbn [highest]. revert a. induction l as [|b l IH]; intros a; cbn [fold_left].
  - split; [now left|]. intros v [->|[]]. lia.
  - destruct (IH (Z.max a b)) as [I1 I2]. split.
    + destruct I1 as [I1|I1]; [|right; now right]. rewrite <- I1. destruct (Z.max_spec a b) as [[_ ->]|[_ ->]]; [right; now left|now left].
    + intros v [->|[->|Hv]]; [|pose proof (I2 (Z.max a v) (or_introl eq_refl)); lia|apply I2; now right].
      pose proof (I2 (Z.max v b) (or_introl eq_refl)); lia.
Qed.

Section MinMax.
Variables (t : ity) (spread scale : Q) (local down : bool) (c : clen Q) (g : gray Z) (o : gray Z) (req : Z).
Hypothesis Ht : t = U8 \/ t = U16.
Hypothesis Hs : (0 <= scale)%Q.
Hypothesis Hs1 : (scale * inject_Z (ity_max t) < inject_Z 4294967296)%Q.
Hypothesis Hd : (0 <= spread)%Q.
Hypothesis Hd1 : (spread < inject_Z 4294967296)%Q.
Hypothesis Hg : wf g.
Hypothesis Hp : forall x y v, pixel g x y = Some v -> 0 <= v <= ity_max t.
Hypothesis Ho : wf o.
Hypothesis Ew : g_width o = g_width g.
Hypothesis Eh : g_height o = g_height g.
Hypothesis Hc : clen_computeI exact c (inject_Z (Z.min (g_width g) (g_height g))) = Ok req.
Hypothesis Hw : 1 <= req <= g_width g.
Hypothesis Hh : 1 <= req <= g_height g.
Hypothesis Hn : cols g req * rows g req * 2 < 4294967296.
Notation M := (int_bminmax exact t spread scale).

Lemma mm_fold l : forall mn mx, mn <= mx -> fold_left (mm_step M) l (mn, mx) = (fold_left Z.min l mn, fold_left Z.max l mx).
Proof.
  induction l as [|v l IH]; intros mn mx L; cbn [fold_left]; auto.
  replace (mm_step M (mn, mx) v) with (Z.min mn v, Z.max mx v); [apply IH; lia|].
  unfold mm_step. cbn [fst snd mm_lt int_bminmax]. destruct (v <? mn) eqn:E1; [f_equal; lia|]. destruct (mx <? v) eqn:E2; f_equal; lia.
Qed.
Lemma block_nonempty b : is_block g req b -> block_pixels g req b <> [].
Proof. intros B E. pose proof (block_area g req Hg Hw Hh b B) as A. rewrite E in A. change (zlen (@nil Z)) with 0 in A. lia. Qed.
Lemma mm_stat_ok b : is_block g req b -> mm_stat M g req b = (lowest (block_pixels g req b), highest (block_pixels g req b)).
Proof.
  intros B. unfold mm_stat. pose proof (block_nonempty b B). destruct (block_pixels g req b) as [|v l]; [congruence|].
  rewrite mm_fold by lia. cbn. now rewrite Z.min_id, Z.max_id.
Qed.
Lemma mm_joins bs : (forall b, In b bs -> is_block g req b) -> forall mn mx,
  fold_left (mm_join M) (map (mm_stat M g req) bs) (mn, mx) =
  (fold_left Z.min (flat_map (block_pixels g req) bs) mn, fold_left Z.max (flat_map (block_pixels g req) bs) mx).
Proof.
  induction bs as [|b bs IH]; intros H mn mx; cbn [map fold_left flat_map]; auto.
  rewrite (mm_stat_ok b) by (apply H; now left). rewrite !fold_left_app.
  assert (N := block_nonempty b (H b (or_introl eq_refl))). rewrite (fmin_lowest mn (block_pixels g req b)), (fmax_highest mx (block_pixels g req b)) by auto.
  unfold mm_join at 2. cbn [fst snd mm_lt int_bminmax].
  replace (if lowest (block_pixels g req b) <? mn then lowest (block_pixels g req b) else mn) with (Z.min mn (lowest (block_pixels g req b))).
  2:{ destruct (_ <? mn) eqn:E; lia. }
  replace (if mx <? highest (block_pixels g req b) then highest (block_pixels g req b) else mx) with (Z.max mx (highest (block_pixels g req b))).
  2:{ destruct (mx <? _) eqn:E; lia. }
  apply IH. intros b' Hb'. apply H. now right.
Qed.
Lemma near_values b : is_block g req b -> near_pixels g req local b <> [] /\ forall v, In v (near_pixels g req local b) -> 0 <= v <= ity_max t.
Proof.
  intros B. pose proof (near_len_small local g req Hg Hw Hh b B) as NL. unfold near_pixels. split.
  - destruct (near_blocks g req local b) as [|a l] eqn:E; [change (zlen (@nil (Z * Z))) with 0 in NL; lia|]. cbn. intros X. apply app_eq_nil in X. destruct X as [X _].
    apply (block_nonempty a); auto. eapply near_blocks_ok; eauto. rewrite E. now left.
  - intros v Hv. apply in_flat_map in Hv. destruct Hv as (a & Ha & Hv). apply (block_pixels_In g req Hw Hh) in Hv; [|eapply near_blocks_ok; eauto]. destruct Hv as (x & y & _ & E). eauto.
Qed.
Lemma mm_range_ok b : is_block g req b ->
  mm_range M g req local b = (lowest (near_pixels g req local b), highest (near_pixels g req local b)).
Proof.
  intros B. unfold mm_range. rewrite mm_joins by (intros b' Hb'; eapply near_blocks_ok; eauto). fold (near_pixels g req local b).
  destruct (near_values b B) as [N V]. rewrite fmin_lowest, fmax_highest by auto.
  destruct (lowest_In _ N) as [L1 L2]. destruct (highest_In _ N) as [H1 H2]. pose proof (V _ L1). pose proof (V _ H1). cbn [mm_max mm_min int_bminmax].
  assert (ity_min t = 0) by (destruct Ht as [-> | ->]; reflexivity). f_equal; lia.
Qed.

Lemma mm_value_ok x y v : pixel g x y = Some v ->
  mm_value M g req local down x y = Ok (range_value spread scale down (near_pixels g req local (home g req x y)) v).
Proof.
  intros Ev. pose proof (pixel_Some _ _ _ _ Ev) as I. pose proof (home_block g req Hw Hh x y I) as B. unfold mm_value. rewrite Ev.
  rewrite (mm_range_ok _ B). destruct (near_values _ B) as [N V]. set (l := near_pixels g req local (home g req x y)) in *.
  destruct (lowest_In _ N) as [L1 L2]. destruct (highest_In _ N) as [H1 H2]. pose proof (V _ L1). pose proof (V _ H1). pose proof (L2 _ H1).
  assert (TM : ity_max t <= 65535 /\ promote t = S32 /\ sum_type t = U32) by (destruct Ht as [-> | ->]; split; (split; reflexivity) || discriminate).
  destruct TM as (T1 & T2 & T3). cbn [mm_texture mm_flat mm_average mm_le int_bminmax]. rewrite T2, T3.
  rewrite d_to_exact_t; [|auto|cbn; apply floor_le; exact Hd1]. cbn [bind]. rewrite arith_result_in by (cbn; lia). cbn [bind].
  rewrite cast_id by (cbn; lia). unfold range_value. destruct (_ <=? Qfloor spread); auto.
  rewrite arith_result_in by (cbn; lia). cbn [bind]. unfold int_div. cbn [Z.eqb].
  rewrite Z.quot_div_nonneg by lia.
  assert (Hq : 0 <= (highest l + lowest l) / 2 <= ity_max t) by (split; [apply Z.div_pos; lia|apply Z.div_le_upper_bound; lia]).
  rewrite arith_result_in by (cbn; lia). cbn [bind].
  assert (Q0 : (inject_Z ((highest l + lowest l) / 2) <= inject_Z (ity_max t))%Q) by (rewrite <- Zle_Qle; lia).
  assert (Q1 : (0 <= inject_Z ((highest l + lowest l) / 2))%Q) by (apply inj_nonneg; lia).
  assert (Q2 : (scale * inject_Z ((highest l + lowest l) / 2) <= scale * inject_Z (ity_max t))%Q).
  { rewrite (Qmult_comm scale), (Qmult_comm scale). apply Qmult_le_compat_r; auto. }
  rewrite d_to_exact_t; [reflexivity|cbn [d_mul d_of exact]; apply Qmult_le_0_compat; auto|].
  cbn [d_mul d_of exact]. cbn [ity_max]. apply floor_le. change (4294967295 + 1) with 4294967296. lra.
Qed.

Lemma minmax_int st0 : ready (block_minmax M 0 local down) st0 ->
  exists st out, block_process (block_minmax M 0 local down) exact c st0 g o = Ok (st, out) /\ ready (block_minmax M 0 local down) st /\
    holds g o out (fun x y => match pixel g x y with
      | Some v => Some (range_value spread scale down (near_pixels g req local (home g req x y)) v) | None => None end).
Proof.
  intros R. destruct (minmax_ok M 0 local down exact c g o req Hg Ho Ew Eh Hc Hw Hh Hn) with (st0 := st0) as (st & out & E & R' & H); auto.
  - intros x y I. destruct (pixel_exists g x y Hg I) as (v & Ev). eexists. apply (mm_value_ok x y v Ev).
  - exists st, out. split; auto. split; auto. eapply holds_ext; [|exact H]. intros x y I. cbn beta.
    destruct (pixel_exists g x y Hg I) as (v & Ev). rewrite (mm_value_ok x y v Ev), Ev. reflexivity.
Qed.
End MinMax.

(** ** Otsu *)
Lemma byte_counts_ok l : (forall v, In v l -> 0 <= v <= 255) -> zlen l < 4294967296 ->
  counts (byte_counts l) /\ holds_counts (ga_of_list (int_mem U32) (byte_counts l)) (byte_counts l) /\ zsum (byte_counts l) = zlen l /\ zlen (byte_counts l) = 256.
Proof.
  intros V L. assert (S : zsum (byte_counts l) = zlen l).
  { rewrite <- (counts_total l 0 256) by (intros v Hv; specialize (V v Hv); lia). reflexivity. }
  assert (L2 : zlen (byte_counts l) = 256) by (unfold byte_counts; rewrite zlen_map; apply zlen_zrange; lia).
  split; [|split; [|split; auto]].
  - split; [|lia]. apply Forall_forall. intros v Hv. unfold byte_counts in Hv. apply in_map_iff in Hv. destruct Hv as (i & <- & _). apply zcount_range.
  - rewrite hist_of_list. split; [now rewrite L2|]. intros i v E. pose proof (znth_Some_range _ _ _ E) as R. rewrite L2 in R.
    unfold ga_at. change (ga_size (hist (fun i => zcount i l))) with 256. replace (256 <=? i) with false by lia.
    change (ga_idx (hist (fun i => zcount i l)) i = Ok v). rewrite hist_nth by auto.
    unfold byte_counts in E. rewrite znth_map, znth_zrange in E by auto. cbn in E. congruence.
Qed.

Section Otsu.
Variables (local down : bool) (c : clen Q) (g : gray Z) (o : gray Z) (req : Z).
Hypothesis Hg : wf g.
Hypothesis Hp : forall x y v, pixel g x y = Some v -> 0 <= v <= 255.
Hypothesis Ho : wf o.
Hypothesis Ew : g_width o = g_width g.
Hypothesis Eh : g_height o = g_height g.
Hypothesis Hc : clen_computeI exact c (inject_Z (Z.min (g_width g) (g_height g))) = Ok req.
Hypothesis Hw : 1 <= req <= g_width g.
Hypothesis Hh : 1 <= req <= g_height g.
Hypothesis Hn : cols g req * rows g req * 256 < 4294967296.
Hypothesis Hn1 : g_width g * g_height g < 2147483648.

Lemma near_range b : is_block g req b -> forall v, In v (near_pixels g req local b) -> 0 <= v <= 255.
Proof.
  intros B v Hv. unfold near_pixels in Hv. apply in_flat_map in Hv. destruct Hv as (a & Ha & Hv).
  apply (block_pixels_In g req Hw Hh) in Hv; [|eapply near_blocks_ok; eauto]. destruct Hv as (x & y & _ & E). eauto.
Qed.

Lemma otsu_level two b : is_block g req b -> exists v th, otsu_threshold exact (fun v => v) two 0%Q 1%Q g req local down b = Ok (v, inject_Z th) /\
  let l := byte_counts (near_pixels g req local b) in
  if two then exists s, best_split l s /\
    ((0 < separation l s)%Q -> nearest ((low_mean l s + high_mean l s) / 2) th) /\ (~ (0 < separation l s)%Q -> th = 0)
  else best_split l th.
Proof.
  intros B. pose proof (near_pixels_len g req local Hg Hw Hh b B) as NL.
  destruct (byte_counts_ok (near_pixels g req local b) (near_range b B) ltac:(lia)) as (C & HC & S & L). unfold otsu_threshold. rewrite map_id.
  rewrite <- S. destruct two.
  - destruct (otsu2_plain _ _ down C HC ltac:(lia)) as (v & th & s & E & R). exists v, th. split; auto. exists s. exact R.
  - destruct (otsu_plain _ _ down C HC ltac:(lia)) as (v & th & E & R). exists v, th. split; auto.
Qed.

Lemma otsu_int two st0 : ready (block_otsu exact int_u8 two 0%Q 1%Q local down) st0 ->
  exists st out (th : Z * Z -> Z), block_process (block_otsu exact int_u8 two 0%Q 1%Q local down) exact c st0 g o = Ok (st, out) /\
    ready (block_otsu exact int_u8 two 0%Q 1%Q local down) st /\
    (forall b, is_block g req b ->
       let l := byte_counts (near_pixels g req local b) in
       if two then exists s, best_split l s /\
         ((0 < separation l s)%Q -> nearest ((low_mean l s + high_mean l s) / 2) (th b)) /\ (~ (0 < separation l s)%Q -> th b = 0)
       else best_split l (th b)) /\
    holds g o out (fun x y => match pixel g x y with Some v => Some (side down (v <=? th (home g req x y))) | None => None end).
Proof.
  intros R. set (th := fun b => match otsu_threshold exact (fun v => v) two 0%Q 1%Q g req local down b with Ok (_, q) => Qfloor q | _ => 0 end).
  destruct (otsu_ok exact int_u8 (fun v => v) two 0%Q 1%Q local down c g o req Hg Ho Ew Eh Hc Hw Hh Hn Hn1) with (st0 := st0) as (st & out & E & R' & H); auto.
  - intros x y v Ev. specialize (Hp x y v Ev). unfold int_u8. rewrite cast_id by (cbn; lia). split; auto. lia.
  - intros b B. destruct (otsu_level two b B) as (v & t0 & E & _). eauto.
  - exists st, out, th. split; auto. split; auto. split.
    + intros b B. destruct (otsu_level two b B) as (v & t0 & E0 & X). unfold th. rewrite E0, Qfloor_Z. exact X.
    + eapply holds_ext; [|exact H]. intros x y I. cbn beta. unfold otsu_value, th.
      destruct (pixel_exists g x y Hg I) as (v & ->). destruct (otsu_level two _ (home_block g req Hw Hh x y I)) as (v0 & t0 & -> & _).
      cbn [bind value snd d_le d_of exact]. rewrite Qfloor_Z. do 2 f_equal. apply eq_true_iff_eq. rewrite Qle_bool_iff, <- Zle_Qle. lia.
Qed.
End Otsu.

(** ** Only the near pixels matter *)
Lemma flat_map_ext_in {A B} (f h : A -> list B) l : (forall a, In a l -> f a = h a) -> flat_map f l = flat_map h l.
Proof. intros H. rewrite !flat_map_concat_map. f_equal. now apply map_ext_in. Qed.
Section Local.
Context {E : Type}.
Variables (g g' : gray E) (req : Z) (local : bool).
Hypothesis Hg : wf g.
Hypothesis Hw : 1 <= req <= g_width g.
Hypothesis Hh : 1 <= req <= g_height g.

Lemma near_same b : g_width g = g_width g' -> g_height g = g_height g' -> near_blocks g req local b = near_blocks g' req local b.
Proof. intros A B. unfold near_blocks, cols, rows. now rewrite A, B. Qed.
Lemma block_same b : g_width g = g_width g' -> g_height g = g_height g' -> is_block g req b ->
  (forall x y, home g req x y = b -> pixel g x y = pixel g' x y) -> block_pixels g req b = block_pixels g' req b.
Proof.
  intros A1 A2 [B1 B2] H. unfold block_pixels. rewrite <- A1, <- A2. apply flat_map_ext_in. intros y Hy. apply flat_map_ext_in. intros x Hx.
  apply zseq_In in Hx, Hy. rewrite H; auto. unfold home. destruct b as [bx by_]. cbn [fst snd] in *.
  rewrite <- (block_unique _ req Hw x bx), <- (block_unique _ req Hh y by_); auto.
Qed.
Lemma near_agree b : is_block g req b -> agree_near g g' req local b -> near_pixels g req local b = near_pixels g' req local b /\
  forall c, In c (near_blocks g req local b) -> block_pixels g req c = block_pixels g' req c.
Proof.
  intros B (A1 & A2 & A3).
  assert (X : forall c, In c (near_blocks g req local b) -> block_pixels g req c = block_pixels g' req c).
  { intros c Hc. apply block_same; auto. { eapply near_blocks_ok; eauto. } intros x y <-. auto. }
  split; auto. unfold near_pixels. rewrite <- near_same by auto. now apply flat_map_ext_in.
Qed.
Lemma self_near b : is_block g req b -> In b (near_blocks g req local b).
Proof.
  intros [B1 B2]. unfold near_blocks. apply in_flat_map. exists (snd b). pose proof (dims g req Hg Hw Hh) as (D1 & D2 & D3 & D4).
  assert (forall n i, 0 <= i < n -> In i (around local n i)).
  { intros n i Hi. unfold around. destruct local; [apply zseq_In; lia|now left]. }
  split; auto. apply in_map_iff. exists (fst b). split; [now destruct b|auto].
Qed.
Lemma agree_pixel x y : inside g x y -> agree_near g g' req local (home g req x y) -> pixel g x y = pixel g' x y.
Proof. intros I (_ & _ & A). apply A. apply self_near. now apply home_block. Qed.
End Local.

(** ** Rejected arguments, initial state *)
Lemma block_throw_shape {E T D} (F : bfilter E T) (O : dops D) c st g o :
  g_width g <> g_width o \/ g_height g <> g_height o -> block_process F O c st g o = Throw.
Proof. intros H. unfold block_process, checkSameShape. replace (_ || _) with true by lia. reflexivity. Qed.
Lemma block_throw_small {E T D} (F : bfilter E T) (O : dops D) c st g o req :
  g_width g = g_width o -> g_height g = g_height o ->
  clen_computeI O c (d_of O (Z.min (g_width g) (g_height g))) = Ok req ->
  g_width g < u32 req \/ g_height g < u32 req -> block_process F O c st g o = Throw.
Proof.
  intros A B E0 H. unfold block_process, checkSameShape. replace (_ || _) with false by lia. cbn [bind]. rewrite E0. cbn [bind].
  replace (_ || _) with true by lia. reflexivity.
Qed.
Lemma block_zero {E T D} (F : bfilter E T) (O : dops D) c st g o :
  g_width g = g_width o -> g_height g = g_height o -> 0 <= g_width g -> 0 <= g_height g ->
  clen_computeI O c (d_of O (Z.min (g_width g) (g_height g))) = Ok 0 -> block_process F O c st g o = Undef.
Proof.
  intros A B W HT E0. unfold block_process, checkSameShape. replace (_ || _) with false by lia. cbn [bind]. rewrite E0. cbn [bind].
  change (u32 0) with 0. replace (_ || _) with false by lia. reflexivity.
Qed.
Lemma block_init_ready {E T} (F : bfilter E T) : 0 <= bf_bands F < 4294967296 -> exists st, block_init F = Ok st /\ ready F st.
Proof.
  intros Hb. unfold block_init. destruct (inter_set_bands (bf_zero F) (inter_new (bf_zero F) 0 0 0) (bf_bands F)) as [st| | |] eqn:Es.
  - exists st. split; auto. split; [|split].
    + eapply inter_set_bands_wf; eauto; cbn; try lia. apply inter_new_wf; lia.
    + unfold inter_set_bands in Es. destruct (_ =? _) eqn:X; injection Es as <-; reflexivity.
    + unfold inter_set_bands in Es. destruct (_ =? _) eqn:X; injection Es as <-; [apply Z.eqb_eq in X; exact X|reflexivity].
  - exfalso. unfold inter_set_bands in Es. destruct (_ =? _); discriminate.
  - exfalso. unfold inter_set_bands in Es. destruct (_ =? _); discriminate.
  - exfalso. unfold inter_set_bands in Es. destruct (_ =? _); discriminate.
Qed.

(** ** Theorems with bundled hypotheses *)
Section Bundled.
Lemma typed_unsigned t g : t = U8 \/ t = U16 -> typed t g -> forall x y v, pixel g x y = Some v -> 0 <= v <= ity_max t.
Proof. intros [-> | ->] H x y v E; apply (H x y v E). Qed.

Lemma mean_fits t scale local down c g o req st0 : t = U8 \/ t = U16 -> (0 <= scale <= 1)%Q -> fits exact c g o req -> typed t g ->
  g_width g * g_height g * ity_max t < 4294967296 ->
  ready (block_mean (int_bmean exact t scale) 0 local down) st0 ->
  exists st out, block_process (block_mean (int_bmean exact t scale) 0 local down) exact c st0 g o = Ok (st, out) /\
    ready (block_mean (int_bmean exact t scale) 0 local down) st /\
    holds g o out (fun x y => match pixel g x y with
      | Some v => Some (side down (v <=? mean_level scale g req local (home g req x y))) | None => None end).
Proof.
  intros Ht [S1 S2] (F1 & F2 & F3 & F4 & F5 & F6 & F7) Ty Hn R. apply mean_int; auto. now apply typed_unsigned.
Qed.

Lemma minmax_fits t spread scale local down c g o req st0 : t = U8 \/ t = U16 -> (0 <= scale)%Q ->
  (scale * inject_Z (ity_max t) < inject_Z 4294967296)%Q -> (0 <= spread)%Q -> (spread < inject_Z 4294967296)%Q ->
  fits exact c g o req -> typed t g -> cols g req * rows g req * 2 < 4294967296 ->
  ready (block_minmax (int_bminmax exact t spread scale) 0 local down) st0 ->
  exists st out, block_process (block_minmax (int_bminmax exact t spread scale) 0 local down) exact c st0 g o = Ok (st, out) /\
    ready (block_minmax (int_bminmax exact t spread scale) 0 local down) st /\
    holds g o out (fun x y => match pixel g x y with
      | Some v => Some (range_value spread scale down (near_pixels g req local (home g req x y)) v) | None => None end).
Proof.
  intros Ht S1 S2 S3 S4 (F1 & F2 & F3 & F4 & F5 & F6 & F7) Ty Hn R. apply minmax_int; auto. now apply typed_unsigned.
Qed.

Lemma otsu_fits local down c g o req st0 : fits exact c g o req -> typed U8 g ->
  cols g req * rows g req * 256 < 4294967296 -> g_width g * g_height g < 2147483648 ->
  ready (block_otsu exact int_u8 false 0%Q 1%Q local down) st0 ->
  exists st out (th : Z * Z -> Z), block_process (block_otsu exact int_u8 false 0%Q 1%Q local down) exact c st0 g o = Ok (st, out) /\
    ready (block_otsu exact int_u8 false 0%Q 1%Q local down) st /\
    (forall b, is_block g req b -> best_split (byte_counts (near_pixels g req local b)) (th b)) /\
    holds g o out (fun x y => match pixel g x y with Some v => Some (side down (v <=? th (home g req x y))) | None => None end).
Proof.
  intros (F1 & F2 & F3 & F4 & F5 & F6 & F7) Ty Hn Hn1 R.
  destruct (otsu_int local down c g o req F1 ltac:(intros x y v E; exact (Ty x y v E)) F2 F3 F4 F5 F6 F7 Hn Hn1 false st0 R) as (st & out & th & X). eauto.
Qed.
Lemma otsu2_fits local down c g o req st0 : fits exact c g o req -> typed U8 g ->
  cols g req * rows g req * 256 < 4294967296 -> g_width g * g_height g < 2147483648 ->
  ready (block_otsu exact int_u8 true 0%Q 1%Q local down) st0 ->
  exists st out (th : Z * Z -> Z), block_process (block_otsu exact int_u8 true 0%Q 1%Q local down) exact c st0 g o = Ok (st, out) /\
    ready (block_otsu exact int_u8 true 0%Q 1%Q local down) st /\
    (forall b, is_block g req b -> let l := byte_counts (near_pixels g req local b) in
       exists s, best_split l s /\
         ((0 < separation l s)%Q -> nearest ((low_mean l s + high_mean l s) / 2) (th b)) /\ (~ (0 < separation l s)%Q -> th b = 0)) /\
    holds g o out (fun x y => match pixel g x y with Some v => Some (side down (v <=? th (home g req x y))) | None => None end).
Proof.
  intros (F1 & F2 & F3 & F4 & F5 & F6 & F7) Ty Hn Hn1 R.
  destruct (otsu_int local down c g o req F1 ltac:(intros x y v E; exact (Ty x y v E)) F2 F3 F4 F5 F6 F7 Hn Hn1 true st0 R) as (st & out & th & X). eauto.
Qed.

(** Any arithmetic. *)
Lemma mean_any {E S D} (M : bmean E S) zero local down (O : dops D) c g o req st0 : fits O c g o req ->
  (forall b, is_block g req b -> exists v, mean_stat M g req b = Ok v) ->
  (forall b, is_block g req b -> exists v, mean_threshold M g req local b = Ok v) ->
  ready (block_mean M zero local down) st0 ->
  exists st out, block_process (block_mean M zero local down) O c st0 g o = Ok (st, out) /\ ready (block_mean M zero local down) st /\
    holds g o out (fun x y => value (mean_value M g req local down x y)).
Proof. intros (F1 & F2 & F3 & F4 & F5 & F6 & F7) A B R. apply mean_ok; auto. Qed.
Lemma minmax_any {E A D} (M : bminmax E A) zero local down (O : dops D) c g o req st0 : fits O c g o req ->
  cols g req * rows g req * 2 < 4294967296 ->
  (forall x y, inside g x y -> exists v, mm_value M g req local down x y = Ok v) ->
  ready (block_minmax M zero local down) st0 ->
  exists st out, block_process (block_minmax M zero local down) O c st0 g o = Ok (st, out) /\ ready (block_minmax M zero local down) st /\
    holds g o out (fun x y => value (mm_value M g req local down x y)).
Proof. intros (F1 & F2 & F3 & F4 & F5 & F6 & F7) A0 B R. apply minmax_ok; auto. Qed.
Lemma otsu_any {E D} (O : dops D) (u8_of : E -> outcome Z) cv two tuning scale local down c g o req st0 : fits O c g o req ->
  cols g req * rows g req * 256 < 4294967296 -> g_width g * g_height g < 2147483648 ->
  (forall x y v, pixel g x y = Some v -> u8_of v = Ok (cv v) /\ 0 <= cv v < 256) ->
  (forall b, is_block g req b -> exists v, otsu_threshold O cv two tuning scale g req local down b = Ok v) ->
  ready (block_otsu O u8_of two tuning scale local down) st0 ->
  exists st out, block_process (block_otsu O u8_of two tuning scale local down) O c st0 g o = Ok (st, out) /\
    ready (block_otsu O u8_of two tuning scale local down) st /\
    holds g o out (fun x y => value (otsu_value O cv two tuning scale g req local down x y)).
Proof. intros (F1 & F2 & F3 & F4 & F5 & F6 & F7) A0 B C0 D0 R. apply otsu_ok; auto. Qed.

(** IEEE floating point images. *)
Lemma float_mean_fits f scale local down (c : clen spec_float) g o req st0 : fits double c g o req ->
  ready (block_mean (float_bmean f scale) (S754_zero false) local down) st0 ->
  exists st out, block_process (block_mean (float_bmean f scale) (S754_zero false) local down) double c st0 g o = Ok (st, out) /\
    ready (block_mean (float_bmean f scale) (S754_zero false) local down) st /\
    holds g o out (fun x y => match pixel g x y with
      | Some v => Some (side down (SFleb v (float_level f scale g req local (home g req x y)))) | None => None end).
Proof.
  intros F R. assert (S : forall b, mean_stat (float_bmean f scale) g req b = Ok (float_mean f scale (block_pixels g req b))).
  { intros b. unfold mean_stat. cbn [bm_add bm_zero bm_stat float_bmean]. rewrite (mfold_pure (fun s v => fadd f s v)). reflexivity. }
  assert (T : forall b, mean_threshold (float_bmean f scale) g req local b = Ok (float_level f scale g req local b)).
  { intros b. unfold mean_threshold. cbn [bm_add bm_zero bm_mean float_bmean].
    rewrite (mfold_ext _ (fun c0 s => Ok (fadd f s (float_mean f scale (block_pixels g req c0))))) by (intros a s _; now rewrite S).
    rewrite (mfold_pure (fun s c0 => fadd f s (float_mean f scale (block_pixels g req c0)))). reflexivity. }
  destruct (mean_any (float_bmean f scale) (S754_zero false) local down double c g o req st0 F) as (st & out & E & R' & H); eauto.
  exists st, out. split; auto. split; auto. eapply holds_ext; [|exact H]. intros x y I. cbn beta. unfold mean_value.
  destruct F as (F1 & _). destruct (pixel_exists g x y F1 I) as (v & ->). rewrite T. reflexivity.
Qed.
End Bundled.

(** ** Two runs on images that agree near a pixel *)
Lemma mean_near t scale local down c g g' o o' req st st' s s' out out' x y : t = U8 \/ t = U16 -> (0 <= scale <= 1)%Q ->
  fits exact c g o req -> fits exact c g' o' req -> typed t g -> typed t g' ->
  g_width g * g_height g * ity_max t < 4294967296 ->
  ready (block_mean (int_bmean exact t scale) 0 local down) st -> ready (block_mean (int_bmean exact t scale) 0 local down) st' ->
  block_process (block_mean (int_bmean exact t scale) 0 local down) exact c st g o = Ok (s, out) ->
  block_process (block_mean (int_bmean exact t scale) 0 local down) exact c st' g' o' = Ok (s', out') ->
  inside g x y -> agree_near g g' req local (home g req x y) -> pixel out x y = pixel out' x y.
Proof.
  intros Ht Hs F F' T T' Hn R R' E E' I A. assert (A0 := A). destruct A0 as (A1 & A2 & _).
  destruct (mean_fits t scale local down c g o req st Ht Hs F T Hn R) as (s1 & o1 & X & _ & H).
  destruct (mean_fits t scale local down c g' o' req st' Ht Hs F' T' ltac:(congruence) R') as (s2 & o2 & X' & _ & H').
  rewrite E in X. rewrite E' in X'. injection X as <- <-. injection X' as <- <-.
  destruct H as (_ & _ & _ & H & _). destruct H' as (_ & _ & _ & H' & _). rewrite H by auto. rewrite H' by (unfold inside in *; lia).
  destruct F as (F1 & F2 & F3 & F4 & F5 & F6 & F7).
  rewrite <- (agree_pixel g g' req local F1 F6 F7 x y I A). destruct (pixel g x y) as [v|]; auto.
  assert (Hm : home g' req x y = home g req x y) by (unfold home; now rewrite A1, A2). rewrite Hm.
  pose proof (home_block g req F6 F7 x y I) as B. destruct (near_agree g g' req local F1 F6 F7 _ B A) as [_ N].
  unfold mean_level. rewrite <- (near_same g g' req local _ A1 A2). do 5 f_equal. apply map_ext_in. intros b Hb. now rewrite N.
Qed.

Lemma minmax_near t spread scale local down c g g' o o' req st st' s s' out out' x y : t = U8 \/ t = U16 -> (0 <= scale)%Q ->
  (scale * inject_Z (ity_max t) < inject_Z 4294967296)%Q -> (0 <= spread)%Q -> (spread < inject_Z 4294967296)%Q ->
  fits exact c g o req -> fits exact c g' o' req -> typed t g -> typed t g' -> cols g req * rows g req * 2 < 4294967296 ->
  ready (block_minmax (int_bminmax exact t spread scale) 0 local down) st -> ready (block_minmax (int_bminmax exact t spread scale) 0 local down) st' ->
  block_process (block_minmax (int_bminmax exact t spread scale) 0 local down) exact c st g o = Ok (s, out) ->
  block_process (block_minmax (int_bminmax exact t spread scale) 0 local down) exact c st' g' o' = Ok (s', out') ->
  inside g x y -> agree_near g g' req local (home g req x y) -> pixel out x y = pixel out' x y.
Proof.
  intros Ht S1 S2 S3 S4 F F' T T' Hn R R' E E' I A. assert (A0 := A). destruct A0 as (A1 & A2 & _).
  destruct (minmax_fits t spread scale local down c g o req st Ht S1 S2 S3 S4 F T Hn R) as (s1 & o1 & X & _ & H).
  destruct (minmax_fits t spread scale local down c g' o' req st' Ht S1 S2 S3 S4 F' T' ltac:(unfold cols, rows in *; congruence) R') as (s2 & o2 & X' & _ & H').
  rewrite E in X. rewrite E' in X'. injection X as <- <-. injection X' as <- <-.
  destruct H as (_ & _ & _ & H & _). destruct H' as (_ & _ & _ & H' & _). rewrite H by auto. rewrite H' by (unfold inside in *; lia).
  destruct F as (F1 & F2 & F3 & F4 & F5 & F6 & F7).
  rewrite <- (agree_pixel g g' req local F1 F6 F7 x y I A). destruct (pixel g x y) as [v|]; auto.
  assert (Hm : home g' req x y = home g req x y) by (unfold home; now rewrite A1, A2). rewrite Hm.
  pose proof (home_block g req F6 F7 x y I) as B. destruct (near_agree g g' req local F1 F6 F7 _ B A) as [N _]. now rewrite N.
Qed.

Lemma otsu_near local down c g g' o o' req st st' s s' out out' x y :
  fits exact c g o req -> fits exact c g' o' req -> typed U8 g -> typed U8 g' ->
  cols g req * rows g req * 256 < 4294967296 -> g_width g * g_height g < 2147483648 ->
  ready (block_otsu exact int_u8 false 0%Q 1%Q local down) st -> ready (block_otsu exact int_u8 false 0%Q 1%Q local down) st' ->
  block_process (block_otsu exact int_u8 false 0%Q 1%Q local down) exact c st g o = Ok (s, out) ->
  block_process (block_otsu exact int_u8 false 0%Q 1%Q local down) exact c st' g' o' = Ok (s', out') ->
  inside g x y -> agree_near g g' req local (home g req x y) -> pixel out x y = pixel out' x y.
Proof.
  intros F F' T T' Hn Hn1 R R' E E' I A. assert (A0 := A). destruct A0 as (A1 & A2 & _).
  destruct (otsu_fits local down c g o req st F T Hn Hn1 R) as (s1 & o1 & th & X & _ & TH & H).
  destruct (otsu_fits local down c g' o' req st' F' T' ltac:(unfold cols, rows in *; congruence) ltac:(congruence) R') as (s2 & o2 & th' & X' & _ & TH' & H').
  rewrite E in X. rewrite E' in X'. injection X as <- <-. injection X' as <- <-.
  destruct H as (_ & _ & _ & H & _). destruct H' as (_ & _ & _ & H' & _). rewrite H by auto. rewrite H' by (unfold inside in *; lia).
  destruct F as (F1 & F2 & F3 & F4 & F5 & F6 & F7).
  rewrite <- (agree_pixel g g' req local F1 F6 F7 x y I A). destruct (pixel g x y) as [v|]; auto.
  assert (Hm : home g' req x y = home g req x y) by (unfold home; now rewrite A1, A2). rewrite Hm.
  pose proof (home_block g req F6 F7 x y I) as B. destruct (near_agree g g' req local F1 F6 F7 _ B A) as [N _].
  rewrite (best_split_unique (byte_counts (near_pixels g req local (home g req x y))) (th (home g req x y)) (th' (home g req x y))); auto.
  rewrite N. apply TH'. destruct B. split; unfold cols, rows in *; congruence || (rewrite <- ?A1, <- ?A2; auto).
Qed.

(** ** Partition *)
Lemma block_partition n req x : 1 <= req <= n -> 0 <= x < n ->
  exists b, (0 <= b < block_count n req /\ block_lo n req b <= x < block_hi n req b) /\
    forall b', 0 <= b' < block_count n req -> block_lo n req b' <= x < block_hi n req b' -> b' = b.
Proof.
  intros Hr Hx. exists (block_of n req x). split; [exact (block_cover n req Hr x Hx)|]. intros b' B L. now apply block_unique.
Qed.
Lemma block_sizes n req b : 1 <= req <= n -> 0 <= b < block_count n req ->
  0 <= block_lo n req b /\ block_lo n req b + req <= block_hi n req b <= n /\ block_hi n req b - block_lo n req b < 2 * block_len n req /\
  block_len n req < 2 * req.
Proof.
  intros Hr B. pose proof (block_bounds n req Hr b B). pose proof (block_small n req Hr b B). pose proof (len_req n req Hr).
  pose proof (count_mul n req Hr). pose proof (count_pos n req Hr). pose proof (len_mul n req Hr). split; [lia|]. split; [lia|]. split; [lia|].
  nia.
Qed.
Lemma slot_all n m bands j : 0 < n -> 0 < m -> 0 < bands -> 0 <= j < n * m * bands ->
  exists x y k, (0 <= x < n /\ 0 <= y < m /\ 0 <= k < bands /\ j = (y * n + x) * bands + k) /\
    forall x' y' k', 0 <= x' < n -> 0 <= y' < m -> 0 <= k' < bands -> j = (y' * n + x') * bands + k' -> x' = x /\ y' = y /\ k' = k.
Proof.
  intros N M B Hj. exists (j / bands mod n), (j / bands / n), (j mod bands).
  pose proof (Z.div_mod j bands ltac:(lia)) as D1. pose proof (Z.mod_pos_bound j bands B) as B1.
  pose proof (Z.div_mod (j / bands) n ltac:(lia)) as D2. pose proof (Z.mod_pos_bound (j / bands) n N) as B2.
  assert (0 <= j / bands < n * m) by (split; [apply Z.div_pos; lia|apply Z.div_lt_upper_bound; lia]).
  assert (0 <= j / bands / n < m) by (split; [apply Z.div_pos; lia|apply Z.div_lt_upper_bound; lia]).
  split; [split; [lia|]; split; [lia|]; split; [lia|]; nia|].
  intros x' y' k' X Y K E.
  assert (Q1 : j / bands = y' * n + x') by (symmetry; apply (Z.div_unique j bands (y' * n + x') k'); lia).
  assert (Q2 : j mod bands = k') by (symmetry; apply (Z.mod_unique j bands (y' * n + x') k'); lia).
  rewrite Q1, Q2. assert (Q3 : (y' * n + x') / n = y') by (symmetry; apply (Z.div_unique _ n y' x'); lia).
  assert (Q4 : (y' * n + x') mod n = x') by (symmetry; apply (Z.mod_unique _ n y' x'); lia). rewrite Q3, Q4. auto.
Qed.

Lemma statistics_all {S} (call : Z -> Z -> Z -> Z -> Z -> S -> outcome S) w h req bands s : 1 <= req <= w -> 1 <= req <= h ->
  w < 4294967296 -> h < 4294967296 -> 0 <= bands -> block_count w req * block_count h req * bands < 4294967296 ->
  exists bw bh iw ih, block_size w h req = Ok (bw, bh) /\
    udiv w bw = Ok (block_count w req) /\ udiv h bh = Ok (block_count h req) /\ block_inner w bw = Ok iw /\ block_inner h bh = Ok ih /\
    block_statistics call (block_count w req) (block_count h req) bands w h iw ih bw bh s =
    mfold (fun b s => call (block_lo w req (fst b)) (block_lo h req (snd b))
        (block_hi w req (fst b) - block_lo w req (fst b)) (block_hi h req (snd b) - block_lo h req (snd b))
        ((snd b * block_count w req + fst b) * bands) s) (all_blocks w h req) s.
Proof.
  intros Hw Hh Bw Bh Hb Ht. exists (block_len w req), (block_len h req), (whole w req * block_len w req), (whole h req * block_len h req).
  pose proof (count_pos w req Hw). pose proof (count_pos h req Hh). pose proof (len_req w req Hw). pose proof (len_req h req Hh).
  split; [|split; [|split; [|split; [|split]]]].
  - unfold block_size, udiv. replace (req =? 0) with false by lia. cbn [bind]. fold (block_count h req) (block_count w req).
    replace (block_count h req =? 0) with false by lia. replace (block_count w req =? 0) with false by lia. reflexivity.
  - unfold udiv. replace (block_len w req =? 0) with false by lia. now rewrite len_count.
  - unfold udiv. replace (block_len h req =? 0) with false by lia. now rewrite len_count.
  - now apply inner_ok.
  - now apply inner_ok.
  - rewrite block_statistics_ok by auto. unfold all_blocks. rewrite <- (for_mfold _ (fun y => map (fun x => (x, y)) (zrange (block_count w req)))) by lia.
    apply for_range_ext. intros y s0 Hy. rewrite mfold_map. cbn [fst snd]. rewrite for_mfold_one by lia.
    f_equal. unfold zseq. rewrite Z.sub_0_r. rewrite <- (map_id (zrange _)) at 2. apply map_ext. intros; lia.
Qed.

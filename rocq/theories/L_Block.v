(** Lemmas about the division of an image into blocks. *)
From Verif Require Import BaseFacts M_Image M_Convolve S_Image L_Image L_Inter M_GrowArray M_PackedSet S_Convolve L_Window L_Convolve2
  M_Blur L_Blur S_Blur M_Stats S_Stats L_Stats M_Misc L_Misc M_Otsu M_Config M_Block S_Otsu S_Block.

(** ** One axis *)
Section Axis.
Variables n req : Z.
Hypothesis Hr : 1 <= req <= n.
Notation k := (block_count n req).
Notation b := (block_len n req).

Lemma count_pos : 1 <= k.
Proof. unfold block_count. apply Z.div_le_lower_bound; lia. Qed.
Lemma count_mul : k * req <= n < (k + 1) * req.
Proof. unfold block_count. pose proof (Z.div_mod n req ltac:(lia)). pose proof (Z.mod_pos_bound n req ltac:(lia)). lia. Qed.
Lemma len_req : req <= b.
Proof. unfold block_len. pose proof count_mul. pose proof count_pos. apply Z.div_le_lower_bound; lia. Qed.
Lemma len_mul : k * b <= n < (k + 1) * b.
Proof.
  pose proof count_pos. pose proof count_mul. pose proof len_req. split; [|nia].
  unfold block_len. pose proof (Z.mul_div_le n k ltac:(lia)). lia.
Qed.
Lemma len_count : n / b = k.
Proof. pose proof len_mul. pose proof len_req. symmetry. apply (Z.div_unique n b k (n - k * b)); nia. Qed.
Lemma count_le : k <= n.
Proof. pose proof len_mul. pose proof len_req. pose proof count_pos. nia. Qed.

(** Each pixel is in one block. *)
Lemma block_cover x : 0 <= x < n ->
  0 <= block_of n req x < k /\ block_lo n req (block_of n req x) <= x < block_hi n req (block_of n req x).
Proof.
  intros Hx. pose proof len_mul. pose proof len_req. pose proof count_pos. unfold block_of, block_lo, block_hi.
  pose proof (Z.div_mod x b ltac:(lia)). pose proof (Z.mod_pos_bound x b ltac:(lia)).
  assert (0 <= x / b) by (apply Z.div_pos; lia).
  destruct (Z.min_spec (x / b) (k - 1)) as [[L ->]|[L ->]].
  - split; [lia|]. replace (x / b =? k - 1) with false by lia. nia.
  - split; [lia|]. replace (k - 1 =? k - 1) with true by lia. nia.
Qed.
Lemma block_unique x i : 0 <= i < k -> block_lo n req i <= x < block_hi n req i -> i = block_of n req x.
Proof.
  intros Hi Hx. pose proof len_mul. pose proof len_req. pose proof count_pos. unfold block_of, block_lo, block_hi in *.
  assert (0 <= i * b) by nia.
  destruct (Z.eqb_spec i (k - 1)) as [E|E].
  - assert (k - 1 <= x / b) by (apply Z.div_le_lower_bound; [lia|subst i; nia]). lia.
  - assert (x / b = i) as -> by (symmetry; apply (Z.div_unique x b i (x - i * b)); nia). lia.
Qed.
Lemma block_bounds i : 0 <= i < k ->
  0 <= block_lo n req i /\ block_lo n req i + b <= block_hi n req i /\ block_hi n req i <= n.
Proof.
  intros Hi. pose proof len_mul. pose proof len_req. unfold block_lo, block_hi.
  destruct (Z.eqb_spec i (k - 1)) as [->|E]; nia.
Qed.
Lemma block_small i : 0 <= i < k -> block_hi n req i - block_lo n req i < 2 * b.
Proof.
  intros Hi. pose proof len_mul. pose proof len_req. unfold block_lo, block_hi.
  destruct (Z.eqb_spec i (k - 1)) as [->|E]; nia.
Qed.

(** The number of complete steps of the loops, and where they end. *)
Definition whole : Z := if n mod b =? 0 then k else k - 1.
Lemma inner_ok : n < 4294967296 -> block_inner n b = Ok (whole * b).
Proof.
  intros Hn. pose proof len_mul. pose proof len_req. pose proof count_pos. unfold block_inner, umod, whole.
  replace (b =? 0) with false by lia. cbn [bind].
  pose proof (Z.div_mod n b ltac:(lia)) as D. pose proof (Z.mod_pos_bound n b ltac:(lia)). rewrite len_count in D.
  destruct (Z.eqb_spec (n mod b) 0) as [E|E].
  - rewrite E in D. f_equal. lia.
  - f_equal. rewrite u32_id by nia. lia.
Qed.
Lemma whole_hi i : 0 <= i < whole -> block_hi n req i = (i + 1) * b.
Proof.
  intros Hi. pose proof len_req. unfold whole in Hi. unfold block_hi. destruct (Z.eqb_spec i (k - 1)) as [->|]; auto.
  pose proof (Z.div_mod n b ltac:(lia)) as D. rewrite len_count in D. destruct (Z.eqb_spec (n mod b) 0) as [E|]; lia.
Qed.
Lemma whole_eq : whole * b = n -> whole = k.
Proof.
  intros E. pose proof len_mul. pose proof len_req. unfold whole in *. destruct (Z.eqb_spec (n mod b) 0); auto. nia.
Qed.
Lemma whole_neq : whole * b <> n -> whole = k - 1.
Proof.
  intros E. pose proof len_req. unfold whole in *. destruct (Z.eqb_spec (n mod b) 0) as [E'|]; auto.
  pose proof (Z.div_mod n b ltac:(lia)) as D. rewrite len_count in D. lia.
Qed.
Lemma whole_range : 0 <= whole <= k.
Proof. pose proof count_pos. unfold whole. destruct (n mod b =? 0); lia. Qed.
End Axis.

(** ** computeStatistics *)

Lemma for_step_upto {S} (body : Z -> S -> outcome S) : forall m n i step s, (m <= n)%nat -> 0 < step -> 0 <= i ->
  i + step * Z.of_nat m < 4294967296 ->
  for_step n i (i + step * Z.of_nat m) step body s = for_range 0 (Z.of_nat m) (fun j => body (i + j * step)) s.
Proof.
  induction m as [|m IH]; intros n i step s Hn Hs Hi Hb.
  - rewrite for_range_nil by lia. destruct n; cbn [for_step]; replace (i <? i + step * Z.of_nat 0) with false by lia; reflexivity.
  - destruct n as [|n]; [lia|]. rewrite for_range_step by lia. cbn [for_step].
    replace (i <? i + step * Z.of_nat (Datatypes.S m)) with true by nia.
    replace (i + 0 * step) with i by lia. apply bind_ext. intros a _.
    rewrite u32_id by nia. replace (i + step * Z.of_nat (Datatypes.S m)) with (i + step + step * Z.of_nat m) by lia.
    rewrite IH by (try lia; nia). replace (Z.of_nat (Datatypes.S m)) with (Z.of_nat m + 1) by lia.
    change (0 + 1) with (0 + 1). rewrite for_range_shift. apply for_range_ext. intros j s0 Hj. f_equal. lia.
Qed.

Lemma for_counter {S} (f : Z -> Z -> S -> outcome S) (g : Z -> Z * S -> outcome (Z * S)) idx c m s : 0 <= m -> 0 <= idx -> 0 <= c ->
  idx + m * c < 4294967296 ->
  (forall i j s, 0 <= i < m -> j = idx + i * c -> g i (j, s) = let* s := f i j s in Ok (j + c, s)) ->
  for_range 0 m g (idx, s) = let* s := for_range 0 m (fun i s => f i (idx + i * c) s) s in Ok (idx + m * c, s).
Proof.
  intros Hm Hi Hc. revert s. pattern m. apply natlike_ind; [| |exact Hm]; clear m Hm.
  - intros s _ _. rewrite !for_range_nil by lia. cbn. repeat f_equal. lia.
  - intros m Hm IH s Hb H. unfold Z.succ in *. rewrite !for_range_last by lia. rewrite IH; [|nia|].
    2:{ intros i j s0 Hi' E. apply H; [lia|exact E]. }
    destruct (for_range 0 m (fun i s => f i (idx + i * c) s) s); cbn [bind]; auto.
    rewrite H; [|lia|reflexivity]. destruct (f m (idx + m * c) a); cbn [bind]; auto. do 2 f_equal. lia.
Qed.

Section Stat.
Context {S : Type}.
Variable call : Z -> Z -> Z -> Z -> Z -> S -> outcome S.
Variables w h req bands : Z.
Hypothesis Hw : 1 <= req <= w.
Hypothesis Hh : 1 <= req <= h.
Hypothesis Bw : w < 4294967296.
Hypothesis Bh : h < 4294967296.
Hypothesis Hb : 0 <= bands.
Notation nc := (block_count w req).
Notation nr := (block_count h req).
Notation bw := (block_len w req).
Notation bh := (block_len h req).
Hypothesis Ht : nc * nr * bands < 4294967296.

Definition row_call (y hh idx bx : Z) (s : S) : outcome S :=
  call (block_lo w req bx) y (block_hi w req bx - block_lo w req bx) hh (idx + bx * bands) s.

Lemma block_row_ok y hh idx s : 0 <= idx -> idx + nc * bands < 4294967296 ->
  block_row call nc bands w (whole w req * bw) bw y hh (idx, s) =
  let* s := for_range 0 nc (row_call y hh idx) s in Ok (idx + nc * bands, s).
Proof.
  intros Hi Hj. pose proof (whole_range w req Hw) as R. pose proof (len_req w req Hw). pose proof (len_mul w req Hw).
  pose proof (count_pos w req Hw).
  unfold block_row.
  assert (X := for_step_upto (S := Z * S) (fun x s =>
    let* d := call x y bw hh (fst s) (snd s) in Ok (u32 (fst s + bands), d)) (Z.to_nat (whole w req)) (Z.to_nat nc) 0 bw (idx, s)).
  rewrite Z2Nat.id in X by lia. rewrite Z.add_0_l in X. replace (bw * whole w req) with (whole w req * bw) in X by lia.
  rewrite X by nia. clear X.
  rewrite (for_counter (fun i j s => row_call y hh idx i s) _ idx bands); [|lia|lia|lia|nia|].
  2:{ intros i j s0 Hi' ->. cbn [fst snd]. unfold row_call. rewrite Z.add_0_l. rewrite (whole_hi w req Hw i Hi').
      unfold block_lo. replace ((i + 1) * bw - i * bw) with bw by lia.
      destruct (call (i * bw) y bw hh (idx + i * bands) s0); cbn [bind]; auto. rewrite u32_id by nia. auto. }
  change (fun i s0 => row_call y hh idx i s0) with (row_call y hh idx).
  destruct (Z.eqb_spec (whole w req * bw) w) as [E|E].
  - rewrite (whole_eq w req Hw E).
    destruct (for_range 0 nc (row_call y hh idx) s); cbn [bind negb]; auto.
  - rewrite (whole_neq w req Hw E). 
    assert (SP : for_range 0 nc (row_call y hh idx) s = bind (for_range 0 (nc - 1) (row_call y hh idx) s) (row_call y hh idx (nc - 1))).
    { rewrite <- for_range_last by lia. f_equal; lia. }
    rewrite SP.
    destruct (for_range 0 (nc - 1) (row_call y hh idx) s); cbn [bind negb fst snd]; auto.
    unfold row_call at 1, block_lo, block_hi. replace (nc - 1 =? nc - 1) with true by lia. rewrite u32_id by nia.
    destruct (call ((nc - 1) * bw) y (w - (nc - 1) * bw) hh (idx + (nc - 1) * bands) a); cbn [bind]; auto.
    rewrite u32_id by nia. do 2 f_equal. lia.
Qed.

Lemma block_statistics_ok s :
  block_statistics call nc nr bands w h (whole w req * bw) (whole h req * bh) bw bh s =
  for_range 0 nr (fun by_ s => for_range 0 nc (fun bx s =>
    call (block_lo w req bx) (block_lo h req by_) (block_hi w req bx - block_lo w req bx) (block_hi h req by_ - block_lo h req by_)
      ((by_ * nc + bx) * bands) s) s) s.
Proof.
  pose proof (whole_range h req Hh) as R. pose proof (len_req h req Hh). pose proof (len_mul h req Hh).
  pose proof (count_pos h req Hh). pose proof (count_pos w req Hw).
  set (G := fun by_ s => for_range 0 nc (row_call (block_lo h req by_) (block_hi h req by_ - block_lo h req by_) (by_ * (nc * bands))) s).
  transitivity (for_range 0 nr G s).
  2:{ apply for_range_ext. intros y s0 Hy. apply for_range_ext. intros x s1 Hx. unfold row_call. f_equal. lia. }
  assert (P : forall i, 0 <= i < nr -> 0 <= i * (nc * bands) /\ i * (nc * bands) + nc * bands <= nc * nr * bands).
  { intros i Hi. assert (0 <= nc * bands) by nia. nia. }
  unfold block_statistics.
  assert (X := for_step_upto (S := Z * S) (fun y s => block_row call nc bands w (whole w req * bw) bw y bh s)
                 (Z.to_nat (whole h req)) (Z.to_nat nr) 0 bh (0, s)).
  rewrite Z2Nat.id in X by lia. rewrite Z.add_0_l in X. replace (bh * whole h req) with (whole h req * bh) in X by lia.
  rewrite X by nia. clear X.
  rewrite (for_counter (fun i j s => G i s) _ 0 (nc * bands)); [|lia|lia|nia| |].
  2:{ assert (0 <= nc * bands) by nia. nia. }
  2:{ intros i j s0 Hi ->. rewrite !Z.add_0_l. specialize (P i ltac:(lia)). rewrite block_row_ok by lia.
      unfold G. rewrite (whole_hi h req Hh i Hi). unfold block_lo. replace ((i + 1) * bh - i * bh) with bh by lia. reflexivity. }
  change (fun i s0 => G i s0) with G.
  destruct (Z.eqb_spec (whole h req * bh) h) as [E|E].
  - rewrite (whole_eq h req Hh E). destruct (for_range 0 nr G s); cbn [bind negb snd]; auto.
  - rewrite (whole_neq h req Hh E). 
    assert (SP : for_range 0 nr G s = bind (for_range 0 (nr - 1) G s) (G (nr - 1))).
    { rewrite <- for_range_last by lia. f_equal; lia. }
    rewrite SP.
    destruct (for_range 0 (nr - 1) G s); cbn [bind negb]; auto.
    specialize (P (nr - 1) ltac:(lia)). rewrite Z.add_0_l.
    rewrite block_row_ok by lia. unfold G, block_lo, block_hi. replace (nr - 1 =? nr - 1) with true by lia.
    rewrite u32_id by nia.
    match goal with |- context [for_range 0 nc ?f a] => destruct (for_range 0 nc f a) end; reflexivity.
Qed.
End Stat.

(** ** Loops over regions *)

Lemma zseq_In lo hi i : In i (zseq lo hi) <-> lo <= i < hi.
Proof.
  unfold zseq. rewrite in_map_iff. split.
  - intros (j & <- & Hj). apply zrange_In in Hj. lia.
  - intros H. exists (i - lo). split; [lia|]. apply zrange_In. lia.
Qed.
Lemma zlen_zseq lo hi : lo <= hi -> zlen (zseq lo hi) = hi - lo.
Proof. intros H. unfold zseq. unfold zlen. rewrite map_length. apply zlen_zrange. lia. Qed.

Lemma for_mfold_seq {A S} (f : A -> S -> outcome S) (L : Z -> list A) lo hi s : lo <= hi ->
  for_range lo hi (fun i s => mfold f (L i) s) s = mfold f (flat_map L (zseq lo hi)) s.
Proof.
  intros H. unfold zseq. rewrite flat_map_concat_map, map_map, <- flat_map_concat_map.
  rewrite <- (for_mfold f (fun i => L (lo + i))) by lia.
  replace lo with (0 + lo) at 1 by lia. replace hi with (hi - lo + lo) at 1 by lia. rewrite for_range_shift.
  apply for_range_ext. intros i s0 _. now rewrite Z.add_comm.
Qed.

Lemma mfold_map {A B S} (f : B -> S -> outcome S) (h : A -> B) l : forall s, mfold f (map h l) s = mfold (fun a => f (h a)) l s.
Proof. induction l as [|a l IH]; intros s; cbn; auto. destruct (f (h a) s); cbn; auto. Qed.
Lemma mfold_ext {A S} (f g : A -> S -> outcome S) l : (forall a s, In a l -> f a s = g a s) -> forall s, mfold f l s = mfold g l s.
Proof.
  intros H. induction l as [|a l IH]; intros s; cbn; auto. rewrite H by now left. destruct (g a s); cbn; auto.
  apply IH. intros b t Hb. apply H. now right.
Qed.
Lemma for_mfold_one {S} (f : Z -> S -> outcome S) lo hi s : lo <= hi ->
  for_range lo hi f s = mfold f (zseq lo hi) s.
Proof.
  intros H. transitivity (for_range lo hi (fun i s => mfold f [i] s) s).
  - apply for_range_ext. intros i s0 _. cbn. destruct (f i s0); auto.
  - rewrite for_mfold_seq by auto. f_equal. induction (zseq lo hi); cbn; congruence.
Qed.

Section Grid.
Context {E : Type}.
Variables (g : gray E) (req : Z).
Hypothesis Hg : wf g.
Hypothesis Hw : 1 <= req <= g_width g.
Hypothesis Hh : 1 <= req <= g_height g.
Notation W := (g_width g).
Notation HT := (g_height g).

Lemma dims : W < 4294967296 /\ HT < 4294967296 /\ 1 <= cols g req <= W /\ 1 <= rows g req <= HT.
Proof.
  assert (X := Hg). unfold wf in X. unfold cols, rows.
  pose proof (count_pos W req Hw). pose proof (count_pos HT req Hh). pose proof (count_le W req Hw). pose proof (count_le HT req Hh). lia.
Qed.

(** The coordinates of a block are coordinates of the image. *)
Lemma block_inside b x y : is_block g req b -> block_lo W req (fst b) <= x < block_hi W req (fst b) ->
  block_lo HT req (snd b) <= y < block_hi HT req (snd b) -> inside g x y.
Proof.
  intros [B1 B2] Hx Hy. pose proof (block_bounds W req Hw (fst b) B1). pose proof (block_bounds HT req Hh (snd b) B2). split; lia.
Qed.
Lemma home_block x y : inside g x y -> is_block g req (home g req x y).
Proof. intros [I1 I2]. split; cbn; [apply (block_cover W req Hw x I1)|apply (block_cover HT req Hh y I2)]. Qed.

Lemma block_pixels_len b : is_block g req b ->
  zlen (block_pixels g req b) =
  (block_hi W req (fst b) - block_lo W req (fst b)) * (block_hi HT req (snd b) - block_lo HT req (snd b)).
Proof.
  intros B. assert (B' := B). destruct B' as [B1 B2].
  pose proof (block_bounds W req Hw (fst b) B1). pose proof (block_bounds HT req Hh (snd b) B2).
  pose proof (len_req W req Hw). pose proof (len_req HT req Hh). unfold block_pixels.
  rewrite (flat_map_const _ _ (block_hi W req (fst b) - block_lo W req (fst b))).
  - rewrite zlen_zseq by lia. reflexivity.
  - intros y Hy. apply zseq_In in Hy. rewrite flat_map_ones; [apply zlen_zseq; lia|].
    intros x Hx. apply zseq_In in Hx. destruct (pixel_exists g x y) as (v & E'); auto.
    + eapply block_inside; eauto.
    + rewrite E'. reflexivity.
Qed.
Lemma block_pixels_In b v : is_block g req b -> In v (block_pixels g req b) <-> exists x y, home g req x y = b /\ pixel g x y = Some v.
Proof.
  intros B. assert (B' := B). destruct B' as [B1 B2]. unfold block_pixels. rewrite in_flat_map. split.
  - intros (y & Hy & Hv). rewrite in_flat_map in Hv. destruct Hv as (x & Hx & Hv). apply zseq_In in Hx. apply zseq_In in Hy.
    exists x, y. split.
    + unfold home. rewrite <- (block_unique W req Hw x (fst b) B1 Hx). rewrite <- (block_unique HT req Hh y (snd b) B2 Hy).
      now destruct b.
    + destruct (pixel g x y); cbn in Hv; [destruct Hv as [->|[]]; auto|contradiction].
  - intros (x & y & <- & Ev). pose proof (pixel_Some g x y v Ev) as [I1 I2]. exists y. split.
    { apply zseq_In. apply (block_cover HT req Hh y I2). }
    apply in_flat_map. exists x. split; [apply zseq_In; apply (block_cover W req Hw x I1)|]. rewrite Ev. now left.
Qed.

Lemma block_area b : is_block g req b -> 0 < zlen (block_pixels g req b) <= W * HT.
Proof.
  intros B. rewrite block_pixels_len by auto. destruct B as [B1 B2].
  pose proof (block_bounds W req Hw (fst b) B1). pose proof (block_bounds HT req Hh (snd b) B2).
  pose proof (len_req W req Hw). pose proof (len_req HT req Hh). nia.
Qed.

(** The loops of computeBlockStatistics visit the pixels of the block. *)
Lemma block_scan_ok {S} step b (f : E -> S -> outcome S) s : is_block g req b ->
  (forall i, 0 <= i < 4294967296 -> step i = i) ->
  block_scan step g (block_lo W req (fst b)) (block_lo HT req (snd b)) (block_hi W req (fst b) - block_lo W req (fst b))
    (block_hi HT req (snd b) - block_lo HT req (snd b)) f s = mfold f (block_pixels g req b) s.
Proof.
  intros B St. assert (B' := B). destruct B' as [B1 B2]. pose proof dims as (D1 & D2 & _).
  pose proof (block_bounds W req Hw (fst b) B1). pose proof (block_bounds HT req Hh (snd b) B2).
  pose proof (len_req W req Hw). pose proof (len_req HT req Hh).
  unfold block_scan, block_pixels. rewrite <- for_mfold_seq by lia.
  set (x0 := block_lo W req (fst b)) in *. set (x1 := block_hi W req (fst b)) in *.
  set (y0 := block_lo HT req (snd b)) in *. set (y1 := block_hi HT req (snd b)) in *.
  transitivity (for_range (0 + y0) (y1 - y0 + y0) (fun i s0 => mfold f (flat_map (fun x => opt_list (pixel g x i)) (zseq x0 x1)) s0) s).
  2:{ f_equal; lia. }
  rewrite for_range_shift. apply for_range_ext. intros y s0 Hy. cbn zeta.
  destruct (wf_row g (y + y0) Hg ltac:(lia) ltac:(lia)) as (R1 & R2 & R3). assert (L := Hg). unfold wf in L.
  rewrite (u32_id (y0 + y)) by lia. rewrite (Z.add_comm y0 y). rewrite u32_id by lia.
  rewrite <- for_mfold_seq by lia.
  transitivity (for_range (0 + x0) (x1 - x0 + x0) (fun i s1 => mfold f (opt_list (pixel g i (y + y0))) s1) s0).
  2:{ f_equal; lia. }
  rewrite for_range_shift. apply for_range_ext. intros x s1 Hx.
  assert (I : inside g (x + x0) (y + y0)) by (split; lia).
  destruct (pixel_exists g _ _ Hg I) as (v & Ev). rewrite Ev. rewrite pixel_inside in Ev by auto. unfold pos in Ev.
  rewrite St by lia. replace (g_offset g + (y + y0) * g_stride g + x0 + x) with (g_offset g + (y + y0) * g_stride g + (x + x0)) by lia.
  unfold bget. rewrite Ev. cbn. destruct (f v s1); auto.
Qed.

(** The region of blocks around a block. *)
Lemma around_first local n i : 0 <= i < n -> n < 4294967296 ->
  block_first local i <= block_last local n i /\
  around local n i = zseq (block_first local i) (block_last local n i + 1) /\
  0 <= block_first local i /\ block_last local n i < n.
Proof.
  clear. intros Hi Hn. unfold block_first, block_last, around. destruct local.
  - rewrite (u32_id (n - 1)) by lia. assert (E2 : Z.min (n - 1) (u32 (i + 1)) = Z.min (n - 1) (i + 1)).
    { now rewrite u32_id by lia. }
    rewrite E2. assert (E1 : (if 0 <? i then u32 (i - 1) else 0) = Z.max 0 (i - 1)).
    { destruct (Z.ltb_spec 0 i); [rewrite u32_id by lia; lia|lia]. }
    rewrite E1. split; [lia|]. split; [f_equal; lia|lia].
  - split; [lia|]. split; [|lia]. unfold zseq. replace (i + 1 - i) with 1 by lia. change (zrange 1) with [0]. cbn [map]. now rewrite Z.add_0_r.
Qed.

Lemma near_blocks_ok local b c : is_block g req b -> In c (near_blocks g req local b) -> is_block g req c.
Proof.
  intros [B1 B2] Hc. pose proof dims as (D1 & D2 & D3 & D4). unfold near_blocks in Hc. rewrite in_flat_map in Hc.
  destruct Hc as (y & Hy & Hc). apply in_map_iff in Hc. destruct Hc as (x & <- & Hx).
  destruct (around_first local (cols g req) (fst b) B1 ltac:(lia)) as (_ & E1 & F1 & F2).
  destruct (around_first local (rows g req) (snd b) B2 ltac:(lia)) as (_ & E2 & F3 & F4).
  rewrite E1 in Hx. rewrite E2 in Hy. apply zseq_In in Hx. apply zseq_In in Hy. split; cbn [fst snd]; lia.
Qed.
Lemma near_blocks_len local b : is_block g req b ->
  zlen (near_blocks g req local b) =
  (block_last local (cols g req) (fst b) - block_first local (fst b) + 1) *
  (block_last local (rows g req) (snd b) - block_first local (snd b) + 1).
Proof.
  intros [B1 B2]. pose proof dims as (D1 & D2 & D3 & D4). unfold near_blocks.
  destruct (around_first local (cols g req) (fst b) B1 ltac:(lia)) as (L1 & E1 & _ & _).
  destruct (around_first local (rows g req) (snd b) B2 ltac:(lia)) as (L2 & E2 & _ & _).
  rewrite E1, E2.
  rewrite (flat_map_const _ _ (block_last local (cols g req) (fst b) - block_first local (fst b) + 1)).
  - rewrite zlen_zseq by lia. f_equal. lia.
  - intros y _. unfold zlen. rewrite map_length. fold (zlen (zseq (block_first local (fst b)) (block_last local (cols g req) (fst b) + 1))).
    rewrite zlen_zseq by lia. lia.
Qed.

Lemma block_region_ok {T S} local (st : inter T) b (f : Z -> Z -> S -> outcome S) s : is_block g req b ->
  i_width st = cols g req -> i_height st = rows g req ->
  block_region local st (fst b) (snd b) f s = mfold (fun c s => f (fst c) (snd c) s) (near_blocks g req local b) s.
Proof.
  intros [B1 B2] E1 E2. pose proof dims as (D1 & D2 & D3 & D4). unfold block_region, near_blocks. rewrite E1, E2.
  destruct (around_first local (cols g req) (fst b) B1 ltac:(lia)) as (L1 & A1 & _ & _).
  destruct (around_first local (rows g req) (snd b) B2 ltac:(lia)) as (L2 & A2 & _ & _).
  rewrite A1, A2. rewrite <- for_mfold_seq by lia. apply for_range_ext. intros y s0 Hy.
  rewrite mfold_map. cbn [fst snd]. apply for_mfold_one. lia.
Qed.

(** Writing the pixels of a block. *)
Section Apply.
Variable o : gray Z.
Hypothesis Ho : wf o.
Hypothesis Ew : g_width o = W.
Hypothesis Eh : g_height o = HT.
Variable F : Z -> Z -> option Z.

Lemma start_ok i : 0 <= i < cols g req -> block_start (block_len W req) i = block_lo W req i.
Proof.
  intros Hi. pose proof dims as (D1 & _). pose proof (block_bounds W req Hw i Hi). pose proof (len_req W req Hw).
  unfold block_start. fold (block_lo W req i). apply u32_id. lia.
Qed.
Lemma end_ok i : 0 <= i < cols g req -> block_end (cols g req) W (block_len W req) i = block_hi W req i.
Proof.
  intros Hi. pose proof dims as (D1 & _ & D2 & _). pose proof (block_bounds W req Hw i Hi). pose proof (len_req W req Hw).
  unfold block_end, block_hi in *. fold (cols g req) in *. rewrite (u32_id (cols g req - 1)) by lia.
  destruct (i =? cols g req - 1) eqn:E'; auto. unfold block_lo in *. rewrite (u32_id (i + 1)) by lia. apply u32_id. lia.
Qed.
Lemma start_ok_v i : 0 <= i < rows g req -> block_start (block_len HT req) i = block_lo HT req i.
Proof.
  intros Hi. pose proof dims as (_ & D1 & _). pose proof (block_bounds HT req Hh i Hi). pose proof (len_req HT req Hh).
  unfold block_start. fold (block_lo HT req i). apply u32_id. lia.
Qed.
Lemma end_ok_v i : 0 <= i < rows g req -> block_end (rows g req) HT (block_len HT req) i = block_hi HT req i.
Proof.
  intros Hi. pose proof dims as (_ & D1 & _ & D2). pose proof (block_bounds HT req Hh i Hi). pose proof (len_req HT req Hh).
  unfold block_end, block_hi in *. fold (rows g req) in *. rewrite (u32_id (rows g req - 1)) by lia.
  destruct (i =? rows g req - 1) eqn:E'; auto. unfold block_lo in *. rewrite (u32_id (i + 1)) by lia. apply u32_id. lia.
Qed.

Lemma block_apply_ok {T} (st : inter T) b (f : E -> outcome Z) d : is_block g req b ->
  i_width st = cols g req -> i_height st = rows g req -> zlen d = zlen (g_data o) ->
  (forall x y v, home g req x y = b -> pixel g x y = Some v -> exists r, f v = Ok r /\ F x y = Some r) ->
  (exists d', block_apply (block_len W req) (block_len HT req) st g o (fst b) (snd b) f d = Ok d' /\
     writes d (win o F (fun x y => home g req x y = b)) d') /\
  (exists d', block_apply_index (block_len W req) (block_len HT req) st g o (fst b) (snd b) f d = Ok d' /\
     writes d (win o F (fun x y => home g req x y = b)) d').
Proof.
  intros B E1 E2 L HF. assert (B' := B). destruct B' as [B1 B2]. pose proof dims as (D1 & D2 & D3 & D4).
  pose proof (block_bounds W req Hw (fst b) B1) as BX. pose proof (block_bounds HT req Hh (snd b) B2) as BY.
  pose proof (len_req W req Hw). pose proof (len_req HT req Hh).
  unfold block_apply, block_apply_index. rewrite E1, E2, start_ok, end_ok, start_ok_v, end_ok_v by auto.
  set (x0 := block_lo W req (fst b)) in *. set (x1 := block_hi W req (fst b)) in *.
  set (y0 := block_lo HT req (snd b)) in *. set (y1 := block_hi HT req (snd b)) in *.
  rewrite (u32_id (x1 - x0)) by lia.
  assert (HB : forall x y, x0 <= x < x1 -> y0 <= y < y1 -> home g req x y = b).
  { intros x y Hx Hy. unfold home. rewrite <- (block_unique W req Hw x (fst b) B1 Hx).
    rewrite <- (block_unique HT req Hh y (snd b) B2 Hy). now destruct b. }
  assert (IFF : forall x y, inside o x y -> (exists i, y0 <= i < y1 /\ (y = i /\ x0 <= x < x1)) <-> home g req x y = b).
  { intros x y [I1 I2]. split.
    - intros (i & Hi & -> & Hx). auto.
    - intros <-. exists y. unfold x0, x1, y0, y1, home; cbn [fst snd].
      pose proof (block_cover W req Hw x ltac:(lia)). pose proof (block_cover HT req Hh y ltac:(lia)). lia. }
  assert (ROW : forall y x d0, y0 <= y < y1 -> x0 <= x < x1 -> zlen d0 = zlen (g_data o) ->
     inside o x y /\ exists v, F x y = Some v /\
       (let* p := bget (g_data g) (pos g x y) in let* r := f p in bset d0 (pos o x y) r) = bset d0 (pos o x y) v).
  { intros y x d0 Hy Hx L0. split; [split; lia|]. assert (I : inside g x y) by (split; lia).
    destruct (pixel_exists g _ _ Hg I) as (v & Ev). destruct (HF x y v (HB x y Hx Hy) Ev) as (r & Er & Fr).
    exists r. split; auto. rewrite pixel_inside in Ev by auto. unfold bget. rewrite Ev. cbn [bind]. rewrite Er. reflexivity. }
  assert (PG : forall y, y0 <= y < y1 -> u32 (g_offset g + y * g_stride g + x0) = pos g x0 y /\ 0 <= pos g x0 y /\ pos g x0 y + (x1 - x0) < 4294967296).
  { intros y Hy. destruct (wf_row g y Hg ltac:(lia) ltac:(lia)) as (R1 & R2 & R3). assert (L' := Hg). unfold wf in L'.
    unfold pos. rewrite u32_id by lia. lia. }
  assert (PO : forall y, y0 <= y < y1 -> u32 (g_offset o + y * g_stride o + x0) = pos o x0 y /\ 0 <= pos o x0 y /\ pos o x0 y + (x1 - x0) < 4294967296).
  { intros y Hy. destruct (wf_row o y Ho ltac:(lia) ltac:(lia)) as (R1 & R2 & R3). assert (L' := Ho). unfold wf in L'.
    unfold pos. rewrite u32_id by lia. lia. }
  split.
  - match goal with |- context [for_range y0 y1 ?body d] =>
      destruct (win_loop o F (fun y x' y' => y' = y /\ x0 <= x' < x1) y0 y1 body d L) as (d' & Ed & L' & Wd) end.
    { intros y d0 Hy L0. cbn zeta. destruct (PG y Hy) as (-> & _ & _). destruct (PO y Hy) as (-> & _ & _).
      match goal with |- context [for_range 0 (x1 - x0) ?body d0] =>
        destruct (win_row o F Ho y x0 x1 (fun x d => body (x - x0) d) d0 L0) as (d1 & Ed1 & L1 & W1) end.
      - intros x d1 Hx L1. cbv beta.
        replace (pos g x0 y + (x - x0)) with (pos g x y) by (unfold pos; lia).
        replace (pos o x0 y + (x - x0)) with (pos o x y) by (unfold pos; lia). now apply ROW.
      - exists d1. split; auto. rewrite <- Ed1.
        transitivity (for_range (0 + x0) (x1 - x0 + x0) (fun x d => let* v := bget (g_data g) (pos g x0 y + (x - x0)) in
          let* r := f v in bset d (pos o x0 y + (x - x0)) r) d0); [|f_equal; lia].
        rewrite for_range_shift. apply for_range_ext. intros i s0 _. now replace (i + x0 - x0) with i by lia. }
    exists d'. split; auto. eapply win_iff; [|exact Wd]. exact IFF.
  - match goal with |- context [for_range y0 y1 ?body d] =>
      destruct (win_loop o F (fun y x' y' => y' = y /\ x0 <= x' < x1) y0 y1 body d L) as (d' & Ed & L' & Wd) end.
    { intros y d0 Hy L0. cbn zeta. destruct (PG y Hy) as (-> & P1 & P2). destruct (PO y Hy) as (-> & P3 & P4).
      rewrite (u32_id (pos o x0 y + (x1 - x0))) by lia.
      match goal with |- context [for_range (pos o x0 y) _ ?body d0] =>
        destruct (win_row o F Ho y x0 x1 (fun x d => body (pos o x0 y + (x - x0)) d) d0 L0) as (d1 & Ed1 & L1 & W1) end.
      - intros x d1 Hx L1. cbv beta.
        replace (pos o x0 y + (x - x0) - pos o x0 y) with (x - x0) by lia. rewrite (u32_id (pos g x0 y + (x - x0))) by lia.
        replace (pos g x0 y + (x - x0)) with (pos g x y) by (unfold pos; lia).
        replace (pos o x0 y + (x - x0)) with (pos o x y) by (unfold pos; lia). now apply ROW.
      - exists d1. split; auto. rewrite <- Ed1.
        replace (for_range (pos o x0 y) (pos o x0 y + (x1 - x0))) with
          (for_range (S := list Z) (x0 + (pos o x0 y - x0)) (x1 + (pos o x0 y - x0))) by (f_equal; lia).
        rewrite for_range_shift. apply for_range_ext. intros i s0 _.
        now replace (pos o x0 y + (i - x0)) with (i + (pos o x0 y - x0)) by lia. }
    exists d'. split; auto. eapply win_iff; [|exact Wd]. exact IFF.
Qed.
End Apply.
End Grid.

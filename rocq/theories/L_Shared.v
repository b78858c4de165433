(** Lemmas about functions whose output image may share memory with the input. *)
From Coq Require Import Floats.SpecFloat.
From Verif Require Import BaseFacts M_Image S_Image L_Image L_Window M_Convolve M_GrowArray M_PackedSet M_Normalized M_Blur M_Float
  M_Stats M_Misc M_Otsu M_Config M_Heap S_Heap L_Heap M_Binary M_Local M_Block S_Block L_Block M_Shared S_Shared.

(** ** Equal outcomes *)
Definition orel {S T} (R : S -> T -> Prop) (x : outcome S) (y : outcome T) : Prop :=
  match x, y with
  | Ok s, Ok t => R s t
  | Throw, Throw => True
  | Undef, Undef => True
  | OutOfFuel, OutOfFuel => True
  | _, _ => False
  end.
Lemma orel_bind {S T S' T'} (R : S -> T -> Prop) (R' : S' -> T' -> Prop) x y f k :
  orel R x y -> (forall s t, R s t -> orel R' (f s) (k t)) -> orel R' (bind x f) (bind y k).
Proof. destruct x, y; cbn; auto; contradiction. Qed.
Lemma orel_same {S S' T'} (R' : S' -> T' -> Prop) (x : outcome S) f k :
  (forall s, x = Ok s -> orel R' (f s) (k s)) -> orel R' (bind x f) (bind x k).
Proof. destruct x; cbn; auto. Qed.
Lemma orel_weak {S T} (R R' : S -> T -> Prop) x y : orel R x y -> (forall s t, R s t -> R' s t) -> orel R' x y.
Proof. destruct x, y; cbn; auto. Qed.
Lemma orel_range {S T} (R : Z -> S -> T -> Prop) (b1 : Z -> S -> outcome S) (b2 : Z -> T -> outcome T) lo hi :
  (forall i s t, lo <= i < hi -> R i s t -> orel (R (i + 1)) (b1 i s) (b2 i t)) ->
  forall s t, lo <= hi -> R lo s t -> orel (R hi) (for_range lo hi b1 s) (for_range lo hi b2 t).
Proof.
  remember (Z.to_nat (hi - lo)) as n eqn:En. revert lo En. induction n as [|n IH]; intros lo En H s t Hl Hr.
  - rewrite !for_range_nil by lia. cbn. now replace hi with lo by lia.
  - rewrite !for_range_step by lia. eapply orel_bind; [apply H; auto; lia|]. intros s1 t1 H1.
    apply (IH (lo + 1)); auto; try lia. intros; apply H; auto; lia.
Qed.

(** ** The buffer of the output and the heap *)
Lemma upd_id {B} (l : list B) : forall n a, nth_error l n = Some a -> upd l n a = l.
Proof. induction l as [|b l IH]; intros [|n] a E; cbn in *; try discriminate; [congruence|]. now rewrite IH. Qed.
Lemma upd_twice {B} (l : list B) : forall n a b, upd (upd l n a) n b = upd l n b.
Proof. induction l as [|c l IH]; intros [|n] a b; cbn; auto. now rewrite IH. Qed.
Lemma znth_set {A} (l : list A) i j a : 0 <= i < zlen l -> znth (upd l (Z.to_nat i) a) j = if j =? i then Some a else znth l j.
Proof.
  intros R. unfold znth, zlen in *. destruct (Z.eqb_spec j i) as [->|N].
  - replace (i <? 0) with false by lia. apply upd_same. lia.
  - destruct (Z.ltb_spec j 0); auto. apply upd_other. lia.
Qed.
Section Sim.
Context {Px : Type}.
Variables (H : heap Px) (a o : himg) (g go : gray Px).
Hypothesis Ga : good H a g.
Hypothesis Go : good H o go.

Definition st_rel (P : Z -> Z -> Prop) (d : list Px) (H' : heap Px) : Prop :=
  H' = upd H (h_block o) (Some d) /\ zlen d = zlen (g_data go) /\
  forall j, znth d j = znth (g_data go) j \/ exists x y, inside go x y /\ P x y /\ j = pos go x y.

Lemma st_init P : st_rel P (g_data go) H.
Proof.
  destruct Go as (V & _ & _). apply view_inv in V as (E & _). split; [|auto]. symmetry. now apply upd_id.
Qed.
Lemma st_mono (P P' : Z -> Z -> Prop) d H' : (forall x y, inside go x y -> P x y -> P' x y) -> st_rel P d H' -> st_rel P' d H'.
Proof. intros M (E & L & C). split; auto. split; auto. intros j. destruct (C j) as [C'|(x & y & I & Q & ->)]; eauto 8. Qed.

Lemma st_read P d H' x y : st_rel P d H' -> inside g x y ->
  (h_block a = h_block o -> forall x' y', inside go x' y' -> pos g x y = pos go x' y' -> ~ P x' y') ->
  hread H' (h_block a) (pos g x y) = bget (g_data g) (pos g x y).
Proof.
  intros (-> & L & C) Hi Hp. destruct Ga as (Va & Wa & _), Go as (Vo & Wo & _).
  apply view_inv in Va as (Ea & _). apply view_inv in Vo as (Eo & _).
  unfold hread. rewrite upd_nth. destruct (Nat.eqb_spec (h_block o) (h_block a)) as [E|N].
  - pose proof (nth_some_lt _ _ _ Eo) as Lt. apply Nat.ltb_lt in Lt. rewrite Lt. assert (ED : g_data g = g_data go) by congruence.
    unfold bget. rewrite ED. destruct (C (pos g x y)) as [->|(x' & y' & I & Q & E')]; auto. destruct (Hp (eq_sym E) x' y' I E' Q).
  - now rewrite Ea.
Qed.
Lemma st_write P (P' : Z -> Z -> Prop) d H' x y v : st_rel P d H' -> inside go x y -> (forall x y, inside go x y -> P x y -> P' x y) -> P' x y ->
  orel (st_rel P') (bset d (pos go x y) v) (hwrite H' (h_block o) (pos go x y) v).
Proof.
  intros (-> & L & C) Hi M Hp. destruct Go as (Vo & Wo & _). apply view_inv in Vo as (Eo & _).
  pose proof (nth_some_lt _ _ _ Eo) as Lt.
  assert (N : nth_error (upd H (h_block o) (Some d)) (h_block o) = Some (Some d)) by now apply upd_same.
  rewrite (hwrite_live _ _ d) by auto. unfold bset. pose proof (wf_pos go x y Wo Hi) as B.
  replace (_ && _) with true by lia. cbn [bind orel]. split; [now rewrite upd_twice|].
  split; [unfold zlen in *; now rewrite upd_length|]. intros j. rewrite znth_set by lia.
  destruct (Z.eqb_spec j (pos go x y)) as [->|Nj]; [right; eauto|]. destruct (C j) as [|(x' & y' & I & Q & ->)]; eauto 8.
Qed.

Hypothesis Sw : h_width o = h_width a.
Hypothesis Sh : h_height o = h_height a.

Lemma sim_dims : g_width g = h_width a /\ g_height g = h_height a /\ g_offset g = h_offset a /\ g_stride g = h_stride a /\
  g_width go = h_width a /\ g_height go = h_height a /\ g_offset go = h_offset o /\ g_stride go = h_stride o.
Proof.
  destruct Ga as (Va & _), Go as (Vo & _). apply view_inv in Va as (_ & ? & ? & ? & ? & _). apply view_inv in Vo as (_ & ? & ? & ? & ? & _).
  repeat split; congruence.
Qed.
Lemma u32_pos (k : gray Px) x y : wf k -> inside k x y -> u32 (pos k x y) = pos k x y.
Proof. intros W I. apply u32_id. pose proof (wf_pos k x y W I). unfold wf in W. lia. Qed.

Lemma pixels_sim f : (h_block a = h_block o -> behind a o) ->
  orel (st_rel (fun _ _ => True))
    (for_range 0 (g_height g) (fun y d =>
      let ip := u32 (g_offset g + y * g_stride g) in
      let op := u32 (g_offset go + y * g_stride go) in
      for_range 0 (g_width g) (fun i d =>
        let* v := bget (g_data g) (ip + i) in
        let* r := f y i v in
        bset d (op + i) r) d) (g_data go))
    (h_pixels H a o f).
Proof.
  intros B. destruct sim_dims as (E1 & E2 & E3 & E4 & F1 & F2 & F3 & F4). unfold h_pixels. rewrite <- E2.
  assert (Wg : wf g) by apply Ga. assert (Wo : wf go) by apply Go.
  apply orel_weak with (R := st_rel (fun x y => y < g_height g)).
  2:{ intros s t. now apply st_mono. }
  apply (orel_range (fun i => st_rel (fun x y => y < i))).
  3:{ apply st_init. }
  2:{ unfold wf in Wg. lia. }
  intros y d H' Hy R. cbv zeta. rewrite <- E3, <- E4, <- F3, <- F4, <- E1.
  destruct (Z.eq_dec (g_width g) 0) as [Z0|NZ].
  { rewrite Z0, !for_range_nil by lia. cbn [orel]. revert R. apply st_mono. lia. }
  assert (I0 : inside g 0 y) by (unfold wf in Wg; split; lia). assert (J0 : inside go 0 y) by (unfold wf in Wg; split; lia).
  replace (u32 (g_offset g + y * g_stride g)) with (pos g 0 y) by (rewrite <- (u32_pos g) by auto; unfold pos; f_equal; lia).
  replace (u32 (g_offset go + y * g_stride go)) with (pos go 0 y) by (rewrite <- (u32_pos go) by auto; unfold pos; f_equal; lia).
  apply orel_weak with (R := st_rel (fun x' y' => before x' y' (g_width g) y)).
  2:{ intros s t. apply st_mono. unfold before. lia. }
  apply (orel_range (fun i => st_rel (fun x' y' => before x' y' i y))).
  3:{ revert R. apply st_mono. unfold before. lia. }
  2:{ unfold wf in Wg. lia. }
  intros i s t Hi R'. assert (Ii : inside g i y) by (split; lia). assert (Ji : inside go i y) by (split; lia).
  replace (pos g 0 y + i) with (pos g i y) by (unfold pos; lia). replace (pos go 0 y + i) with (pos go i y) by (unfold pos; lia).
  rewrite (st_read _ _ _ i y R') by (auto; intros Eb x' y' [] Ep; apply (B Eb i y x' y'); try lia; unfold pos in Ep; lia).
  apply orel_same. intros v _. apply orel_same. intros r _.
  eapply st_write; eauto; unfold before; [lia|]. right. lia.
Qed.
End Sim.

(** ** Reshape of the output *)
Lemma wf_area {A} (g : gray A) : wf g -> 0 <= g_width g * g_height g <= zlen (g_data g) \/ g_width g * g_height g = 0.
Proof.
  intros W. unfold wf in W. destruct W as (W1 & W2 & W3 & W4 & W5 & W6 & _).
  destruct (Z.eq_dec (g_width g) 0) as [->|]; [right; lia|]. destruct (Z.eq_dec (g_height g) 0) as [->|]; [right; lia|].
  specialize (W6 ltac:(lia) ltac:(lia)). left. nia.
Qed.

Lemma take_reshape {Px} (t0 : Px) H a out g go : good H a g -> good H out go ->
  h_width out = h_width a /\ h_height out = h_height a \/ h_sub out = false ->
  exists H1 o g1, h_reshape t0 H out (h_width a) (h_height a) = Ok (H1, o) /\
    gray_reshape t0 go (h_width a) (h_height a) = Ok g1 /\ good H1 a g /\ good H1 o g1 /\
    h_width o = h_width a /\ h_height o = h_height a /\ (h_block a = h_block o -> h_block a = h_block out /\ o = target a out) /\
    (forall k, k <> h_block out -> (k < length H)%nat -> nth_error H1 k = nth_error H k /\ k <> h_block o).
Proof.
  intros Ga Go Hs. assert (Ga' := Ga). destruct Ga' as (Va & Wa & La). pose proof (view_inv _ _ _ Va) as (Da & Ea1 & Ea2 & Ea3 & Ea4 & _).
  assert (W := Wa). unfold wf in W. pose proof (wf_small g Wa) as Sm. unfold small in Sm.
  destruct (h_reshape_ok t0 H out go (h_width a) (h_height a) Go) as (H1 & o & g1 & E1 & G1 & R1 & W1 & W2 & S1 & K1 & B1).
  - unfold is32. lia.
  - unfold is32. lia.
  - lia.
  - destruct Hs as [?|?]; auto.
  - exists H1, o, g1. split; auto. split; auto.
    assert (G1' := G1). destruct G1' as (V1 & Wf1 & L1). pose proof (view_inv _ _ _ V1) as (D1 & F1 & F2 & _).
    destruct (Nat.eq_dec (h_block a) (h_block out)) as [Eb|Nb].
    + assert (X : H1 = H /\ o = target a out).
      { revert E1. unfold h_reshape, target. destruct (_ && _) eqn:B; [now intros E; injection E as <- <-|].
        destruct Hs as [[? ?]|Hs]; [lia|]. rewrite Hs. destruct Go as (Vo & Wo & Lo). pose proof (view_inv _ _ _ Vo) as (Do & _).
        assert (ED : g_data go = g_data g) by congruence. rewrite Lo, ED.
        replace (_ <? _) with false; [now intros E; injection E as <- <-|]. symmetry. apply Z.ltb_ge.
        rewrite u32_id by lia. destruct (wf_area g Wa); rewrite Ea1, Ea2 in *; [lia|]. pose proof (zlen_nonneg (g_data g)). lia. }
      destruct X as [-> Eo]. split; [exact Ga|]. split; [exact G1|]. split; [lia|]. split; [lia|]. split; [auto|].
      intros k Nk Lk. split; auto. rewrite Eo. unfold target. destruct (_ && _); auto.
    + assert (X : nth_error H1 (h_block a) = nth_error H (h_block a) /\ h_block a <> h_block o).
      { pose proof (nth_some_lt _ _ _ Da) as Lt. destruct B1 as [[B ->]|[B ->]]; rewrite B; split; auto; try lia.
        rewrite nth_error_app1 by (rewrite upd_length; lia). now rewrite upd_other by auto. }
      destruct X as [X1 X2].
      split; [split; [rewrite (view_same H); auto|auto]|]. split; [exact G1|]. split; [lia|]. split; [lia|]. split; [intros E; congruence|].
      intros k Nk Lk. destruct B1 as [[B ->]|[B ->]]; rewrite B; split; auto; try lia.
      rewrite nth_error_app1 by (rewrite upd_length; lia). now rewrite upd_other by auto.
Qed.

Lemma h_image_good {Px} (H : heap Px) a g : good H a g -> h_image H a = Ok g.
Proof.
  intros (V & _). unfold h_image. unfold view in V. destruct (nth_error _ _) as [[d|]|]; try discriminate. congruence.
Qed.

Section Finish.
Context {Px : Type}.
Variables (H H1 : heap Px) (o out : himg) (g1 : gray Px).
Hypothesis G1 : good H1 o g1.
Hypothesis Fr : forall k, k <> h_block out -> (k < length H)%nat -> nth_error H1 k = nth_error H k /\ k <> h_block o.

Lemma finish_upd {X} d (x : X) : as_copies H out (Ok (with_data g1 d, x)) (Ok (upd H1 (h_block o) (Some d), o, x)).
Proof.
  destruct G1 as (V & _). pose proof (view_inv _ _ _ V) as (D & E1 & E2 & E3 & E4 & E5).
  pose proof (nth_some_lt _ _ _ D) as Lt. cbn [as_copies]. split; auto. split.
  - unfold view. rewrite upd_same by auto. unfold with_data. now rewrite E1, E2, E3, E4, E5.
  - intros k Nk Lk. destruct (Fr k Nk Lk) as [E N]. now rewrite upd_other by auto.
Qed.
Lemma finish {X} P d H2 (x : X) : st_rel H1 o g1 P d H2 -> as_copies H out (Ok (with_data g1 d, x)) (Ok (H2, o, x)).
Proof. intros (-> & _). apply finish_upd. Qed.
End Finish.

(** ** Thresholds *)
Lemma as_copies_orel {Px X} (H : heap Px) out (c : outcome (gray Px * X)) s :
  orel (fun p q => as_copies H out (Ok p) (Ok q)) c s -> as_copies H out c s.
Proof. destruct c as [[? ?]| | |], s as [[[? ?] ?]| | |]; cbn; auto. Qed.

Lemma threshold_shared H a out g go t down : good H a g -> good H out go -> may_take a out ->
  as_copies H out (only (threshold Z.leb Z.gtb g t down go)) (only (h_threshold H a t down out)).
Proof.
  intros Ga Go (Hs & Hb). destruct (take_reshape 0 H a out g go Ga Go Hs) as (H1 & o & g1 & E1 & E2 & Ga1 & G1 & Sw & Sh & Ta & Fr).
  assert (B : h_block a = h_block o -> behind a o) by (intros Eb; destruct (Ta Eb) as [Eb' ->]; auto).
  assert (Ga' := Ga). destruct Ga' as (Va & _). pose proof (view_inv _ _ _ Va) as (_ & D1 & D2 & _).
  unfold only, threshold, h_threshold. rewrite D1, D2, E1, E2. cbn [bind]. rewrite <- D1, <- D2.
  apply as_copies_orel. rewrite !bind_assoc. eapply orel_bind.
  - apply (pixels_sim H1 a o g g1 Ga1 G1 Sw Sh (fun _ _ v => Ok (if (if down then v <=? t else v >? t) then 1 else 0)) B).
  - intros d H2 R. cbn [bind orel]. eapply finish; eauto.
Qed.

Lemma only_bind {Y Z} (m : outcome Y) (k : Y -> outcome Z) : only (bind m k) = bind m (fun y => only (k y)).
Proof. unfold only. apply bind_assoc. Qed.

Lemma otsu_shared {D} (O : dops D) H a out g go mn mx down : good H a g -> good H out go -> may_take a out ->
  as_copies H out (only (global_otsu O U8 g mn mx down go)) (only (h_global_otsu O H a mn mx down out)).
Proof.
  intros Ga Go Hr. unfold global_otsu, h_global_otsu. rewrite (h_image_good _ _ _ Ga). cbn [bind]. rewrite !only_bind.
  destruct (image_otsu O U8 g mn mx false) as [th| | |]; cbn [bind]; cbn; auto. now apply threshold_shared.
Qed.

Lemma local_shared {D S T} (O : dops D) (N : narith Z S) (M : marith Z T) c (L : lcmp Z) width down H a out g go s1 s2 :
  good H a g -> good H out go -> may_take a out ->
  as_copies H out (local_mean O N M 0 c L width down g go s1 s2) (h_local_mean O N M c L width down H a out s1 s2).
Proof.
  intros Ga Go (Hs & Hb). destruct (take_reshape 0 H a out g go Ga Go Hs) as (H1 & o & g1 & E1 & E2 & Ga1 & G1 & Sw & Sh & Ta & Fr).
  assert (B : h_block a = h_block o -> behind a o) by (intros Eb; destruct (Ta Eb) as [Eb' ->]; auto).
  assert (Ga' := Ga). destruct Ga' as (Va & _). pose proof (view_inv _ _ _ Va) as (_ & D1 & D2 & _).
  unfold local_mean, h_local_mean. rewrite D1, D2, E1, E2. cbn [bind]. rewrite (h_image_good _ _ _ Ga1). rewrite <- D1, <- D2.
  apply as_copies_orel. do 2 (apply orel_same; intros ? _). cbn [bind]. do 2 (apply orel_same; intros ? _).
  destruct s4 as [mean s4]. eapply orel_bind.
  - apply orel_weak with (R := st_rel H1 o g1 (fun _ _ => True)); [|intros d H2 R; exact R].
    pose proof (pixels_sim H1 a o g g1 Ga1 G1 Sw Sh (fun y i v =>
      let* m := bget (g_data mean) (u32 (g_offset mean + y * g_stride mean) + i) in
      Ok (if (if down then lc_le L v m else lc_gt L v m) then 1 else 0)) B) as PS.
    cbv zeta in PS. erewrite for_range_ext; [exact PS|]. intros y d Hy. cbv beta zeta. apply for_range_ext. intros i d' Hi.
    apply bind_ext. intros v _. rewrite bind_assoc. reflexivity.
  - intros d H2 R. cbn [orel]. eapply finish; eauto.
Qed.

(** ** Block filters *)
Lemma range_from {T} lo n (b : Z -> T -> outcome T) s : for_range lo (lo + n) b s = for_range 0 n (fun i => b (lo + i)) s.
Proof.
  replace (for_range lo (lo + n)) with (for_range (S := T) (0 + lo) (n + lo)) by (f_equal; lia). rewrite for_range_shift.
  apply for_range_ext. intros i s' _. now rewrite Z.add_comm.
Qed.
Section Blocks.
Variables (H : heap Z) (a o : himg) (g go : gray Z) (req : Z).
Hypothesis Ga : good H a g.
Hypothesis Go : good H o go.
Hypothesis Sw : h_width o = h_width a.
Hypothesis Sh : h_height o = h_height a.
Hypothesis Al : aligned a o.
Hypothesis Hw : 1 <= req <= g_width g.
Hypothesis Hh : 1 <= req <= g_height g.
Notation W := (g_width g).
Notation HT := (g_height g).

(** Pixels of earlier blocks. *)
Definition done (bx by_ : Z) (x y : Z) : Prop := before (block_of W req x) (block_of HT req y) bx by_.

Lemma same_place x y x' y' : inside g x y -> inside go x' y' -> h_block a = h_block o -> pos g x y = pos go x' y' -> x = x' /\ y = y'.
Proof.
  intros [] [] Eb Ep. destruct (sim_dims H a o g go Ga Go Sw Sh) as (E1 & E2 & E3 & E4 & F1 & F2 & F3 & F4).
  apply (Al Eb); try lia. unfold pos in Ep. lia.
Qed.

Lemma apply_sim {T} (st : inter T) bx by_ f d H' (indexed : bool) : 0 <= bx < cols g req -> 0 <= by_ < rows g req ->
  i_width st = cols g req -> i_height st = rows g req -> st_rel H o go (done bx by_) d H' ->
  orel (st_rel H o go (done (bx + 1) by_))
    ((if indexed then block_apply_index (block_len W req) (block_len HT req) st g go bx by_ f
      else block_apply (block_len W req) (block_len HT req) st g go bx by_ f) d)
    ((if indexed then h_block_apply_index (block_len W req) (block_len HT req) st a o bx by_ f
      else h_block_apply (block_len W req) (block_len HT req) st a o bx by_ f) H').
Proof.
  intros Bx By E1 E2 R. destruct (sim_dims H a o g go Ga Go Sw Sh) as (D1 & D2 & D3 & D4 & F1 & F2 & F3 & F4).
  assert (Wg : wf g) by apply Ga. assert (Wo : wf go) by apply Go.
  pose proof (dims g req Wg Hw Hh) as (N1 & N2 & N3 & N4).
  pose proof (block_bounds W req Hw bx Bx) as BX. pose proof (block_bounds HT req Hh by_ By) as BY.
  pose proof (len_req W req Hw). pose proof (len_req HT req Hh).
  set (x0 := block_lo W req bx) in *. set (x1 := block_hi W req bx) in *.
  set (y0 := block_lo HT req by_) in *. set (y1 := block_hi HT req by_) in *.
  assert (HBx : forall x, x0 <= x < x1 -> block_of W req x = bx).
  { intros x Hx. symmetry. now apply (block_unique W req Hw x bx). }
  assert (HBy : forall y, y0 <= y < y1 -> block_of HT req y = by_).
  { intros y Hy. symmetry. now apply (block_unique HT req Hh y by_). }
  set (Q := fun i k x' y' => done bx by_ x' y' \/ (block_of W req x' = bx /\ block_of HT req y' = by_ /\ before x' y' i k)).
  assert (Last : forall s t, st_rel H o go (Q 0 y1) s t -> st_rel H o go (done (bx + 1) by_) s t).
  { intros s t. apply st_mono. intros x y _ [Hd|(A & B & _)]; unfold done, before in *; [|right]; lia. }
  (* one pixel *)
  assert (PIX : forall x y s t, x0 <= x < x1 -> y0 <= y < y1 -> st_rel H o go (Q x y) s t ->
    orel (st_rel H o go (Q (x + 1) y))
      (let* v := bget (g_data g) (pos g x y) in let* r := f v in bset s (pos go x y) r)
      (let* v := hread t (h_block a) (pos g x y) in let* r := f v in hwrite t (h_block o) (pos go x y) r)).
  { intros x y s t Hx Hy Rs. assert (I : inside g x y) by (split; lia). assert (J : inside go x y) by (split; lia).
    rewrite (st_read H a o g go Ga Go _ _ _ x y Rs I).
    2:{ intros Eb x' y' I' Ep. destruct (same_place x y x' y' I I' Eb Ep) as [<- <-].
        intros [Hd|(_ & _ & Hb)]; [|unfold before in Hb; lia]. unfold done in Hd. rewrite HBx, HBy in Hd by lia. unfold before in Hd. lia. }
    apply orel_same. intros v _. apply orel_same. intros r _. eapply (st_write H o go Go); eauto.
    - intros x' y' _ [Hd|(A & B & C)]; [now left|]. right. split; auto. split; auto. unfold before in *. lia.
    - right. rewrite HBx, HBy by lia. unfold before. lia. }
  assert (PG : forall y, y0 <= y < y1 -> u32 (g_offset g + y * g_stride g + x0) = pos g x0 y /\ 0 <= pos g x0 y /\ pos g x0 y + (x1 - x0) < 4294967296).
  { intros y Hy. destruct (wf_row g y Wg ltac:(lia) ltac:(lia)) as (R1 & R2 & R3). assert (L' := Wg). unfold wf in L'.
    unfold pos. rewrite u32_id by lia. lia. }
  assert (PO : forall y, y0 <= y < y1 -> u32 (g_offset go + y * g_stride go + x0) = pos go x0 y /\ 0 <= pos go x0 y /\ pos go x0 y + (x1 - x0) < 4294967296).
  { intros y Hy. destruct (wf_row go y Wo ltac:(lia) ltac:(lia)) as (R1 & R2 & R3). assert (L' := Wo). unfold wf in L'.
    unfold pos. rewrite u32_id by lia. lia. }
  assert (Start : st_rel H o go (Q x0 y0) d H').
  { revert R. apply st_mono. intros x y _ Hd. now left. }
  assert (ROW : forall (b1 : Z -> list Z -> outcome (list Z)) b2,
    (forall y s t, y0 <= y < y1 -> st_rel H o go (Q x0 y) s t -> orel (st_rel H o go (Q x1 y)) (b1 y s) (b2 y t)) ->
    orel (st_rel H o go (done (bx + 1) by_)) (for_range y0 y1 b1 d) (for_range y0 y1 b2 H')).
  { intros b1 b2 Hb. apply orel_weak with (R := st_rel H o go (Q x0 y1)).
    2:{ intros s t Rs. apply Last. revert Rs. apply st_mono. intros x y [I1 I2] [Hd|(A & B & C)]; [now left|]. right. split; auto. split; auto.
        left. subst by_. pose proof (block_cover HT req Hh y ltac:(lia)). unfold y1. lia. }
    apply (orel_range (fun y => st_rel H o go (Q x0 y))); auto; [|lia].
    intros y s t Hy Rs. eapply orel_weak; [apply Hb; auto|]. intros s' t'. apply st_mono.
    intros x y' _ [Hd|(A & B & C)]; [now left|]. right. split; auto. split; auto. unfold before in *. lia. }
  pose (noF := fun _ _ : Z => @None Z).
  destruct indexed.
  - unfold block_apply_index, h_block_apply_index. rewrite <- D1, <- D2, E1, E2.
    rewrite (start_ok g req Wg Hw Hh noF), (end_ok g req Wg Hw Hh noF), (start_ok_v g req Wg Hw Hh noF), (end_ok_v g req Wg Hw Hh noF) by auto.
    fold x0 x1 y0 y1. rewrite (u32_id (x1 - x0)) by lia. apply ROW. intros y s t Hy Rs. cbv zeta.
    rewrite <- D3, <- D4, <- F3, <- F4. destruct (PG y Hy) as (-> & P1 & P2). destruct (PO y Hy) as (-> & P3 & P4).
    rewrite (u32_id (pos go x0 y + (x1 - x0))) by lia.
    rewrite !range_from.
    apply orel_weak with (R := st_rel H o go (Q (x0 + (x1 - x0)) y)); [|intros ? ?; now replace (x0 + (x1 - x0)) with x1 by lia].
    apply (orel_range (fun i => st_rel H o go (Q (x0 + i) y))); [|lia|now rewrite Z.add_0_r].
    intros i s' t' Hx Rx. replace (pos go x0 y + i - pos go x0 y) with i by lia. rewrite (u32_id (pos g x0 y + i)) by lia.
    replace (pos g x0 y + i) with (pos g (x0 + i) y) by (unfold pos; lia).
    replace (pos go x0 y + i) with (pos go (x0 + i) y) by (unfold pos; lia). rewrite Z.add_assoc. apply PIX; auto. lia.
  - unfold block_apply, h_block_apply. rewrite <- D1, <- D2, E1, E2.
    rewrite (start_ok g req Wg Hw Hh noF), (end_ok g req Wg Hw Hh noF), (start_ok_v g req Wg Hw Hh noF), (end_ok_v g req Wg Hw Hh noF) by auto.
    fold x0 x1 y0 y1. rewrite (u32_id (x1 - x0)) by lia. apply ROW. intros y s t Hy Rs. cbv zeta.
    rewrite <- D3, <- D4, <- F3, <- F4. destruct (PG y Hy) as (-> & P1 & P2). destruct (PO y Hy) as (-> & P3 & P4).
    apply orel_weak with (R := st_rel H o go (Q (x0 + (x1 - x0)) y)); [|intros ? ?; now replace (x0 + (x1 - x0)) with x1 by lia].
    apply (orel_range (fun i => st_rel H o go (Q (x0 + i) y))); [|lia|now rewrite Z.add_0_r].
    intros i s' t' Hx Rx.
    replace (pos g x0 y + i) with (pos g (x0 + i) y) by (unfold pos; lia).
    replace (pos go x0 y + i) with (pos go (x0 + i) y) by (unfold pos; lia). rewrite Z.add_assoc. apply PIX; auto. lia.
Qed.
End Blocks.

Definition keeps_size {T} (F : bfilter Z T) : Prop := forall st st', bf_clear F st = Ok st' -> i_width st' = i_width st /\ i_height st' = i_height st.
Definition follows {T} (F : bfilter Z T) (rule : inter T -> Z -> Z -> outcome (Z -> outcome Z)) (indexed : bool) : Prop :=
  forall bw bh st g out bx by_ d, bf_threshold F bw bh st g out bx by_ d =
    let* f := rule st bx by_ in
    (if indexed then block_apply_index bw bh st g out bx by_ f else block_apply bw bh st g out bx by_ f) d.

Lemma udiv_Ok a b c : udiv a b = Ok c -> b <> 0 /\ c = a / b.
Proof. unfold udiv. destruct (Z.eqb_spec b 0); [discriminate|]. intros E; injection E as <-. auto. Qed.

Lemma block_shared {T D} (F : bfilter Z T) rule indexed (O : dops D) request stats H a out g go :
  keeps_size F -> follows F rule indexed -> good H a g -> good H out go -> aligned a out ->
  as_copies H out (let* '(st, g') := block_process F O request stats g go in Ok (g', st))
    (let* '(st, H') := h_block_process F rule indexed O request stats H a out in Ok (H', out, st)).
Proof.
  intros Kf Fo Ga Go Al. assert (Wg : wf g) by apply Ga. assert (Wo : wf go) by apply Go.
  assert (X := Ga). destruct X as (Va & _). pose proof (view_inv _ _ _ Va) as (_ & D1 & D2 & _).
  assert (X := Go). destruct X as (Vo & _). pose proof (view_inv _ _ _ Vo) as (_ & C1 & C2 & _).
  unfold block_process, h_block_process, checkSameShape, h_checkSameShape. rewrite D1, D2, C1, C2.
  destruct (negb _ || negb _) eqn:Sh; [exact I|]. cbn [bind]. rewrite (h_image_good _ _ _ Ga). cbn [bind]. rewrite <- D1, <- D2 in *.
  apply as_copies_orel. rewrite !bind_assoc. apply orel_same. intros r _. cbv zeta.
  destruct ((g_width g <? u32 r) || (g_height g <? u32 r)) eqn:Rq; [exact I|]. rewrite !bind_assoc. apply orel_same. intros [bw bh] Eb.
  unfold block_size in Eb. apply bind_Ok in Eb as (nr & En & Eb). apply bind_Ok in Eb as (nc & Em & Eb).
  apply bind_Ok in Eb as (bh' & Eh & Eb). apply bind_Ok in Eb as (bw' & Ew & Eb). injection Eb as -> ->.
  apply udiv_Ok in En as (R0 & ->). apply udiv_Ok in Em as (_ & ->). apply udiv_Ok in Eh as (_ & ->). apply udiv_Ok in Ew as (_ & ->).
  pose proof (u32_range r) as Rr. set (req := u32 r) in *.
  assert (Hw : 1 <= req <= g_width g) by lia. assert (Hh : 1 <= req <= g_height g) by lia.
  fold (block_count (g_width g) req) (block_count (g_height g) req).
  fold (block_len (g_width g) req) (block_len (g_height g) req).
  rewrite !bind_assoc. apply orel_same. intros nc Ec. apply udiv_Ok in Ec as (_ & ->). rewrite (len_count _ _ Hw).
  rewrite !bind_assoc. apply orel_same. intros nr Ec. apply udiv_Ok in Ec as (_ & ->). rewrite (len_count _ _ Hh).
  rewrite !bind_assoc. apply orel_same. intros st1 E1. rewrite !bind_assoc. apply orel_same. intros iw _.
  rewrite !bind_assoc. apply orel_same. intros ih _. rewrite !bind_assoc. apply orel_same. intros st2 E2.
  rewrite !bind_assoc. apply orel_same. intros sd _. cbn [i_width i_height i_with_data].
  destruct (Kf _ _ E2) as [K1 K2].
  assert (K : i_width st1 = cols g req /\ i_height st1 = rows g req).
  { revert E1. unfold inter_reshape. destruct (_ && _) eqn:B; [intros E; injection E as <-; unfold cols, rows; lia|].
    destruct (i_sub stats); [discriminate|]. intros E; injection E as <-. auto. }
  destruct K as [K3 K4]. set (st3 := i_with_data st2 sd).
  assert (S1 : i_width st3 = cols g req) by (cbn; lia). assert (S2 : i_height st3 = rows g req) by (cbn; lia).
  rewrite !bind_assoc. eapply orel_bind with (R := st_rel H out go (done g req 0 (i_height st3))).
  - pose proof (dims g req Wg Hw Hh) as (_ & _ & N3 & N4).
    apply (orel_range (fun y => st_rel H out go (done g req 0 y))); [|lia|].
    2:{ apply st_init; auto. }
    intros y d H' Hy R. apply orel_weak with (R := st_rel H out go (done g req (i_width st3) y)).
    2:{ intros s t. apply st_mono. intros x y' [I1 I2]. unfold done, before.
        pose proof (block_cover (g_width g) req Hw x ltac:(lia)) as [? _]. pose proof (block_cover (g_height g) req Hh y' ltac:(lia)) as [? _]. lia. }
    apply (orel_range (fun x => st_rel H out go (done g req x y))); [|lia|exact R].
    intros x s t Hx Rx. rewrite Fo. apply orel_same. intros f _.
    pose proof (apply_sim H a out g go req Ga Go ltac:(lia) ltac:(lia) Al Hw Hh st3 x y f s t indexed ltac:(lia) ltac:(lia) S1 S2 Rx) as X.
    destruct indexed; exact X.
  - intros d H2 R. cbn [bind orel]. eapply finish; eauto.
Qed.

(** The three filters. *)
Lemma mean_follows {S} (M : bmean Z S) local down : follows (block_mean M 0 local down) (mean_rule M local down) false.
Proof.
  intros bw bh st g out bx by_ d. cbn [bf_threshold block_mean]. unfold mean_rule. rewrite !bind_assoc. apply bind_ext. intros s _.
  rewrite !bind_assoc. reflexivity.
Qed.
Lemma minmax_follows {A} (M : bminmax Z A) local down : follows (block_minmax M 0 local down) (minmax_rule M local down) false.
Proof.
  intros bw bh st g out bx by_ d. cbn [bf_threshold block_minmax]. unfold minmax_rule. rewrite !bind_assoc. apply bind_ext. intros s _.
  rewrite !bind_assoc. reflexivity.
Qed.
Lemma otsu_follows {D} (O : dops D) u8 two tuning scale local down :
  follows (block_otsu O u8 two tuning scale local down) (otsu_rule O u8 two tuning scale local down) true.
Proof.
  intros bw bh st g out bx by_ d. cbn [bf_threshold block_otsu]. unfold otsu_rule. rewrite !bind_assoc. apply bind_ext. intros s _.
  rewrite !bind_assoc. apply bind_ext. intros h _. rewrite !bind_assoc. apply bind_ext. intros t _. rewrite !bind_assoc. reflexivity.
Qed.
Lemma same_keeps {T} zero bands stats thr : keeps_size (@mkBfilter Z T zero bands (fun st => Ok st) stats thr).
Proof. intros st st' E. injection E as <-. auto. Qed.
Lemma otsu_keeps {D} (O : dops D) u8 two tuning scale local down : keeps_size (block_otsu O u8 two tuning scale local down).
Proof.
  intros st st' E. cbn [bf_clear block_otsu] in E. unfold inter_fill in E. apply bind_Ok in E as (d & _ & E). injection E as <-. auto.
Qed.

Lemma block_mean_shared {S D} (M : bmean Z S) local down (O : dops D) request stats H a out g go :
  good H a g -> good H out go -> aligned a out ->
  as_copies H out (let* '(st, g') := block_process (block_mean M 0 local down) O request stats g go in Ok (g', st))
    (let* '(st, H') := h_block_process (block_mean M 0 local down) (mean_rule M local down) false O request stats H a out in Ok (H', out, st)).
Proof. apply block_shared; [apply same_keeps|apply mean_follows]. Qed.
Lemma block_minmax_shared {A D} (M : bminmax Z A) local down (O : dops D) request stats H a out g go :
  good H a g -> good H out go -> aligned a out ->
  as_copies H out (let* '(st, g') := block_process (block_minmax M 0 local down) O request stats g go in Ok (g', st))
    (let* '(st, H') := h_block_process (block_minmax M 0 local down) (minmax_rule M local down) false O request stats H a out in Ok (H', out, st)).
Proof. apply block_shared; [apply same_keeps|apply minmax_follows]. Qed.
Lemma block_otsu_shared {D} (O : dops D) u8 two tuning scale local down (O' : dops D) request stats H a out g go :
  good H a g -> good H out go -> aligned a out ->
  as_copies H out (let* '(st, g') := block_process (block_otsu O u8 two tuning scale local down) O' request stats g go in Ok (g', st))
    (let* '(st, H') := h_block_process (block_otsu O u8 two tuning scale local down) (otsu_rule O u8 two tuning scale local down) true
                         O' request stats H a out in Ok (H', out, st)).
Proof. apply block_shared; [apply otsu_keeps|apply otsu_follows]. Qed.

(** ** Blur *)
Section Blur.
Context {Px : Type} (t0 : Px).
Variables (H : heap Px) (a out : himg) (g go : gray Px).
Hypothesis Ga : good H a g.
Hypothesis Go : good H out go.
Hypothesis Hs : h_width out = h_width a /\ h_height out = h_height a \/ h_sub out = false.

Lemma mean_v_layout {S T} (N : narith Px S) (M : marith Px T) c radius (k o o' : gray Px) : mean_v N M c radius k o = Ok o' ->
  exists d, o' = with_data o d.
Proof.
  unfold mean_v, normalized_v. intros E. apply bind_Ok in E as (? & _ & E). destruct (_ <? _).
  - repeat (apply bind_Ok in E as (? & _ & E)). injection E as <-. eauto.
  - repeat (apply bind_Ok in E as (? & _ & E)). injection E as <-. eauto.
Qed.
Lemma blur_mean_shared {S T} (N : narith Px S) (M : marith Px T) c radius storage :
  as_copies H out (blur_mean N M t0 c radius g go storage) (h_blur_mean N M t0 c radius H a out storage).
Proof.
  destruct (take_reshape t0 H a out g go Ga Go Hs) as (H1 & o & g1 & E1 & E2 & Ga1 & G1 & Sw & Sh & Ta & Fr).
  assert (X := Ga). destruct X as (Va & _). pose proof (view_inv _ _ _ Va) as (_ & D1 & D2 & _).
  unfold blur_mean, h_blur_mean. destruct (radius <=? 0); [exact I|]. rewrite D1, D2, E1, E2. cbn [bind].
  rewrite (h_image_good _ _ _ Ga1), (h_image_good _ _ _ G1). apply as_copies_orel. apply orel_same. intros w _. cbn [bind].
  apply orel_same. intros w' _. apply orel_same. intros o' Eo. destruct (mean_v_layout N M c radius w' g1 o' Eo) as (d & ->).
  cbn [orel g_data with_data]. now apply finish_upd.
Qed.
Lemma blur_gaussian_shared {S} (N : narith Px S) K storage :
  as_copies H out (blur_gaussian N t0 K g go storage) (h_blur_gaussian N t0 K H a out storage).
Proof.
  destruct (take_reshape t0 H a out g go Ga Go Hs) as (H1 & o & g1 & E1 & E2 & Ga1 & G1 & Sw & Sh & Ta & Fr).
  assert (X := Ga). destruct X as (Va & _). pose proof (view_inv _ _ _ Va) as (_ & D1 & D2 & _).
  unfold blur_gaussian, h_blur_gaussian. rewrite D1, D2, E1, E2. cbn [bind].
  rewrite (h_image_good _ _ _ Ga1), (h_image_good _ _ _ G1). apply as_copies_orel. apply orel_same. intros w _. cbn [bind].
  apply orel_same. intros w' _. apply orel_same. intros o' Eo. unfold normalized_v in Eo.
  apply bind_Ok in Eo as (? & _ & Eo). apply bind_Ok in Eo as (d & _ & Eo). injection Eo as <-.
  cbn [orel g_data with_data]. now apply finish_upd.
Qed.
End Blur.

(** ** Morphology *)
Lemma morph_shared test H a out g go : good H a g -> good H out go ->
  h_width out = h_width a /\ h_height out = h_height a \/ h_sub out = false -> apart a (target a out) ->
  0 < h_width a <= 2147483648 -> 0 < h_height a <= 2147483648 ->
  as_copies H out (only (morph4 test g go)) (only (h_morph4 test H a out)).
Proof.
  intros Ga Go Hs Ap Hw Hh.
  destruct (take_reshape 0 H a out g go Ga Go Hs) as (H1 & o & g1 & E1 & E2 & Ga1 & G1 & Sw & Sh & Ta & Fr).
  assert (Ap' : apart a o).
  { intros Eb. destruct (Ta Eb) as [Eb' ->]. apply Ap. unfold target. destruct (_ && _); auto. }
  assert (X := Ga). destruct X as (Va & Wg & _). pose proof (view_inv _ _ _ Va) as (_ & D1 & D2 & _).
  assert (Wo : wf g1) by apply G1.
  destruct (sim_dims H1 a o g g1 Ga1 G1 Sw Sh) as (_ & _ & D3 & D4 & F1 & F2 & F3 & F4).
  pose proof (wf_small g Wg) as Sm. unfold small in Sm.
  unfold only, morph4, h_morph4. rewrite D1, D2, E1, E2. cbn [bind].
  apply as_copies_orel. rewrite !bind_assoc. eapply orel_bind with (R := st_rel H1 o g1 (fun _ _ => True)).
  2:{ intros d H2 R. cbn [bind orel]. eapply finish; eauto. }
  replace (u32 (s32 (u32 (h_height a - 1)))) with (h_height a - 1).
  2:{ rewrite (u32_id (h_height a - 1)) by lia. rewrite s32_id by lia. symmetry. apply u32_id. lia. }
  assert (Ew : s32 (u32 (h_width a - 2)) = h_width a - 2) by (apply s32_u32; lia). rewrite Ew.
  destruct (Z_lt_ge_dec (h_height a) 2) as [Sm2|Bg].
  { rewrite !for_range_nil by lia. cbn [orel]. now apply st_init. }
  apply (orel_range (fun _ => st_rel H1 o g1 (fun _ _ => True))); [|lia|now apply st_init].
  intros y d H' Hy R. cbv zeta. rewrite <- D3, <- D4, <- F3, <- F4.
  destruct (wf_row g y Wg ltac:(lia) ltac:(lia)) as (R1 & R2 & R3). destruct (wf_row g1 y Wo ltac:(lia) ltac:(lia)) as (Q1 & Q2 & Q3).
  assert (Lg : zlen (g_data g) < 4294967296) by (unfold wf in Wg; lia). assert (Lo : zlen (g_data g1) < 4294967296) by (unfold wf in Wo; lia).
  destruct (Z_lt_ge_dec (h_width a) 3) as [Sm2|Bw].
  { assert (E : u32 (u32 (g_offset g + y * g_stride g + 1) + (h_width a - 2)) <= u32 (g_offset g + y * g_stride g + 1)).
    { destruct (Z.eq_dec (h_width a) 2) as [->|N]; [rewrite Z.add_0_r, u32_u32; lia|]. assert (E : h_width a = 1) by lia. rewrite E in *.
      rewrite (u32_id (g_offset g + y * g_stride g + 1)) by lia. rewrite u32_id by lia. lia. }
    rewrite !for_range_nil by lia. exact R. }
  rewrite (u32_id (g_offset g + y * g_stride g + 1)) by lia. rewrite (u32_id (g_offset g1 + y * g_stride g1 + 1)) by lia.
  rewrite (u32_id (g_offset g + y * g_stride g + 1 + (h_width a - 2))) by lia. rewrite !range_from.
  apply (orel_range (fun _ => st_rel H1 o g1 (fun _ _ => True))); [|lia|exact R].
  intros i s t Hi Rs.
  assert (P : forall x k, inside g x k -> hread t (h_block a) (pos g x k) = bget (g_data g) (pos g x k)).
  { intros x k I. apply (st_read H1 a o g g1 Ga1 G1 _ _ _ x k Rs I). intros Eb x' y' [] Ep. exfalso. destruct I.
    apply (Ap' Eb x k x' y'); try lia. unfold pos in Ep. lia. }
  assert (U : forall x k, inside g x k -> u32 (pos g x k) = pos g x k) by (intros; now apply u32_pos).
  replace (g_offset g + y * g_stride g + 1 + i) with (pos g (1 + i) y) by (unfold pos; lia).
  replace (pos g (1 + i) y - 1) with (pos g i y) by (unfold pos; lia).
  replace (pos g (1 + i) y + 1) with (pos g (2 + i) y) by (unfold pos; lia).
  replace (pos g (1 + i) y - g_stride g) with (pos g (1 + i) (y - 1)) by (unfold pos; lia).
  replace (pos g (1 + i) y + g_stride g) with (pos g (1 + i) (y + 1)) by (unfold pos; lia).
  rewrite !U by (split; lia). rewrite !P by (split; lia).
  do 5 (apply orel_same; intros ? _).
  replace (g_offset g1 + y * g_stride g1 + 1 + (pos g (1 + i) y - (g_offset g + y * g_stride g + 1))) with (pos g1 (1 + i) y) by (unfold pos; lia).
  rewrite (u32_pos g1) by (auto; split; lia). eapply (st_write H1 o g1 G1); eauto. split; lia.
Qed.

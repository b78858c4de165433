(** Lemmas about [Base]. *)
From Coq Require Export Lia ZifyBool.
From Verif Require Export Base.
Ltac Zify.zify_post_hook ::= Z.div_mod_to_equations.
Global Arguments Z.add : simpl never.
Global Arguments Z.sub : simpl never.
Global Arguments Z.mul : simpl never.
Global Arguments Z.opp : simpl never.
Global Arguments Z.div : simpl never.
Global Arguments Z.modulo : simpl never.
Global Arguments Z.of_nat : simpl never.
Global Arguments Z.to_nat : simpl never.
Global Arguments zlen : simpl never.
Global Arguments u8 : simpl never.
Global Arguments u16 : simpl never.
Global Arguments u32 : simpl never.
Global Arguments s16 : simpl never.
Global Arguments s32 : simpl never.
Global Arguments s64 : simpl never.
Global Arguments for_range : simpl never.

Lemma bind_Ok {A B} (m : outcome A) (k : A -> outcome B) b :
  bind m k = Ok b <-> exists a, m = Ok a /\ k a = Ok b.
Proof.
  destruct m; cbn; split; intros H; try discriminate; eauto;
    destruct H as (x & Hx & Hk); try discriminate; now inversion Hx; subst.
Qed.

Lemma bind_assoc {A B C} (m : outcome A) (k : A -> outcome B) (h : B -> outcome C) :
  bind (bind m k) h = bind m (fun a => bind (k a) h).
Proof. now destruct m. Qed.

Lemma bind_ext {A B} (m : outcome A) (k k' : A -> outcome B) :
  (forall a, m = Ok a -> k a = k' a) -> bind m k = bind m k'.
Proof. destruct m; cbn; auto. Qed.

(** ** Integers *)
Lemma u32_id z : 0 <= z < 4294967296 -> u32 z = z.
Proof. intros; unfold u32; apply Z.mod_small; lia. Qed.
Lemma u32_range z : 0 <= u32 z < 4294967296.
Proof. unfold u32; apply Z.mod_pos_bound; lia. Qed.
Lemma s32_id z : -2147483648 <= z < 2147483648 -> s32 z = z.
Proof. intros; unfold s32; rewrite Z.mod_small; lia. Qed.
Lemma s32_u32 z : -2147483648 <= z < 2147483648 -> s32 (u32 z) = z.
Proof. intros; unfold s32, u32; lia. Qed.
Lemma s32_range z : -2147483648 <= s32 z < 2147483648.
Proof. unfold s32; lia. Qed.
Lemma u8_id z : 0 <= z < 256 -> u8 z = z.
Proof. intros; unfold u8; apply Z.mod_small; lia. Qed.
Lemma u8_range z : 0 <= u8 z < 256.
Proof. unfold u8; apply Z.mod_pos_bound; lia. Qed.
Lemma u32_add_l a b : u32 (u32 a + b) = u32 (a + b).
Proof. unfold u32; apply Zplus_mod_idemp_l. Qed.
Lemma u32_add_r a b : u32 (a + u32 b) = u32 (a + b).
Proof. unfold u32; apply Zplus_mod_idemp_r. Qed.
Lemma u32_mul_l a b : u32 (u32 a * b) = u32 (a * b).
Proof. unfold u32; apply Zmult_mod_idemp_l. Qed.
Lemma u32_u32 a : u32 (u32 a) = u32 a.
Proof. unfold u32; apply Zmod_mod. Qed.

Lemma cast_range t z : ity_min t <= cast t z <= ity_max t.
Proof. destruct t; cbn -[Z.modulo]; unfold u8, u16, u32, s16, s32, s64; lia. Qed.
Lemma cast_id t z : ity_min t <= z <= ity_max t -> cast t z = z.
Proof. destruct t; cbn -[Z.modulo]; unfold u8, u16, u32, s16, s32, s64; intros;
  try (rewrite Z.mod_small by lia; lia). Qed.

Lemma arith_result_in t z :
  ity_min t <= z <= ity_max t -> arith_result t z = Ok z.
Proof.
  intros H; unfold arith_result. destruct (ity_signed t).
  - replace (_ && _) with true by lia. reflexivity.
  - now rewrite cast_id.
Qed.

(** ** Buffers *)
Lemma zlen_nonneg {A} (l : list A) : 0 <= zlen l.
Proof. unfold zlen; lia. Qed.
Lemma zlen_app {A} (l k : list A) : zlen (l ++ k) = zlen l + zlen k.
Proof. unfold zlen; rewrite app_length; lia. Qed.
Ltac zlen_nil := change (zlen (@nil _)) with 0 in *.
Lemma zlen_cons {A} (a : A) l : zlen (a :: l) = 1 + zlen l.
Proof. unfold zlen; cbn [length]; lia. Qed.
Lemma zlen_repeat {A} (a : A) n : zlen (repeat a n) = Z.of_nat n.
Proof. unfold zlen; now rewrite repeat_length. Qed.

Lemma znth_Some_range {A} (l : list A) i a : znth l i = Some a -> 0 <= i < zlen l.
Proof.
  unfold znth, zlen. destruct (i <? 0) eqn:E; [discriminate|]. intros H.
  assert (Z.to_nat i < length l)%nat by (apply nth_error_Some; congruence). lia.
Qed.
Lemma znth_in_range {A} (l : list A) i : 0 <= i < zlen l -> exists a, znth l i = Some a.
Proof.
  unfold znth, zlen; intros H. replace (i <? 0) with false by lia.
  destruct (nth_error l (Z.to_nat i)) eqn:E; eauto.
  apply nth_error_None in E; lia.
Qed.
Lemma znth_None {A} (l : list A) i : znth l i = None <-> ~ (0 <= i < zlen l).
Proof.
  split.
  - intros H R. destruct (znth_in_range l i R); congruence.
  - intros H. destruct (znth l i) eqn:E; auto. apply znth_Some_range in E; lia.
Qed.
Lemma znth_cons_0 {A} (a : A) l : znth (a :: l) 0 = Some a.
Proof. reflexivity. Qed.
Lemma znth_cons_S {A} (a : A) l i : 0 < i -> znth (a :: l) i = znth l (i - 1).
Proof.
  intros H; unfold znth. replace (i <? 0) with false by lia. replace (i - 1 <? 0) with false by lia.
  replace (Z.to_nat i) with (S (Z.to_nat (i - 1))) by lia. reflexivity.
Qed.
Lemma znth_app_l {A} (l k : list A) i : i < zlen l -> znth (l ++ k) i = znth l i.
Proof.
  unfold znth, zlen; intros H. destruct (i <? 0) eqn:E; auto. apply nth_error_app1; lia.
Qed.
Lemma znth_app_r {A} (l k : list A) i : zlen l <= i -> znth (l ++ k) i = znth k (i - zlen l).
Proof.
  unfold znth, zlen; intros H. replace (i <? 0) with false by lia.
  replace (i - Z.of_nat (length l) <? 0) with false by lia.
  rewrite nth_error_app2 by lia. f_equal; lia.
Qed.
Lemma znth_repeat {A} (a : A) n i : 0 <= i < Z.of_nat n -> znth (repeat a n) i = Some a.
Proof.
  intros H; unfold znth. replace (i <? 0) with false by lia.
  apply nth_error_repeat; lia.
Qed.
Lemma znth_map {A B} (f : A -> B) l i : znth (map f l) i = option_map f (znth l i).
Proof. unfold znth. destruct (i <? 0); auto. apply nth_error_map. Qed.
Lemma znth_In {A} (l : list A) i a : znth l i = Some a -> In a l.
Proof. unfold znth. destruct (i <? 0); [discriminate|]. apply nth_error_In. Qed.
Lemma In_znth {A} (l : list A) a : In a l -> exists i, znth l i = Some a.
Proof.
  intros H. apply In_nth_error in H as [n Hn]. exists (Z.of_nat n). unfold znth.
  replace (Z.of_nat n <? 0) with false by lia. now rewrite Nat2Z.id.
Qed.
Lemma znth_ext {A} (l k : list A) : (forall i, znth l i = znth k i) -> l = k.
Proof.
  revert k; induction l as [|a l IH]; intros [|b k] H; auto.
  - specialize (H 0); discriminate.
  - specialize (H 0); discriminate.
  - pose proof (H 0) as H0. cbn in H0. injection H0 as ->. f_equal. apply IH. intros i.
    destruct (Z.ltb_spec i 0).
    + unfold znth. now replace (i <? 0) with true by lia.
    + specialize (H (i + 1)). rewrite !znth_cons_S in H by lia.
      now replace (i + 1 - 1) with i in H by lia.
Qed.

Lemma upd_length {A} (l : list A) n a : length (upd l n a) = length l.
Proof. revert n; induction l; intros [|n]; cbn; auto. Qed.
Lemma upd_same {A} (l : list A) n a : (n < length l)%nat -> nth_error (upd l n a) n = Some a.
Proof. revert n; induction l; intros [|n] H; cbn in *; try lia; auto. apply IHl; lia. Qed.
Lemma upd_other {A} (l : list A) n m a : n <> m -> nth_error (upd l n a) m = nth_error l m.
Proof. revert n m; induction l; intros [|n] [|m] H; cbn in *; try lia; auto. Qed.

Lemma bget_Ok {A} (l : list A) i a : bget l i = Ok a <-> znth l i = Some a.
Proof. unfold bget. destruct (znth l i); split; congruence. Qed.
Lemma bget_in {A} (l : list A) i : 0 <= i < zlen l -> exists a, bget l i = Ok a /\ znth l i = Some a.
Proof. intros H. destruct (znth_in_range l i H) as [a Ha]. exists a. now rewrite bget_Ok. Qed.
Lemma bget_out {A} (l : list A) i : ~ (0 <= i < zlen l) -> bget l i = Undef.
Proof. intros H. unfold bget. now rewrite (proj2 (znth_None l i) H). Qed.

Lemma bset_in {A} (l : list A) i a : 0 <= i < zlen l -> bset l i a = Ok (upd l (Z.to_nat i) a).
Proof. intros H; unfold bset. replace (_ && _) with true by lia. reflexivity. Qed.
Lemma bset_out {A} (l : list A) i a : ~ (0 <= i < zlen l) -> bset l i a = Undef.
Proof. intros H; unfold bset. replace (_ && _) with false by lia. reflexivity. Qed.
Lemma bset_Ok {A} (l : list A) i a l' :
  bset l i a = Ok l' -> 0 <= i < zlen l /\ zlen l' = zlen l /\
  (forall j, znth l' j = if j =? i then Some a else znth l j).
Proof.
  unfold bset. destruct (_ && _) eqn:E; [|discriminate]. intros H; injection H as <-.
  split; [lia|]. split; [unfold zlen; now rewrite upd_length|].
  intros j. unfold znth. destruct (j <? 0) eqn:Ej.
  - replace (j =? i) with false by lia. reflexivity.
  - destruct (j =? i) eqn:Eji.
    + replace (Z.to_nat j) with (Z.to_nat i) by lia. apply upd_same. unfold zlen in E; lia.
    + apply upd_other; lia.
Qed.
Lemma bset_exists {A} (l : list A) i a :
  0 <= i < zlen l -> exists l', bset l i a = Ok l' /\ zlen l' = zlen l /\
  (forall j, znth l' j = if j =? i then Some a else znth l j).
Proof.
  intros H. rewrite bset_in by auto. eexists; split; [reflexivity|].
  pose proof (bset_Ok l i a _ (bset_in l i a H)); tauto.
Qed.

(** ** Loops *)
Lemma for_range_nil {S} lo hi (body : Z -> S -> outcome S) s : hi <= lo -> for_range lo hi body s = Ok s.
Proof. intros H; unfold for_range. replace (Z.to_nat (hi - lo)) with O by lia. reflexivity. Qed.
Lemma for_range_step {S} lo hi (body : Z -> S -> outcome S) s :
  lo < hi -> for_range lo hi body s = bind (body lo s) (for_range (lo + 1) hi body).
Proof.
  intros H; unfold for_range.
  replace (Z.to_nat (hi - lo)) with (Datatypes.S (Z.to_nat (hi - (lo + 1)))) by lia. reflexivity.
Qed.
Lemma for_range_inv {S} (Inv : Z -> S -> Prop) lo hi (body : Z -> S -> outcome S) s :
  lo <= hi -> Inv lo s ->
  (forall i s, lo <= i < hi -> Inv i s -> exists s', body i s = Ok s' /\ Inv (i + 1) s') ->
  exists s', for_range lo hi body s = Ok s' /\ Inv hi s'.
Proof.
  intros Hle. remember (Z.to_nat (hi - lo)) as n eqn:En. revert lo s Hle En.
  induction n as [|n IH]; intros lo s Hle En H0 Hstep.
  - rewrite for_range_nil by lia. replace hi with lo by lia. eauto.
  - rewrite for_range_step by lia.
    destruct (Hstep lo s ltac:(lia) H0) as (s' & Hb & Hi). rewrite Hb. cbn.
    apply IH; auto; try lia. intros; apply Hstep; auto; lia.
Qed.
Lemma for_range_ext {S} lo hi (b1 b2 : Z -> S -> outcome S) s :
  (forall i s, lo <= i < hi -> b1 i s = b2 i s) -> for_range lo hi b1 s = for_range lo hi b2 s.
Proof.
  remember (Z.to_nat (hi - lo)) as n eqn:En. revert lo s En.
  induction n as [|n IH]; intros lo s En H.
  - rewrite !for_range_nil by lia. reflexivity.
  - rewrite !for_range_step by lia. rewrite H by lia.
    apply bind_ext; intros a _. apply IH; auto; try lia. intros; apply H; lia.
Qed.
Lemma for_range_split {S} lo mid hi (body : Z -> S -> outcome S) s :
  lo <= mid <= hi ->
  for_range lo hi body s = bind (for_range lo mid body s) (for_range mid hi body).
Proof.
  remember (Z.to_nat (mid - lo)) as n eqn:En. revert lo s En.
  induction n as [|n IH]; intros lo s En H.
  - rewrite (for_range_nil lo mid) by lia. cbn. now replace mid with lo by lia.
  - rewrite !(for_range_step lo) by lia. rewrite bind_assoc.
    apply bind_ext; intros a _. apply IH; lia.
Qed.
Lemma for_range_last {S} lo hi (body : Z -> S -> outcome S) s :
  lo <= hi -> for_range lo (hi + 1) body s = bind (for_range lo hi body s) (body hi).
Proof.
  intros H. rewrite (for_range_split lo hi) by lia. apply bind_ext; intros a _.
  rewrite for_range_step by lia. destruct (body hi a); cbn; rewrite ?for_range_nil by lia; reflexivity.
Qed.
Lemma for_range_shift {S} lo hi k (body : Z -> S -> outcome S) s :
  for_range (lo + k) (hi + k) body s = for_range lo hi (fun i => body (i + k)) s.
Proof.
  remember (Z.to_nat (hi - lo)) as n eqn:En. revert lo s En.
  induction n as [|n IH]; intros lo s En.
  - rewrite !for_range_nil by lia. reflexivity.
  - rewrite !for_range_step by lia. apply bind_ext; intros a _.
    replace (lo + k + 1) with (lo + 1 + k) by lia. apply IH; lia.
Qed.
(** Shape of a partial-correctness argument: if the loop returned, the invariant holds at the end. *)
Lemma for_range_Ok_inv {S} (Inv : Z -> S -> Prop) lo hi (body : Z -> S -> outcome S) s s' :
  lo <= hi -> Inv lo s ->
  (forall i s s', lo <= i < hi -> Inv i s -> body i s = Ok s' -> Inv (i + 1) s') ->
  for_range lo hi body s = Ok s' -> Inv hi s'.
Proof.
  intros Hle. remember (Z.to_nat (hi - lo)) as n eqn:En. revert lo s Hle En.
  induction n as [|n IH]; intros lo s Hle En H0 Hstep Hr.
  - rewrite for_range_nil in Hr by lia. injection Hr as <-. now replace hi with lo by lia.
  - rewrite for_range_step in Hr by lia. apply bind_Ok in Hr as (s1 & Hb & Hr).
    apply (IH (lo + 1) s1); try lia; auto.
    + apply (Hstep lo s); auto; lia.
    + intros i t t' Hi; apply Hstep; lia.
Qed.

(** ** Write sets

    [writes d W d']: [d'] is [d] where exactly the indices related by [W] were overwritten, each by a value
    that [W] allows for it. *)
Definition writes {A} (d : list A) (W : Z -> A -> Prop) (d' : list A) : Prop :=
  zlen d' = zlen d /\
  forall j, (exists v, W j v /\ znth d' j = Some v) \/ ((forall v, ~ W j v) /\ znth d' j = znth d j).

Lemma writes_none {A} (d : list A) (W : Z -> A -> Prop) : (forall j v, ~ W j v) -> writes d W d.
Proof. intros H; split; auto. Qed.
Lemma writes_compose {A} (d d1 d2 : list A) W1 W2 :
  writes d W1 d1 -> writes d1 W2 d2 -> writes d (fun j v => W1 j v \/ W2 j v) d2.
Proof.
  intros [L1 H1] [L2 H2]; split; [congruence|]. intros j.
  destruct (H2 j) as [(v & Hv & E)|(N & E)].
  - left; eauto.
  - destruct (H1 j) as [(v & Hv & E')|(N' & E')].
    + left; exists v; split; auto; congruence.
    + right; split; [|congruence]. intros v [X|X]; [now apply (N' v)|now apply (N v)].
Qed.
Lemma writes_iff {A} (d d' : list A) (W W' : Z -> A -> Prop) :
  (forall j v, W j v <-> W' j v) -> writes d W d' -> writes d W' d'.
Proof.
  intros E [L H]; split; auto. intros j. destruct (H j) as [(v & Hv & Z)|(N & Z)].
  - left; exists v; split; auto; now apply E.
  - right; split; auto. intros v X. apply (N v). now apply E.
Qed.
Lemma writes_single {A} (d d' : list A) i a :
  bset d i a = Ok d' -> writes d (fun j v => j = i /\ v = a) d'.
Proof.
  intros H. apply bset_Ok in H as (R & L & H). split; auto. intros j.
  rewrite H. destruct (Z.eqb_spec j i) as [->|N].
  - left; eauto.
  - right; split; auto. intros v [? ?]; auto.
Qed.
Lemma for_range_writes {A} (n : Z) (W : Z -> Z -> A -> Prop) lo hi (body : Z -> list A -> outcome (list A)) d :
  zlen d = n ->
  (forall i d, lo <= i < hi -> zlen d = n -> exists d', body i d = Ok d' /\ writes d (W i) d') ->
  exists d', for_range lo hi body d = Ok d' /\
             writes d (fun j v => exists i, lo <= i < hi /\ W i j v) d'.
Proof.
  intros Hn Hb. destruct (Z.leb_spec lo hi).
  2:{ exists d. rewrite for_range_nil by lia. split; auto. apply writes_none. intros j v (i & Hi & _); lia. }
  destruct (for_range_inv
    (fun i d' => zlen d' = n /\ writes d (fun j v => exists k, lo <= k < i /\ W k j v) d')
    lo hi body d) as (d' & E & _ & Hw); auto.
  - split; auto. apply writes_none. intros j v (i & Hi & _); lia.
  - intros i s Hi (Ls & Hw). destruct (Hb i s Hi Ls) as (s' & E & Hw').
    exists s'. split; auto. split; [destruct Hw'; lia|].
    eapply writes_iff; [|eapply writes_compose; [exact Hw|exact Hw']].
    intros j v; split.
    + intros [(k & Hk & X)|X]; [exists k|exists i]; split; auto; lia.
    + intros (k & Hk & X). destruct (Z.eq_dec k i) as [->|]; auto. left; exists k; split; auto; lia.
  - eauto.
Qed.

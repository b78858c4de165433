(** Lemmas about growable arrays on a heap. *)
From Verif Require Import Base BaseFacts M_Heap L_Heap M_GrowArray S_GrowArray L_GrowArray M_GrowHeap S_GrowHeap.

(** ** Counting *)
Lemma existing_app {B} (l k : list (option B)) : existing (l ++ k) = (existing l + existing k)%nat.
Proof. unfold existing. now rewrite filter_app, app_length. Qed.
Lemma existing_upd_some {B} (l : list (option B)) n a b : nth_error l n = Some (Some a) -> existing (upd l n (Some b)) = existing l.
Proof.
  unfold existing. revert n. induction l as [|x l IH]; intros [|n] H; cbn in *; try discriminate.
  - injection H as ->. reflexivity.
  - destruct x; cbn; rewrite IH; auto.
Qed.
Lemma existing_upd_none {B} (l : list (option B)) n a : nth_error l n = Some (Some a) -> existing l = S (existing (upd l n None)).
Proof.
  unfold existing. revert n. induction l as [|x l IH]; intros [|n] H; cbn in *; try discriminate.
  - injection H as ->. reflexivity.
  - destruct x; cbn; rewrite <- (IH _ H); auto.
Qed.

Section G.
Context {A : Type} (m : memtype A).
Hypothesis Hsize : 1 <= mt_size m.
Hypothesis Hzero : mt_set m (mt_zero m) = mt_zero m.
Implicit Type W : gworld A.
Implicit Type V : seqs A.

(** Every object has its own memory and its fields fit it. *)
Definition ginv W : Prop :=
  (forall i o, nth_error (gw_objs W) i = Some (Some o) -> exists d, nth_error (gw_heap W) (go_block o) = Some (Some d) /\
     ga_inv (mkGA d (go_size o) (go_len o) (go_default o) (go_own o))) /\
  (forall i j o p, nth_error (gw_objs W) i = Some (Some o) -> nth_error (gw_objs W) j = Some (Some p) -> go_block o = go_block p -> i = j) /\
  existing (gw_heap W) = existing (gw_objs W).

Lemma forall2_nth {B C} (P : B -> C -> Prop) l k : Forall2 P l k <-> length l = length k /\
  forall i b c, nth_error l i = Some b -> nth_error k i = Some c -> P b c.
Proof.
  split.
  - induction 1 as [|b c l k H F [IL IH]]; [split; auto; intros [|] ? ? E; discriminate|]. split; [cbn; lia|].
    intros [|i] b' c' E1 E2; cbn in *; [injection E1 as <-; injection E2 as <-; auto|eauto].
  - revert k. induction l as [|b l IH]; intros [|c k] [L H]; cbn in L; try lia; constructor.
    + apply (H 0%nat); reflexivity.
    + apply IH. split; [lia|]. intros i. apply (H (S i)).
Qed.

Lemma shows_length W V : shows_seqs W V -> length (gw_objs W) = length V.
Proof. intros S. now apply forall2_nth in S. Qed.
Lemma shows_at W V i s : shows_seqs W V -> nth_error V i = Some (Some s) ->
  exists o, nth_error (gw_objs W) i = Some (Some o) /\ gview (gw_heap W) o = Some s.
Proof.
  intros S E. apply forall2_nth in S as [L S]. destruct (nth_error (gw_objs W) i) as [b|] eqn:F.
  - specialize (S i b _ F E). destruct b as [o|]; [eauto|easy].
  - apply nth_error_None in F. apply nth_some_lt in E. lia.
Qed.

Lemma exists_shows W V i : shows_seqs W V -> gexists (gw_objs W) i -> gexists V i.
Proof.
  intros S (o & E). apply forall2_nth in S as [L S]. destruct (nth_error V i) as [c|] eqn:F.
  - specialize (S i _ c E F). destruct c as [s|]; [|easy]. exists s. exact F.
  - apply nth_error_None in F. apply nth_some_lt in E. lia.
Qed.
Lemma allowed_shows W V (c : gcmd A) : shows_seqs W V -> gallowed (gw_objs W) c -> gallowed V c.
Proof. intros S. pose proof (fun i => exists_shows W V i S) as X. destruct c; cbn; intuition auto. Qed.

(** The heap after [old] has been replaced by a new block, or overwritten. *)
Lemma gh_call_ok W V i o n f g' : ginv W -> shows_seqs W V -> nth_error (gw_objs W) i = Some (Some o) ->
  forall d, nth_error (gw_heap W) (go_block o) = Some (Some d) ->
  f (mkGA d (go_size o) (go_len o) (go_default o) (go_own o)) = Ok g' -> ga_inv g' ->
  exists W', gcall W i n f = Ok W' /\ ginv W' /\ shows_seqs W' (upd V i (Some (ga_seq g'))).
Proof.
  intros (I1 & I2 & I3) S Eo d Ed Ef Ig. unfold gcall, gobject. rewrite Eo. cbn [bind]. unfold gh_call, gload. rewrite Ed. cbn [bind]. rewrite Ef. cbn [bind].
  pose proof (nth_some_lt _ _ _ Ed) as Lb. pose proof (nth_some_lt _ _ _ Eo) as Li.
  pose proof (shows_length _ _ S) as LV. apply forall2_nth in S as [_ S].
  destruct (go_own o && (go_len o <? n)) eqn:C.
  - assert (F : hfree (gw_heap W) (go_block o) = Ok (upd (gw_heap W) (go_block o) None)) by (apply hfree_Ok; split; auto; eexists; eauto).
    rewrite F. cbn [bind]. unfold gh_create, halloc. cbn [bind]. eexists. split; [reflexivity|]. rewrite upd_length.
    set (o' := mkGobj (length (gw_heap W)) (ga_size g') (ga_len g') (ga_default g') (ga_own g')).
    assert (New : nth_error (upd (gw_heap W) (go_block o) None ++ [Some (ga_data g')]) (length (gw_heap W)) = Some (Some (ga_data g'))).
    { rewrite nth_error_app2; rewrite upd_length; [|lia]. now rewrite Nat.sub_diag. }
    assert (Old : forall b d', b <> go_block o -> nth_error (gw_heap W) b = Some (Some d') ->
       nth_error (upd (gw_heap W) (go_block o) None ++ [Some (ga_data g')]) b = Some (Some d')).
    { intros b d' N E. rewrite nth_error_app1; [|rewrite upd_length; now apply nth_some_lt in E]. now rewrite upd_other by auto. }
    split; [split; [|split]|].
    + intros k p E. cbn [gw_objs gw_heap] in *. rewrite upd_nth in E. destruct (Nat.eqb_spec i k) as [->|N].
      * replace (k <? length (gw_objs W))%nat with true in E by (symmetry; now apply Nat.ltb_lt). injection E as <-. exists (ga_data g'). split; [exact New|]. destruct g'; exact Ig.
      * destruct (I1 k p E) as (d' & E' & J). exists d'. split; auto. apply Old; auto. intros B. apply N. symmetry. eapply I2; eauto.
    + intros k l p q E1 E2 B. cbn [gw_objs] in *.
      assert (X : forall k p, nth_error (upd (gw_objs W) i (Some o')) k = Some (Some p) -> (k = i /\ p = o') \/ nth_error (gw_objs W) k = Some (Some p)).
      { intros k0 p0 E. rewrite upd_nth in E. destruct (Nat.eqb_spec i k0) as [->|N]; [|auto].
        replace (k0 <? length (gw_objs W))%nat with true in E by (symmetry; now apply Nat.ltb_lt). injection E as <-. auto. }
      destruct (X _ _ E1) as [[-> ->]|F1], (X _ _ E2) as [[-> ->]|F2]; auto.
      * destruct (I1 _ _ F2) as (d' & E' & _). apply nth_some_lt in E'. cbn in B. lia.
      * destruct (I1 _ _ F1) as (d' & E' & _). apply nth_some_lt in E'. cbn in B. lia.
      * eapply I2; eauto.
    + cbn [gw_objs gw_heap]. rewrite existing_app, (existing_upd_some _ _ _ _ Eo), <- I3, (existing_upd_none _ _ _ Ed). unfold existing at 2. cbn. lia.
    + apply forall2_nth. cbn [gw_objs gw_heap]. rewrite !upd_length. split; auto. intros k b c E1 E2. rewrite upd_nth in E1. rewrite (upd_nth V) in E2.
      destruct (Nat.eqb_spec i k) as [->|N].
      * replace (k <? length (gw_objs W))%nat with true in E1 by (symmetry; now apply Nat.ltb_lt).
        replace (k <? length V)%nat with true in E2 by (symmetry; apply Nat.ltb_lt; lia).
        injection E1 as <-. injection E2 as <-. unfold gview. cbn [go_block o']. now rewrite New.
      * specialize (S k b c E1 E2). destruct b as [p|], c as [s|]; auto. unfold gview in *.
        destruct (I1 k p E1) as (d' & E' & _). rewrite (Old _ d'); auto; [now rewrite E' in S|]. intros B. apply N. symmetry. eapply I2; eauto.
  - eexists. split; [reflexivity|].
    set (o' := mkGobj (go_block o) (ga_size g') (ga_len g') (ga_default g') (ga_own g')).
    split; [split; [|split]|].
    + intros k p E. cbn [gw_objs gw_heap] in *. rewrite upd_nth in E. destruct (Nat.eqb_spec i k) as [->|N].
      * replace (k <? length (gw_objs W))%nat with true in E by (symmetry; now apply Nat.ltb_lt). injection E as <-. exists (ga_data g'). cbn [o' go_block].
        rewrite upd_same by auto. split; auto.
      * destruct (I1 k p E) as (d' & E' & J). exists d'. split; auto. rewrite upd_other; auto. intros B. apply N. eapply I2; eauto.
    + intros k l p q E1 E2 B. cbn [gw_objs] in *.
      assert (X : forall k p, nth_error (upd (gw_objs W) i (Some o')) k = Some (Some p) -> exists p0, nth_error (gw_objs W) k = Some (Some p0) /\ go_block p0 = go_block p).
      { intros k0 p0 E. rewrite upd_nth in E. destruct (Nat.eqb_spec i k0) as [->|N]; [|eauto].
        replace (k0 <? length (gw_objs W))%nat with true in E by (symmetry; now apply Nat.ltb_lt). injection E as <-. eauto. }
      destruct (X _ _ E1) as (p0 & F1 & B1). destruct (X _ _ E2) as (q0 & F2 & B2). eapply I2; eauto. congruence.
    + cbn [gw_objs gw_heap]. now rewrite (existing_upd_some _ _ _ _ Eo), (existing_upd_some _ _ _ _ Ed).
    + apply forall2_nth. cbn [gw_objs gw_heap]. rewrite !upd_length. split; auto. intros k b c E1 E2. rewrite upd_nth in E1. rewrite (upd_nth V) in E2.
      destruct (Nat.eqb_spec i k) as [->|N].
      * replace (k <? length (gw_objs W))%nat with true in E1 by (symmetry; now apply Nat.ltb_lt).
        replace (k <? length V)%nat with true in E2 by (symmetry; apply Nat.ltb_lt; lia).
        injection E1 as <-. injection E2 as <-. unfold gview. cbn [go_block o']. now rewrite upd_same by auto.
      * specialize (S k b c E1 E2). destruct b as [p|], c as [s|]; auto. unfold gview in *.
        rewrite upd_other; auto. intros B. apply N. eapply I2; eauto.
Qed.

Lemma gcreate_ok W V g : ginv W -> shows_seqs W V -> ga_inv g ->
  exists W', gcreate W g = Ok W' /\ ginv W' /\ shows_seqs W' (V ++ [Some (ga_seq g)]).
Proof.
  intros (I1 & I2 & I3) S Ig. unfold gcreate, gh_create, halloc. eexists. split; [reflexivity|].
  set (o' := mkGobj (length (gw_heap W)) (ga_size g) (ga_len g) (ga_default g) (ga_own g)).
  assert (New : nth_error (gw_heap W ++ [Some (ga_data g)]) (length (gw_heap W)) = Some (Some (ga_data g))).
  { rewrite nth_error_app2; [|lia]. now rewrite Nat.sub_diag. }
  assert (Old : forall b d', nth_error (gw_heap W) b = Some (Some d') -> nth_error (gw_heap W ++ [Some (ga_data g)]) b = Some (Some d')).
  { intros b d' E. rewrite nth_error_app1; auto. now apply nth_some_lt in E. }
  assert (Obj : forall k p, nth_error (gw_objs W ++ [Some o']) k = Some (Some p) ->
     nth_error (gw_objs W) k = Some (Some p) \/ k = length (gw_objs W) /\ p = o').
  { intros k p E. destruct (Nat.ltb_spec k (length (gw_objs W))) as [L|L].
    - rewrite nth_error_app1 in E by auto. auto.
    - rewrite nth_error_app2 in E by auto. right. destruct (k - length (gw_objs W))%nat as [|r] eqn:R; [|destruct r; discriminate].
      injection E as <-. split; auto. lia. }
  split; [split; [|split]|].
  - intros k p E. cbn [gw_objs gw_heap] in *. destruct (Obj k p E) as [E'|[-> ->]].
    + destruct (I1 k p E') as (d' & F & J). eauto.
    + exists (ga_data g). split; [exact New|]. destruct g; exact Ig.
  - intros k l p q E1 E2 B. cbn [gw_objs] in *. destruct (Obj _ _ E1) as [F1|[-> ->]], (Obj _ _ E2) as [F2|[-> ->]]; auto.
    + eapply I2; eauto.
    + destruct (I1 _ _ F1) as (d' & F & _). apply nth_some_lt in F. cbn in B. lia.
    + destruct (I1 _ _ F2) as (d' & F & _). apply nth_some_lt in F. cbn in B. lia.
  - cbn [gw_objs gw_heap]. rewrite !existing_app, I3. reflexivity.
  - unfold shows_seqs in *. cbn [gw_objs gw_heap]. apply Forall2_app.
    + apply forall2_nth in S as [L S]. apply forall2_nth. split; auto. intros k b c E1 E2. specialize (S k b c E1 E2).
      destruct b as [p|], c as [s|]; auto. unfold gview in *. destruct (I1 k p E1) as (d' & F & _). rewrite (Old _ _ F). now rewrite F in S.
    + constructor; [|constructor]. unfold gview. cbn [o' go_block]. now rewrite New.
Qed.

Lemma shows_unique W V V' : shows_seqs W V -> shows_seqs W V' -> V = V'.
Proof.
  unfold shows_seqs. generalize (gw_objs W) as l. intros l S. revert V'. induction S as [|b c l k H F IH]; intros V' S'; inversion S'; subst; auto.
  f_equal; auto. destruct b as [o|], c as [s|], y as [s'|]; try easy. congruence.
Qed.

Lemma upd_upd {B} (l : list B) i a : nth_error l i = Some a -> upd l i a = l.
Proof. revert i. induction l; intros [|i] H; cbn in *; try discriminate; [now injection H as ->|]. now rewrite IHl. Qed.

Lemma call_step W V i s n f op : ginv W -> shows_seqs W V -> nth_error V i = Some (Some s) -> ga_op_ok op ->
  (forall g, f g = ga_exec m g op) ->
  (seq_throws s op /\ gcall W i n f = Throw) \/
  (~ seq_throws s op /\ exists s' W', seq_step s op s' /\ gcall W i n f = Ok W' /\ ginv W' /\ shows_seqs W' (upd V i (Some s'))).
Proof.
  intros I S E Ho Ef. destruct (shows_at _ _ _ _ S E) as (o & Eo & Ev). destruct (proj1 I i o Eo) as (d & Ed & Ig).
  unfold gview in Ev. rewrite Ed in Ev. injection Ev as Es.
  set (g := mkGA d (go_size o) (go_len o) (go_default o) (go_own o)) in *.
  assert (Es' : ga_seq g = s) by exact Es.
  destruct (ga_exec_ok m Hsize g op Ig Ho) as [(T & X)|(T & g' & X & Ig' & St)]; rewrite Es' in *.
  - left. split; auto. unfold gcall, gobject. rewrite Eo. cbn [bind]. unfold gh_call, gload. rewrite Ed. cbn [bind]. fold g. rewrite Ef, X. reflexivity.
  - right. split; auto. destruct (gh_call_ok W V i o n f g' I S Eo d Ed) as (W' & R & I' & S'); auto; [fold g; now rewrite Ef|].
    exists (ga_seq g'), W'. auto.
Qed.

Lemma ga_new_seq n : 0 <= n -> ga_seq (ga_new m n) = repeat (Some (mt_zero m)) (Z.to_nat n).
Proof. intros H. unfold ga_seq, ga_new. cbn. rewrite Hzero. rewrite <- (repeat_length (Some (mt_zero m)) (Z.to_nat n)) at 1. apply firstn_all. Qed.

Lemma step_ok W V c : ginv W -> shows_seqs W V -> gallowed V c ->
  (gthrows V c /\ gstep m W c = Throw) \/
  (~ gthrows V c /\ exists V' W', gstep m W c = Ok W' /\ gvalue (mt_zero m) V c V' /\ ginv W' /\ shows_seqs W' V').
Proof.
  intros I S Al.
  assert (Call : forall i n f op, gexists V i -> ga_op_ok op -> (forall g, f g = ga_exec m g op) -> (forall s, ~ seq_throws s op) ->
     exists V' W', gcall W i n f = Ok W' /\ changes V i op V' /\ ginv W' /\ shows_seqs W' V').
  { intros i n f op (s & E) Ho Ef T. destruct (call_step W V i s n f op I S E Ho Ef) as [(X & _)|(_ & s' & W' & St & R & I' & S')]; [now apply T in X|].
    exists (upd V i (Some s')), W'. split; auto. split; auto. exists s, s'. auto. }
  destruct c; cbn [gallowed gthrows gstep gvalue] in *.
  - right; split; auto. destruct (gcreate_ok W V (ga_new m n) I S (ga_new_inv m n Al)) as (W' & R & I' & S').
    rewrite ga_new_seq in S' by lia. eauto 8.
  - right; split; auto. destruct (gcreate_ok W V (ga_new_default m) I S (ga_new_inv m 10 ltac:(lia))) as (W' & R & I' & S').
    unfold ga_new_default in S'. rewrite ga_new_seq in S' by lia. eauto 8.
  - right; split; auto. destruct (gcreate_ok W V (ga_of_list m l) I S (ga_of_list_inv m l Al)) as (W' & R & I' & S').
    assert (E : ga_seq (ga_of_list m l) = map Some l).
    { unfold ga_seq, ga_of_list. cbn. pose proof (zlen_nonneg l). rewrite u32_id by lia. apply firstn_map_all. }
    rewrite E in S'. eauto 8.
  - right; split; auto. destruct Al. destruct (Call i n (fun g => ga_grow m g n) (Op_grow n)) as (V' & W' & X); cbn; auto; exists V', W'; tauto.
  - right; split; auto. destruct Al. destruct (Call i n (fun g => ga_resize m g n) (Op_resize n)) as (V' & W' & X); cbn; auto; exists V', W'; tauto.
  - right; split; auto. destruct (Call i 0 (fun g => ga_fill m g v) (Op_fill v)) as (V' & W' & X); cbn; auto; exists V', W'; tauto.
  - destruct Al as [(s & E) Hk]. destruct (call_step W V i s 0 (fun g => ga_at_set g k v) (Op_put k v) I S E Hk) as [(T & R)|(T & s' & W' & St & R & I' & S')]; auto.
    + left. split; auto. exists s. auto.
    + right. split. { intros (s0 & E0 & L). rewrite E in E0. injection E0 as <-. auto. }
      exists (upd V i (Some s')), W'. split; auto. split; auto. exists s, s'. auto.
  - right; split; auto. destruct Al as (s & E).
    destruct (call_step W V i s 0 (fun g => Ok (ga_set_default g v)) (Op_default v) I S E) as [(T & R)|(T & s' & W' & St & R & I' & S')]; cbn; auto.
    + easy.
    + exists V, W'. split; auto. split; auto. split; auto. cbn in St. subst s'. now rewrite upd_upd in S'.
  - right; split; auto. destruct Al as [(s & E) (s' & E')].
    destruct (shows_at _ _ _ _ S E) as (o & Eo & Ev). destruct (shows_at _ _ _ _ S E') as (p & Ep & Ev').
    unfold gobject. rewrite Eo, Ep. cbn [bind]. destruct (Nat.eqb_spec i j) as [->|N].
    + exists V, W. split; auto. split; [|auto]. exists s'. split; auto. now rewrite upd_upd.
    + destruct (proj1 I j p Ep) as (d & Ed & Ig). unfold gh_assign, gload at 1. rewrite Ed. cbn [bind].
      replace (Nat.eqb (go_block o) (go_block p)) with false by (symmetry; apply Nat.eqb_neq; intros B; apply N; eapply (proj1 (proj2 I)); eauto).
      cbn [andb]. set (src := mkGA d (go_size p) (go_len p) (go_default p) (go_own p)) in *.
      destruct (Call i (go_size p) (fun g => ga_assign m g src) (Op_assign src)) as (V' & W' & R & (t & t' & Et & St & EV) & I' & S'); auto.
      * exists s. auto.
      * destruct Ig as (_ & G1 & G2 & G3). cbn in *. lia.
      * unfold gcall, gobject in R. rewrite Eo in R. cbn [bind] in R. exists V', W'. split; auto. split; auto. exists s'. split; auto.
        rewrite EV. cbn in St. subst t'. do 2 f_equal. unfold gview in Ev'. rewrite Ed in Ev'. injection Ev' as <-. reflexivity.
  - right; split; auto. destruct Al. pose proof (zlen_nonneg l). destruct (Call i (u32 (zlen l)) (fun g => ga_setTo m g l) (Op_setTo l)) as (V' & W' & X); cbn; auto; exists V', W'; tauto.
  - right; split; auto. destruct Al. destruct (Call i (zlen l) (fun g => ga_set m g (map Some l) (zlen l)) (Op_set l)) as (V' & W' & X); cbn; auto; exists V', W'; tauto.
  - easy.
  - right; split; auto. destruct Al as (s & E). destruct (shows_at _ _ _ _ S E) as (o & Eo & Ev). destruct I as (I1 & I2 & I3).
    destruct (I1 i o Eo) as (d & Ed & Ig). unfold gobject. rewrite Eo. cbn [bind]. unfold gh_destroy. replace (go_own o) with true by (symmetry; apply Ig).
    assert (F : hfree (gw_heap W) (go_block o) = Ok (upd (gw_heap W) (go_block o) None)) by (apply hfree_Ok; split; auto; eexists; eauto).
    rewrite F. cbn [bind]. exists (upd V i None). eexists. split; [reflexivity|]. split; auto.
    pose proof (nth_some_lt _ _ _ Eo) as Li. pose proof (shows_length _ _ S) as LV.
    assert (X : forall k p, nth_error (upd (gw_objs W) i None) k = Some (Some p) -> k <> i /\ nth_error (gw_objs W) k = Some (Some p)).
    { intros k p E0. rewrite upd_nth in E0. destruct (Nat.eqb_spec i k) as [->|N]; [|auto].
      destruct (_ <? _)%nat; discriminate. }
    split; [split; [|split]|].
    + intros k p E0. cbn [gw_objs gw_heap] in *. apply X in E0 as [N E0]. destruct (I1 k p E0) as (d' & F' & J). exists d'. split; auto.
      rewrite upd_other; auto. intros B. apply N. symmetry. eapply I2; eauto.
    + intros k l p q E1 E2 B. cbn [gw_objs] in *. apply X in E1 as [_ E1]. apply X in E2 as [_ E2]. eapply I2; eauto.
    + cbn [gw_objs gw_heap]. pose proof (existing_upd_none _ _ _ Eo). pose proof (existing_upd_none _ _ _ Ed). lia.
    + apply forall2_nth in S as [_ S]. apply forall2_nth. cbn [gw_objs gw_heap]. rewrite !upd_length. split; auto. intros k b c E1 E2.
      rewrite upd_nth in E1. rewrite (upd_nth V) in E2. destruct (Nat.eqb_spec i k) as [->|N].
      * replace (k <? length (gw_objs W))%nat with true in E1 by (symmetry; now apply Nat.ltb_lt).
        replace (k <? length V)%nat with true in E2 by (symmetry; apply Nat.ltb_lt; lia). injection E1 as <-. injection E2 as <-. exact Logic.I.
      * specialize (S k b c E1 E2). destruct b as [p|], c as [s0|]; auto. unfold gview in *. rewrite upd_other; auto. intros B. apply N. eapply I2; eauto.
Qed.

Lemma run_ok cs : forall W V cs0, ginv W -> shows_seqs W V -> gcourse (mt_zero m) cs0 V -> gdisciplined m W cs ->
  exists W' V', grun m W cs = Ok W' /\ ginv W' /\ shows_seqs W' V' /\ gcourse (mt_zero m) (cs0 ++ cs) V'.
Proof.
  induction cs as [|c cs IH]; intros W V cs0 I S C D; cbn [grun].
  - exists W, V. rewrite app_nil_r. auto.
  - cbn [gdisciplined] in D. destruct D as [Al D]. apply (allowed_shows W V c S) in Al.
    replace (cs0 ++ c :: cs) with ((cs0 ++ [c]) ++ cs) by now rewrite <- app_assoc.
    destruct (step_ok W V c I S Al) as [(T & R)|(T & V' & W' & R & G & I' & S')]; rewrite R in *.
    + apply (IH W V); auto. apply gcourse_throw; auto.
    + apply (IH W' V'); auto. eapply gcourse_step; eauto.
Qed.

Lemma read_ok W V i s k : ginv W -> shows_seqs W V -> nth_error V i = Some (Some s) -> 0 <= k ->
  (gread W i k = Throw <-> zlen s <= k) /\ forall v, gread W i k = Ok v <-> znth s k = Some (Some v).
Proof.
  intros I S E Hk. destruct (shows_at _ _ _ _ S E) as (o & Eo & Ev). destruct (proj1 I i o Eo) as (d & Ed & Ig).
  unfold gview in Ev. rewrite Ed in Ev. injection Ev as Es. unfold gread, gobject. rewrite Eo. cbn [bind]. unfold gload. rewrite Ed. cbn [bind].
  set (g := mkGA d (go_size o) (go_len o) (go_default o) (go_own o)) in *. assert (Es' : ga_seq g = s) by exact Es.
  pose proof (ga_seq_zlen g Ig) as L. rewrite Es' in L. destruct (ga_at_ok g k Ig Hk) as [X Y]. rewrite Es' in Y.
  destruct (Z.leb_spec (ga_size g) k) as [K|K].
  - rewrite (X K). split; [split; intros; auto; lia|]. intros v. split; [discriminate|]. intros Z. apply znth_Some_range in Z. lia.
  - destruct (Y K) as (c & Z & _ & R). rewrite R, Z. split.
    + split; [destruct c; discriminate|lia].
    + intros v. destruct c; split; intros H; try discriminate; congruence.
Qed.

Lemma arrays_are_values cs : gdisciplined m (mkGworld [] []) cs ->
  exists W V, grun m (mkGworld [] []) cs = Ok W /\ shows_seqs W V /\ gcourse (mt_zero m) cs V /\
    existing (gw_heap W) = existing (gw_objs W) /\
    (forall i s k, nth_error V i = Some (Some s) -> 0 <= k ->
       (gread W i k = Throw <-> zlen s <= k) /\ forall v, gread W i k = Ok v <-> znth s k = Some (Some v)) /\
    forall c, gallowed V c -> (gstep m W c = Throw <-> gthrows V c) /\ gstep m W c <> Undef.
Proof.
  intros D. destruct (run_ok cs (mkGworld [] []) [] []) as (W & V & R & I & S & C); auto.
  - split; [|split]; [intros [|] ? E; discriminate|intros [|] ? ? ? E; discriminate|reflexivity].
  - constructor.
  - constructor.
  - exists W, V. split; auto. split; auto. split; auto. split; [apply I|]. split.
    + intros. now apply (read_ok W V).
    + intros c Al. destruct (step_ok W V c I S Al) as [(T & E)|(T & V' & W' & E & _)]; rewrite E; split; try discriminate; split; auto; try easy.
Qed.
End G.

(** ** Concrete runs *)
Lemma array_copy : exists cs : list (gcmd Z),
  cs = [GList [1; 2; 3]; GCopyCtor 0; GDestroy 1; GDestroy 0] /\ grun (int_mem S32) (mkGworld [] []) cs = Undef.
Proof. eexists. split; [reflexivity|]. vm_compute. reflexivity. Qed.
Lemma array_stale_copy : exists (cs : list (gcmd Z)) W,
  cs = [GList [1; 2; 3]; GCopyCtor 0; GResize 0 4] /\ grun (int_mem S32) (mkGworld [] []) cs = Ok W /\ gread W 1 0 = Undef.
Proof. eexists _, _. split; [reflexivity|]. split; vm_compute; reflexivity. Qed.
Lemma gdisciplined_next {A} (m : memtype A) W c W' cs : gallowed (gw_objs W) c -> gstep m W c = Ok W' -> gdisciplined m W' cs -> gdisciplined m W (c :: cs).
Proof. intros Al E D. cbn [gdisciplined]. rewrite E. auto. Qed.
Lemma gdisciplined_throw {A} (m : memtype A) W c cs : gallowed (gw_objs W) c -> gstep m W c = Throw -> gdisciplined m W cs -> gdisciplined m W (c :: cs).
Proof. intros Al E D. cbn [gdisciplined]. rewrite E. auto. Qed.
Lemma array_assign_copy : exists cs : list (gcmd Z),
  cs = [GList [1; 2; 3]; GCopyCtor 0; GAssign 1 0] /\ grun (int_mem S32) (mkGworld [] []) cs = Undef.
Proof. eexists. split; [reflexivity|]. vm_compute. reflexivity. Qed.

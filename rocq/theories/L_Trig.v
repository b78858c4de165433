(** Where contours start: first pixels of components and pixels above first pixels of background components. *)
From Verif Require Import Base BaseFacts M_Contour S_Contour L_Crack L_Cycle L_Step L_Trace.
From Coq Require Import Lia.

Section Trig.
Variable r : crule.
Variable B : Z -> Z -> bool.
Notation isB := (isB B). Notation isW := (isW B). Notation next := (next r B). Notation valid := (valid r B).
Notation is_crack := (is_crack B). Notation corner := (corner B). Notation period := (period r B).
Notation orbit := (orbit r B). Notation iter := (iter r B). Notation wpt := (wpt B). Notation sides := (sides r B).
Notation leaves := (leaves r B). Notation cpoints := (cpoints r B).

Variables w h : Z.
Hypothesis HB : forall x y, B x y = true -> 1 <= x <= w /\ 1 <= y <= h.

Lemma period_unique n m c : period n c -> period m c -> n = m.
Proof.
  intros (P1 & E1 & M1) (P2 & E2 & M2). destruct (Nat.lt_trichotomy n m) as [L|[->|L]]; auto; exfalso.
  - apply (M2 n); auto.
  - apply (M1 m); auto.
Qed.

Lemma orbit_swap n c t : valid c = true -> period n c -> In t (orbit n c) ->
  period n t /\ forall a, In a (orbit n t) <-> In a (orbit n c).
Proof.
  intros V P I. apply in_orbit in I as (i & Hi & ->). pose proof P as (P0 & E & M).
  assert (period n (iter i c)) as Pt.
  { split; auto. split.
    - rewrite <- iter_add, Nat.add_comm, iter_add, E. auto.
    - intros m Hm X. rewrite <- iter_add, Nat.add_comm in X. apply iter_cancel in X; auto. now apply (M m). }
  split; auto. intros a. split; intros Ha.
  - apply in_orbit in Ha as (k & Hk & ->). rewrite <- iter_add. now apply orbit_iter.
  - apply in_orbit in Ha as (k & Hk & ->).
    assert (iter k c = iter (k + (n - i)) (iter i c)) as ->.
    { rewrite <- iter_add. replace (k + (n - i) + i)%nat with (k + n)%nat by lia. now rewrite iter_add, E. }
    now apply orbit_iter.
Qed.

Lemma cpoints_in n c q : valid c = true -> period n c -> (In q (cpoints n c) <-> exists a, In a (orbit n c) /\ cpix a = q).
Proof.
  intros V P. unfold L_Trace.cpoints. destruct (filter leaves (orbit n c)) as [|c1 l] eqn:E.
  - assert (forall i, leaves (iter i c) = false) as N.
    { intros i. destruct (leaves (iter i c)) eqn:L; auto. exfalso. assert (In (iter i c) []) as [].
      rewrite <- E. apply filter_In. split; auto. now apply orbit_iter. }
    split.
    + intros [<-|[]]. exists c. split; auto. now apply orbit_self.
    + intros (a & Ha & <-). apply in_orbit in Ha as (i & Hi & ->). left. symmetry. now apply (no_leaves_pix r B w h HB).
  - assert (exists k, leaves (iter k c) = true) as (k & Hk).
    { assert (In c1 (filter leaves (orbit n c))) as I by (rewrite E; now left). apply filter_In in I as [I Lv].
      apply in_orbit in I as (k & _ & ->). eauto. }
    rewrite <- E. rewrite in_map_iff. split.
    + intros (a & <- & Ha). apply filter_In in Ha as [Ha _]. eauto.
    + intros (a & Ha & <-). destruct (orbit_swap n c a V P Ha) as [Pa Sa].
      assert (exists m, leaves (iter m a) = true) as (m & Hm).
      { assert (In (iter k c) (orbit n a)) as I by (apply Sa; now apply orbit_iter). apply in_orbit in I as (m & _ & Em). exists m. congruence. }
      destruct (least_nat B w h HB (fun m => leaves (iter m a) = true)) with (n := m) as (j & Hj & _ & Mj); auto.
      { intros i. destruct (leaves (iter i a)); [left; auto|right; discriminate]. }
      exists (iter j a). split.
      * apply (no_leaves_pix r B w h HB). intros i Hi. apply Mj in Hi. now destruct (leaves (iter i a)).
      * apply filter_In. split; auto. apply Sa. now apply orbit_iter.
Qed.
Lemma cpoints_len n c : (0 < n)%nat -> (length (cpoints n c) <= n)%nat.
Proof.
  intros Hn. assert (forall l, (length (filter leaves l) <= length l)%nat) as G.
  { induction l as [|a l IH]; cbn; auto. destruct (leaves a); cbn; lia. }
  specialize (G (orbit n c)). unfold L_Crack.orbit in G at 2. rewrite map_length, seq_length in G.
  unfold L_Trace.cpoints. destruct (filter leaves (orbit n c)); cbn [length map] in *; rewrite ?map_length; lia.
Qed.

(** ** Triggers *)
Definition trig (c : crack) : Prop :=
  match c with
  | Ck x y U => first_of (adj r) isB (x, y)
  | Ck x y D => isB (x, y) /\ first_of (adj_bg r) isW (x, y + 1)
  | _ => False
  end.
Definition isU (c : crack) : bool := match c with Ck _ _ U => true | _ => false end.

Lemma adj4_adj p q : adj4 p q -> adj r p q.
Proof. destruct r; auto; cbn [adj adj_bg]; unfold adj4, adj8; lia. Qed.
Lemma adj4_adj_bg p q : adj4 p q -> adj_bg r p q.
Proof. destruct r; auto; cbn [adj adj_bg]; unfold adj4, adj8; lia. Qed.

Lemma trig_black c : trig c -> isB (cpix c).
Proof. destruct c as [x y []]; cbn [trig cpix]; try tauto; intros H; apply H. Qed.
Lemma trig_crack c : trig c -> is_crack c = true.
Proof.
  intros T. apply crack_iff. split; [now apply trig_black|]. destruct c as [x y []]; cbn [trig cout] in *; try tauto.
  - apply T.
  - destruct T as [Bp F]. destruct (B_dec B (x, y - 1)) as [X|X]; auto. exfalso. apply (F (x, y - 1)).
    + apply conn_one; auto. apply adj4_adj. unfold adj4; cbn [fst snd]. lia.
    + left. cbn. lia.
Qed.
Lemma black_dims p : isB p -> 0 <= w /\ 0 <= h.
Proof. intros H. apply HB in H. lia. Qed.
Lemma period_ex c : valid c = true -> exists n, period n c /\ Z.of_nat n <= 4 * w * h.
Proof. intros V. pose proof (valid_B r B c V) as X. apply black_dims in X as [? ?]. now apply (period_exists r B w h HB). Qed.

(** A horizontal side lies on the walk from a trigger that is not further down. *)
Lemma reach_trig c a n : is_crack c = true -> period n c -> In a (orbit n c) -> is_crack a = true -> horiz a = true ->
  exists t, trig t /\ period n t /\ In c (orbit n t) /\ ~ before (hpos a) (hpos t).
Proof.
  intros Hc Pn Ia Ha Hh. pose proof (crack_valid r B c Hc) as Vc.
  destruct (top_exists r B n c a) as (t & Tt & Hb); auto. { apply in_sides; auto. }
  pose proof Tt as (It & Ht & _). apply in_sides in It as [It Ct].
  destruct (orbit_swap n c t Vc Pn It) as [Pt St]. exists t. split.
  - destruct t as [x y []]; try discriminate Ht; cbn [trig].
    + split; [now apply crack_iff in Ct|]. eapply (top_D r B n c); eauto.
    + eapply (top_U r B n c); eauto.
  - split; auto. split; auto. apply St. now apply orbit_self.
Qed.
Lemma reach_h c : is_crack c = true -> horiz c = true ->
  exists n t, trig t /\ period n t /\ In c (orbit n t) /\ ~ before (hpos c) (hpos t).
Proof.
  intros Hc Hh. destruct (period_ex c (crack_valid r B c Hc)) as (n & Pn & _). exists n.
  apply (reach_trig c c n); auto. now apply orbit_self.
Qed.

(** From a left side the walk goes up until a horizontal side. *)
Lemma up_horiz x k : forall y, y <= Z.of_nat k -> valid (Ck x y L) = true ->
  exists i, let a := iter i (Ck x y L) in is_crack a = true /\ horiz a = true /\
    ~ before (x, if is_crack (Ck x y L) then y else y + 1) (hpos a).
Proof.
  induction k as [|k IH]; intros y Hy V.
  { exfalso. apply (valid_B r) in V. apply HB in V. cbn in V. lia. }
  pose proof (valid_next r B _ V) as Vn. pose proof V as V0.
  unfold L_Crack.valid, L_Crack.next in V, Vn. revert V Vn IH V0.
  destruct (rule_cases r) as [-> | ->].
  - unfold L_Crack.is_crack at 1, L_Crack.corner at 1. cbn [cpix cout fst snd next4]. intros V Vn IH V0.
    destruct (B (x - 1) y) eqn:E1.
    + exists 1%nat. cbn [L_Crack.iter]. unfold L_Crack.next, next4. rewrite E1. cbv zeta.
      assert (B (x - 1) (y + 1) = false) as E2.
      { destruct (B x y), (B x (y + 1)), (B (x - 1) (y + 1)); cbn in V; congruence. }
      unfold L_Crack.is_crack; cbn [cpix cout fst snd]. rewrite E1, E2. rewrite andb_false_r. cbn. split; auto. split; auto.
      unfold before; cbn [fst snd]. lia.
    + assert (is_crack (Ck x y L) = true) as Cr.
      { unfold L_Crack.is_crack; cbn [cpix cout fst snd]. rewrite E1. destruct (B x y); cbn in V; auto. }
      rewrite Cr. destruct (B x (y - 1)) eqn:E2.
      * destruct (IH (y - 1) ltac:(lia)) as (i & I1 & I2 & I3).
        { unfold L_Crack.valid. exact Vn. }
        exists (S i). cbn [L_Crack.iter]. assert (L_Crack.next Four B (Ck x y L) = Ck x (y - 1) L) as ->.
        { unfold L_Crack.next, next4. now rewrite E1, E2. }
        cbv zeta. split; auto. split; auto. revert I3. destruct (is_crack (Ck x (y - 1) L)); unfold before; cbn [fst snd]; lia.
      * exists 1%nat. cbn [L_Crack.iter]. unfold L_Crack.next, next4. rewrite E1, E2. cbv zeta.
        unfold L_Crack.is_crack; cbn [cpix cout fst snd]. rewrite E2. unfold L_Crack.is_crack in Cr; cbn [cpix cout fst snd] in Cr.
        destruct (B x y); [|discriminate]. cbn. split; auto. split; auto. unfold before; cbn [fst snd]. lia.
  - cbn [next8]. intros V Vn IH V0. rewrite V. unfold L_Crack.is_crack in V; cbn [cpix cout fst snd] in V.
    apply andb_prop in V as [V1 V2]. apply negb_true_iff in V2. destruct (B (x - 1) (y - 1)) eqn:E1.
    + exists 1%nat. cbn [L_Crack.iter]. unfold L_Crack.next, next8. rewrite E1. cbv zeta. split; auto. split; auto.
      cbn [hpos]. unfold before; cbn [fst snd]. lia.
    + destruct (B x (y - 1)) eqn:E2.
      * destruct (IH (y - 1) ltac:(lia)) as (i & I1 & I2 & I3).
        { unfold L_Crack.valid. exact Vn. }
        exists (S i). cbn [L_Crack.iter]. assert (L_Crack.next Eight B (Ck x y L) = Ck x (y - 1) L) as ->.
        { unfold L_Crack.next, next8. now rewrite E1, E2. }
        cbv zeta. split; auto. split; auto. rewrite Vn in I3. revert I3. unfold before; cbn [fst snd]. lia.
      * exists 1%nat. cbn [L_Crack.iter]. unfold L_Crack.next, next8. rewrite E1, E2. cbv zeta. split; auto. split; auto.
        cbn [hpos]. unfold before; cbn [fst snd]. lia.
Qed.
Lemma reach_left x y : is_crack (Ck x y L) = true ->
  exists n t, trig t /\ period n t /\ In (Ck x y L) (orbit n t) /\ ~ before (x, y) (hpos t).
Proof.
  intros Hc. pose proof (crack_valid r B _ Hc) as Vc. pose proof (valid_B r B _ Vc) as Bp. apply HB in Bp. cbn in Bp.
  destruct (up_horiz x (Z.to_nat y) y ltac:(lia) Vc) as (i & I1 & I2 & I3). cbv zeta in *. rewrite Hc in I3.
  destruct (period_ex _ Vc) as (n & Pn & _).
  destruct (reach_trig (Ck x y L) (iter i (Ck x y L)) n Hc Pn (orbit_iter r B n _ i Pn) I1 I2) as (t & T1 & T2 & T3 & T4).
  exists n, t. repeat (split; auto). intros X. set (a := iter i (Ck x y L)) in *.
  destruct (before_total (hpos a) (x, y)) as [Y|[Y|Y]]; [|rewrite Y in T4; auto|auto].
  apply T4. eapply before_trans; eauto.
Qed.

(** Different triggers have disjoint walks. *)
Lemma trig_disjoint t t' n n' a : trig t -> trig t' -> period n t -> period n' t' ->
  In a (orbit n t) -> In a (orbit n' t') -> t = t'.
Proof.
  intros T T' P P' I I'. pose proof (trig_crack t T) as Ct. pose proof (trig_crack t' T') as Ct'.
  pose proof (crack_valid r B t Ct) as V. pose proof (crack_valid r B t' Ct') as V'.
  assert (In t' (orbit n t)) as It.
  { destruct (orbit_swap n t a V P I) as [Pa Sa]. destruct (orbit_swap n' t' a V' P' I') as [Pa' Sa'].
    assert (n' = n) as -> by (eapply period_unique; eauto). apply Sa, Sa'. now apply orbit_self. }
  pose proof (orbit_conn_B r B n t Ct t' It) as CB. pose proof (orbit_conn_W r B n t Ct t' It) as CW.
  rewrite wpt_crack in CW by auto.
  assert (forall x y x' y', trig (Ck x y U) -> trig (Ck x' y' D) -> conn (adj r) isB (x, y) (x', y') ->
     conn (adj_bg r) isW (x, y - 1) (x', y' + 1) -> False) as Cross.
  { intros x y x' y' TU TD C1 C2. cbn [trig] in TU, TD. destruct TU as [_ FU]. destruct TD as [_ [_ FD]].
    specialize (FU (x', y') C1). specialize (FD (x, y - 1) (conn_sym (adj_bg_sym r) C2)).
    unfold before in *. cbn [fst snd] in *. lia. }
  destruct t as [x y []], t' as [x' y' []]; cbn [trig] in T, T'; try tauto; cbn [cpix cout] in *.
  - assert ((x, y + 1) = (x', y' + 1)) as [= -> E]; [|f_equal; lia]. eapply (first_unique (adj_bg_sym r)); [apply T|apply T'|auto].
  - exfalso. apply (Cross x' y' x y); auto.
    + now apply (conn_sym (adj_sym r)).
    + now apply (conn_sym (adj_bg_sym r)).
  - exfalso. now apply (Cross x y x' y').
  - assert ((x, y) = (x', y')) as [= -> ->]; auto. eapply (first_unique (adj_sym r)); eauto.
Qed.

Lemma bottom_not_first x : 1 <= x -> ~ first_of (adj_bg r) isW (x, h + 1).
Proof.
  intros Hx [Wq F]. apply (F (x - 1, h + 1)).
  - apply conn_one; auto.
    + apply adj4_adj_bg. unfold adj4; cbn [fst snd]. lia.
    + unfold L_Crack.isW. destruct (B _ _) eqn:E; auto. apply HB in E. cbn in E. lia.
  - right. cbn. lia.
Qed.
End Trig.

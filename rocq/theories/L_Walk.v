(** The points of a contour come in the order of [round]. *)
From Verif Require Import Base BaseFacts M_Image S_Image L_Image M_PackedSet S_PackedSet L_PackedSet
  M_Contour S_Contour S_Walk S_Stats L_Crack L_Cycle L_Step L_Trace L_Trig L_Label L_Scan L_Hole L_Contour L_ContourEx.
From Coq Require Import Lia Sorted.

(** ** One round only *)
Lemma turn_n_rule r : turn_n r = rule_n r.
Proof. now destruct r. Qed.
Lemma sees_det r S p s d d' : sees r S p s d -> sees r S p s d' -> d = d'.
Proof.
  intros (k & K & -> & Sk & Fk) (k' & K' & -> & Sk' & Fk'). destruct (Z.lt_trichotomy k k') as [L|[->|L]]; auto; exfalso.
  - apply (Fk' k); auto; lia.
  - apply (Fk k'); auto; lia.
Qed.
Lemma goes_det r S p d p1 d1 p2 d2 : goes r S p d p1 d1 -> goes r S p d p2 d2 -> p1 = p2 /\ d1 = d2.
Proof. intros [-> H1] [-> H2]. split; auto. eapply sees_det; eauto. Qed.
Lemma tour_det r S p0 d0 p d l l' : tour r S p0 d0 p d l -> tour r S p0 d0 p d l' -> l = l'.
Proof.
  intros T. revert l'. induction T as [p d G|p d p' d' l G N T IH]; intros l' T'; inversion T' as [? ? G'|? ? p2 d2 l2 G' N' T2]; subst; auto.
  - exfalso. destruct (goes_det _ _ _ _ _ _ _ _ G G') as [<- <-]. now apply N'.
  - exfalso. destruct (goes_det _ _ _ _ _ _ _ _ G G') as [-> ->]. now apply N.
  - destruct (goes_det _ _ _ _ _ _ _ _ G G') as [<- <-]. f_equal. now apply IH.
Qed.
Lemma mod_turn r a : 0 <= a mod turn_n r < turn_n r.
Proof. apply Z.mod_pos_bound. now destruct r. Qed.
Lemma round_det r S p s l l' : round r S p s l -> round r S p s l' -> l = l'.
Proof.
  intros [[-> N]|(d & Sd & T)] [[-> N']|(d' & Sd' & T')]; auto.
  - exfalso. destruct Sd' as (k & _ & -> & X & _). exact (N _ (mod_turn r _) X).
  - exfalso. destruct Sd as (k & _ & -> & X & _). exact (N' _ (mod_turn r _) X).
  - assert (d' = d) as -> by (eapply sees_det; eauto). eapply tour_det; eauto.
Qed.

(** ** Moved pictures *)
Lemma ahead_moved r v p d : ahead r (moved v p) d = moved v (ahead r p d).
Proof. unfold ahead. destruct (znth _ d) as [u|]; auto. unfold moved; cbn. f_equal; lia. Qed.
Lemma moved_inj v p q : moved v p = moved v q -> p = q.
Proof. destruct p, q. unfold moved; cbn. intros [= H1 H2]. f_equal; lia. Qed.
Lemma map_moved_inj v l l' : map (moved v) l = map (moved v) l' -> l = l'.
Proof.
  revert l'. induction l as [|p l IH]; intros [|q l'] E; cbn in E; try discriminate; auto. injection E as E1 E2 E3. f_equal; [|now apply IH].
  apply (moved_inj v). unfold moved. now rewrite E1, E2.
Qed.
Section Moved.
Variable r : crule.
Variables S S' : point -> Prop.
Variable v : point.
Hypothesis HS : forall p, S' (moved v p) <-> S p.
Lemma sees_moved p s d : sees r S p s d -> sees r S' (moved v p) s d.
Proof.
  intros (k & K & -> & X & F). exists k. split; auto. split; auto. split; [rewrite ahead_moved; now apply HS|].
  intros i Hi. rewrite ahead_moved, HS. now apply F.
Qed.
Lemma goes_moved p d p' d' : goes r S p d p' d' -> goes r S' (moved v p) d (moved v p') d'.
Proof. intros [-> H]. split; [now rewrite ahead_moved|]. now apply sees_moved. Qed.
Lemma tour_moved p0 d0 p d l : tour r S p0 d0 p d l -> tour r S' (moved v p0) d0 (moved v p) d (map (moved v) l).
Proof.
  induction 1 as [p d G|p d p' d' l G N T IH]; cbn [map].
  - apply tour_last. now apply goes_moved.
  - eapply tour_more; [apply goes_moved, G| |exact IH]. intros [= E1 E2 ->]. apply N. f_equal. apply (moved_inj v).
    unfold moved. now rewrite E1, E2.
Qed.
Lemma round_moved p s l : round r S p s l -> round r S' (moved v p) s (map (moved v) l).
Proof.
  intros [[-> N]|(d & Sd & T)]; [left|right].
  - split; auto. intros d Hd. rewrite ahead_moved, HS. auto.
  - exists d. split; [now apply sees_moved|now apply tour_moved].
Qed.
End Moved.

(** ** The walk along the sides *)
Section Rule.
Variable r : crule.
Variable B : Z -> Z -> bool.
Variables w h : Z.
Hypothesis HB : forall x y, B x y = true -> 1 <= x <= w /\ 1 <= y <= h.
Notation isB := (isB B). Notation isW := (isW B). Notation next := (next r B). Notation valid := (valid r B).
Notation is_crack := (is_crack B). Notation period := (period r B).
Notation orbit := (orbit r B). Notation iter := (iter r B).
Notation bl := (bl B). Notation leaves := (leaves r B). Notation dirof := (dirof r B). Notation pre := (pre r B).
Notation first_black := (first_black r B). Notation cpoints := (cpoints r B).

Lemma ahead_nb p d : 0 <= d < rule_n r -> ahead r p d = nb r p d.
Proof.
  clear HB. destruct p as [x y]. destruct r; cbn [rule_n]; intros Hd;
    [assert (d = 0 \/ d = 1 \/ d = 2 \/ d = 3) as C by lia|
     assert (d = 0 \/ d = 1 \/ d = 2 \/ d = 3 \/ d = 4 \/ d = 5 \/ d = 6 \/ d = 7) as C by lia];
    decompose [or] C; subst; unfold ahead;
    match goal with |- context [znth ?l ?i] => let v := eval vm_compute in (znth l i) in change (znth l i) with v end;
    unfold moved; cbn [fst snd nb]; apply pair_equal_spec; split; lia.
Qed.
Lemma nextdir_left d : 0 <= d < rule_n r -> nextdir r d = (d - right_angle r) mod rule_n r.
Proof.
  clear HB. unfold nextdir, right_angle. destruct r; cbn [rule_n]; intros Hd;
    [assert (d = 0 \/ d = 1 \/ d = 2 \/ d = 3) as C by lia|
     assert (d = 0 \/ d = 1 \/ d = 2 \/ d = 3 \/ d = 4 \/ d = 5 \/ d = 6 \/ d = 7) as C by lia];
    decompose [or] C; subst; reflexivity.
Qed.

Lemma search_ex p s : exists k, first_black p s k.
Proof.
  clear HB.
  assert (forall m, (forall i, (i < m)%nat -> bl (nb r p ((s + Z.of_nat i) mod rule_n r)) = false) \/
    exists k, (k < m)%nat /\ bl (nb r p ((s + Z.of_nat k) mod rule_n r)) = true /\
      forall i, (i < k)%nat -> bl (nb r p ((s + Z.of_nat i) mod rule_n r)) = false) as G.
  { induction m as [|m [IH|(k & K & X & F)]]; [left; intros; lia| |right; exists k; auto].
    destruct (bl (nb r p ((s + Z.of_nat m) mod rule_n r))) eqn:E.
    - right. exists m. auto.
    - left. intros i Hi. destruct (Nat.eq_dec i m) as [->|]; auto. apply IH. lia. }
  destruct (G (Z.to_nat (rule_n r))) as [N|(k & K & X & F)].
  - exists (Z.to_nat (rule_n r)). pose proof (rule_n_pos r). split; [lia|]. split; auto. lia.
  - exists k. split; [lia|]. split; auto.
Qed.
Lemma sees_black p s s' k : first_black p s k -> Z.of_nat k < rule_n r -> s = s' mod rule_n r ->
  sees r isB p s' ((s + Z.of_nat k) mod rule_n r).
Proof.
  clear HB. intros (_ & F & X) K ->. specialize (X K). pose proof (rule_n_pos r) as P.
  assert (forall i, (s' mod rule_n r + i) mod rule_n r = (s' + i) mod rule_n r) as M by (intros; apply Z.add_mod_idemp_l; lia).
  rewrite M in *. exists (Z.of_nat k). rewrite turn_n_rule. split; [lia|]. split; auto.
  assert (forall i, ahead r p ((s' + i) mod rule_n r) = nb r p ((s' + i) mod rule_n r)) as A.
  { intros i. apply ahead_nb. apply Z.mod_pos_bound; lia. }
  rewrite A. split; [exact X|]. intros i Hi. rewrite A. specialize (F (Z.to_nat i) ltac:(lia)). rewrite M, Z2Nat.id in F by lia.
  unfold L_Crack.isB. unfold L_Step.bl in F. congruence.
Qed.

Lemma leave_goes a : valid a = true -> leaves a = true -> exists j, let b := iter j (next a) in
  (forall i, (i < j)%nat -> leaves (iter i (next a)) = false) /\ leaves b = true /\ goes r isB (cpix a) (dirof a) (cpix b) (dirof b).
Proof.
  intros V Lv. pose proof (rule_n_pos r) as P.
  assert (pre false (cpix a) (enc r (odir a)) a) as Pa.
  { split; auto. split; auto. split; [|discriminate]. rewrite Z.add_0_r, Z.mod_small; auto. apply enc_range. }
  destruct (search_ex (cpix a) (enc r (odir a))) as (k & Fb).
  destruct (Z.ltb_spec (Z.of_nat k) (rule_n r)) as [K|K].
  2:{ exfalso. assert (k = Z.to_nat (rule_n r)) as -> by (destruct Fb; lia).
      destruct (round_none r B false _ _ a Pa Fb) as (N & _). specialize (N 0%nat ltac:(lia)). cbn in N. congruence. }
  pose proof (round_found r B false _ _ a k Pa Fb K) as (Rl & Rj & Rd & Rn & (f & Rf & Rf') & _). cbv zeta in *.
  assert (turns r false k = 0%nat) as E0.
  { destruct (turns r false k) as [|m] eqn:E; auto. exfalso. destruct (Rl 0%nat ltac:(lia)) as [X _]. cbn in X. congruence. }
  rewrite E0 in *. cbn [L_Crack.iter] in *. set (d := (enc r (odir a) + Z.of_nat k) mod rule_n r) in *.
  assert (0 <= d < rule_n r) as Hd by (apply Z.mod_pos_bound; lia).
  assert (pre f (cpix (next a)) (nextdir r d) (next a)) as Pn.
  { split; [now apply valid_next|]. split; auto. split; auto. intros X. now apply Rf'. }
  destruct (search_ex (cpix (next a)) (nextdir r d)) as (k' & Fb').
  destruct (Z.ltb_spec (Z.of_nat k') (rule_n r)) as [K'|K'].
  - pose proof (round_found r B f _ _ _ k' Pn Fb' K') as (Ql & Qj & Qd & Qn & _ & _). cbv zeta in *.
    exists (turns r f k'). cbv zeta. split; [intros i Hi; now apply Ql|]. split; auto. rewrite Qd, Rd.
    assert (cpix (iter (turns r f k') (next a)) = cpix (next a)) as ->.
    { apply (no_leaves_pix r B w h HB). intros i Hi. now apply Ql. }
    split; [now rewrite ahead_nb|]. apply sees_black; auto. now apply nextdir_left.
  - exfalso. assert (k' = Z.to_nat (rule_n r)) as -> by (destruct Fb'; lia).
    destruct (round_none r B f _ _ _ Pn Fb') as (N & C & _).
    assert (a = iter 3 (next a)) as Ea.
    { apply (next_inj r B); [exact V|apply valid_iter; now apply valid_next|]. rewrite <- iter_S. now rewrite C. }
    specialize (N 3%nat ltac:(lia)). rewrite <- Ea in N. congruence.
Qed.

Lemma seq_split i m n : (i <= m <= n)%nat -> seq i (n - i) = seq i (m - i) ++ seq m (n - m).
Proof. intros H. replace (n - i)%nat with ((m - i) + (n - m))%nat by lia. rewrite seq_app. do 2 f_equal. lia. Qed.
Lemma quiet_filter c i m : (forall k, (i <= k < m)%nat -> leaves (iter k c) = false) ->
  filter leaves (map (fun k => iter k c) (seq i (m - i))) = [].
Proof.
  clear HB. intros H. assert (forall k, In k (seq i (m - i)) -> leaves (iter k c) = false) as G.
  { intros k Hk. apply in_seq in Hk. apply H. lia. }
  clear H. induction (seq i (m - i)) as [|k l IH]; auto. cbn. rewrite G by now left. apply IH. intros; apply G. now right.
Qed.

Lemma orbit_tour n c j0 : valid c = true -> period n c -> leaves (iter j0 c) = true -> (forall i, (i < j0)%nat -> leaves (iter i c) = false) ->
  forall m i, (n - i <= m)%nat -> (j0 <= i < n)%nat -> leaves (iter i c) = true ->
  tour r isB (cpix (iter j0 c)) (dirof (iter j0 c)) (cpix (iter i c)) (dirof (iter i c))
    (map cpix (filter leaves (map (fun k => iter k c) (seq i (n - i))))).
Proof.
  intros V P L0 Q0. induction m as [|m IH]; intros i Hm Hi Li; [lia|].
  destruct (leave_goes (iter i c) (valid_iter r B i c V) Li) as (j & Qj & Lj & G). cbv zeta in *.
  rewrite <- iter_S in *. assert (forall k, iter k (iter (S i) c) = iter (k + S i) c) as Ei by (intros; now rewrite iter_add).
  rewrite Ei in *. assert (forall k, (S i <= k < j + S i)%nat -> leaves (iter k c) = false) as Q.
  { intros k Hk. specialize (Qj (k - S i)%nat ltac:(lia)). rewrite Ei in Qj. replace (k - S i + S i)%nat with k in Qj by lia. exact Qj. }
  pose proof P as (P0 & P1 & P2).
  assert (seq i (n - i) = i :: seq (S i) (n - S i)) as ->. { replace (n - i)%nat with (S (n - S i)) by lia. reflexivity. }
  cbn [map filter]. rewrite Li. cbn [map].
  destruct (Nat.lt_ge_cases (j + S i) n) as [Lt|Ge].
  - rewrite (seq_split (S i) (j + S i) n) by lia. rewrite map_app, filter_app, quiet_filter by auto. cbn [app].
    eapply tour_more; [exact G| |apply IH; auto; lia]. intros [= X1 X2].
    assert (iter (j + S i) c = iter j0 c) as X by (apply (dirof_inj r B); auto; now apply valid_iter).
    replace (j + S i)%nat with (j0 + (j + S i - j0))%nat in X by lia. apply iter_cancel in X; auto. apply (P2 (j + S i - j0)%nat); auto. lia.
  - rewrite quiet_filter by (intros; apply Q; lia). cbn [map].
    assert (forall k, iter (k + n) c = iter k c) as Per by (intros; now rewrite iter_add, P1).
    assert (j + S i <= j0 + n)%nat as Le.
    { destruct (Nat.le_gt_cases (j + S i) (j0 + n)) as [|X]; auto. exfalso. specialize (Q (j0 + n)%nat ltac:(lia)). rewrite Per in Q. congruence. }
    replace (j + S i)%nat with ((j + S i - n) + n)%nat in Lj, G by lia. rewrite Per in Lj, G.
    assert (j + S i - n = j0)%nat as E.
    { destruct (Nat.lt_ge_cases (j + S i - n) j0) as [X|X]; [|lia]. apply Q0 in X. congruence. }
    rewrite E in G. now apply tour_last.
Qed.

Lemma contour_round n c : is_crack c = true -> period n c -> round r isB (cpix c) (enc r (odir c)) (cpoints n c).
Proof.
  intros Hc P. pose proof (crack_valid r B c Hc) as V. pose proof (rule_n_pos r) as Pr. pose proof P as (P0 & P1 & P2).
  assert (pre false (cpix c) (enc r (odir c)) c) as Pa.
  { split; auto. split; auto. split; [|discriminate]. rewrite Z.add_0_r, Z.mod_small; auto. apply enc_range. }
  destruct (search_ex (cpix c) (enc r (odir c))) as (k & Fb).
  destruct (Z.ltb_spec (Z.of_nat k) (rule_n r)) as [K|K].
  - right. pose proof (round_found r B false _ _ c k Pa Fb K) as (Rl & Rj & Rd & Rn & _). cbv zeta in *.
    set (j := turns r false k) in *. exists ((enc r (odir c) + Z.of_nat k) mod rule_n r).
    assert (cpix (iter j c) = cpix c) as Ep by (apply (no_leaves_pix r B w h HB); intros; now apply Rl).
    assert (j < n)%nat as Jn.
    { destruct (Nat.lt_ge_cases j n) as [|X]; auto. exfalso.
      assert (leaves (iter (j - n) c) = false) as Y by (apply Rl; lia).
      replace j with ((j - n) + n)%nat in Rj by lia. rewrite iter_add, P1 in Rj. congruence. }
    split; [apply sees_black; auto; symmetry; apply Z.mod_small, enc_range|].
    pose proof (orbit_tour n c j V P Rj (fun i Hi => proj1 (Rl i Hi)) n j ltac:(lia) ltac:(lia) Rj) as T. rewrite Rd, Ep in T.
    assert (cpoints n c = map cpix (filter leaves (map (fun k => iter k c) (seq j (n - j))))) as ->; [|exact T].
    assert (filter leaves (orbit n c) = filter leaves (map (fun k => iter k c) (seq j (n - j)))) as E.
    { unfold L_Crack.orbit. replace n with (n - 0)%nat at 1 by lia. rewrite (seq_split 0 j n) by lia.
      rewrite map_app, filter_app, quiet_filter by (intros; apply Rl; lia). reflexivity. }
    unfold L_Trace.cpoints. rewrite E. destruct (filter leaves (map _ (seq j (n - j)))) eqn:F; auto. exfalso.
    inversion T.
  - left. assert (k = Z.to_nat (rule_n r)) as Ek by (destruct Fb; lia). rewrite Ek in Fb.
    destruct (round_none r B false _ _ c Pa Fb) as (N & C & _). split.
    + unfold L_Trace.cpoints. rewrite (no_leaves_filter r B); auto. intros i Hi. apply N.
      destruct (Nat.le_gt_cases n 4) as [|G]; [lia|]. exfalso. apply (P2 4%nat); auto. lia.
    + intros d Hd. rewrite turn_n_rule in Hd. rewrite ahead_nb by auto. destruct Fb as (_ & F & _).
      specialize (F (Z.to_nat ((d - enc r (odir c)) mod rule_n r))). pose proof (Z.mod_pos_bound (d - enc r (odir c)) (rule_n r) Pr) as M.
      specialize (F ltac:(lia)). rewrite Z2Nat.id in F by lia. rewrite Z.add_mod_idemp_r in F by lia.
      replace (enc r (odir c) + (d - enc r (odir c))) with d in F by lia. rewrite Z.mod_small in F by auto.
      unfold L_Crack.isB. unfold L_Step.bl in F. congruence.
Qed.
End Rule.

(** ** Results of [process] *)
Lemma conrel_sorted r B T con : conrel r B T con -> Forall (fun co => StronglySorted Z.lt (co_int co) /\ Forall (fun j => j < zlen T) (co_int co)) con.
Proof.
  assert (forall T (c : crack) (con : list contour), Forall (fun co => StronglySorted Z.lt (co_int co) /\ Forall (fun j => j < zlen T) (co_int co)) con ->
    Forall (fun co => StronglySorted Z.lt (co_int co) /\ Forall (fun j => j < zlen (T ++ [c])) (co_int co)) con) as Ex.
  { intros T0 c con0. apply Forall_impl. intros co [H1 H2]. split; auto. eapply Forall_impl; [|exact H2]. intros j Hj. cbv beta in *.
    unfold zlen in *. rewrite app_length. cbn. lia. }
  induction 1 as [|T con c C IH U|T con c k co C IH U R Z]; [constructor| |].
  - apply Forall_app. split; [now apply Ex|]. constructor; [|constructor]. cbn. split; constructor.
  - apply Ex with (c := c) in IH as IH'. apply Forall_forall. intros co' Hin. apply In_nth_error in Hin as (m & Em).
    assert (znth (upd con (Z.to_nat (k - 1)) (mkCo (co_id co) (co_ext co) (co_int co ++ [zlen T]))) (Z.of_nat m) = Some co') as Zm.
    { unfold znth. replace (_ <? 0) with false by lia. now rewrite Nat2Z.id. }
    rewrite znth_upd in Zm by (eapply znth_Some_range; eauto). destruct (Z.of_nat m =? k - 1).
    + injection Zm as <-. cbn [co_int]. rewrite Forall_forall in IH. destruct (IH co (znth_In _ _ _ Z)) as [S1 S2].
      assert (zlen (T ++ [c]) = zlen T + 1) as EL by (unfold zlen; rewrite app_length; cbn; lia). split.
      * clear - S1 S2. induction S1 as [|a l S IHs F]; cbn; [constructor; constructor|]. inversion S2; subst. constructor; [now apply IHs|].
        apply Forall_app. split; auto.
      * rewrite EL. apply Forall_app. split; [|constructor; [lia|constructor]]. eapply Forall_impl; [|exact S2]. cbv beta. intros; lia.
    + rewrite Forall_forall in IH'. apply IH'. eapply znth_In; eauto.
Qed.

Definition begin_of (c : crack) : point * bool := (sh (cpix c), isU c).
Definition side_of (s : point * bool) : crack := let (p, ext) := s in Ck (fst p + 1) (snd p + 1) (if ext then U else D).

Section Run.
Variables (st : labeler) (g lab0 : gray Z) (st' : labeler) (lab' : gray Z) (T : list crack) (ls : list (list point)).
Hypothesis Wg : wf g.
Hypothesis Hsz : 4 * (g_width g + 2) * (g_height g + 2) < 4294967296.
Hypothesis Ro : run_ok st g lab0 st' lab' T ls.
Notation B := (pic g). Notation r := (lb_rule st).

Lemma trig_begins c : trig r B c -> begins r g (begin_of c) /\ side_of (begin_of c) = c.
Proof.
  destruct c as [x y []]; cbn [trig]; try tauto; intros H; unfold begin_of, sh; cbn [cpix isU begins side_of fst snd]; (split; [|f_equal; lia]).
  - destruct H as [H1 H2]. split; [apply fg_pic; unfold up; cbn [fst snd]; now replace (x - 1 + 1, y - 1 + 1) with (x, y) by (f_equal; lia)|].
    destruct H2 as [H2 H3]. split; [apply bg_pic; unfold up; cbn [fst snd]; now replace (x - 1 + 1, y - 1 + 1 + 1) with (x, y + 1) by (f_equal; lia)|].
    intros q C. change (conn (adj_bg r) (bg g) (x - 1, y - 1 + 1) q) with (space r g (x - 1, y - 1 + 1) q) in C. apply space_pic in C.
    unfold up at 1 in C; cbn [fst snd] in C. replace (x - 1 + 1, y - 1 + 1 + 1) with (x, y + 1) in C by (f_equal; lia). apply H3 in C.
    rewrite before_up_iff. unfold up at 2; cbn [fst snd]. now replace (x - 1 + 1, y - 1 + 1 + 1) with (x, y + 1) by (f_equal; lia).
  - apply first_pic. unfold up; cbn [fst snd]. now replace (x - 1 + 1, y - 1 + 1) with (x, y) by (f_equal; lia).
Qed.
Lemma begins_trig s : begins r g s -> trig r B (side_of s) /\ begin_of (side_of s) = s.
Proof.
  destruct s as [[x y] ext]. cbn [begins side_of fst snd]. intros H. unfold begin_of, sh.
  split; [|destruct ext; cbn; do 2 f_equal; lia]. destruct ext; cbn [trig].
  - now apply first_pic in H.
  - destruct H as [H1 [H2 H3]]. apply fg_pic in H1. split; [exact H1|]. apply bg_pic in H2. split; [exact H2|].
    intros q C. rewrite <- (up_sh q) in *. assert (space r g (x, y + 1) (sh q)) as C' by (apply space_pic; exact C).
    apply H3 in C'. now rewrite before_up_iff in C'.
Qed.
Lemma begins_sorted : StronglySorted sooner (map begin_of T).
Proof.
  pose proof (ro_sorted _ _ _ _ _ _ _ Ro) as S. clear Ro. induction S as [|c l S IH F]; cbn; constructor; auto.
  rewrite Forall_forall in *. intros s Hs. apply in_map_iff in Hs as (c' & <- & I). apply F in I. unfold begin_of, sooner; cbn [fst snd].
  destruct I as [I|(I1 & I2 & I3)]; [left|right; rewrite I1; auto]. rewrite before_up_iff, !up_sh. exact I.
Qed.
Lemma begins_all s : In s (map begin_of T) <-> begins r g s.
Proof.
  rewrite in_map_iff. split.
  - intros (c & <- & I). apply (ro_T _ _ _ _ _ _ _ Ro) in I. now apply trig_begins.
  - intros H. destruct (begins_trig _ H) as [Tr E]. exists (side_of s). split; auto. now apply (ro_T _ _ _ _ _ _ _ Ro).
Qed.
Lemma sh_moved p : sh p = moved (-1, -1) p.
Proof. reflexivity. Qed.
Lemma set_round i p ext : znth (map begin_of T) i = Some (p, ext) -> exists l, round r (fg g) p (first_look r ext) l /\
  has_points st' i (limited (ext || lb_save st) (lb_min st) (lb_max st) l).
Proof.
  intros E. rewrite znth_map in E. destruct (znth T i) as [c|] eqn:Ec; [|discriminate]. cbn in E. injection E as <- <-.
  destruct (run_stored _ _ _ _ _ _ _ Wg Hsz Ro i c Ec) as (n & Pn & H). exists (map sh (cpoints r B n c)). split; auto.
  assert (trig r B c) as Tr by (apply (ro_T _ _ _ _ _ _ _ Ro); eapply znth_In; eauto).
  assert (first_look r (isU c) = enc r (odir c)) as ->. { destruct c as [x y []]; cbn in Tr; try tauto; destruct r; reflexivity. }
  change (map sh) with (map (moved (-1, -1))). rewrite sh_moved. apply round_moved with (S := isB B).
  - intros q. rewrite fg_pic. rewrite <- sh_moved, up_sh. reflexivity.
  - apply (contour_round _ _ _ _ (pic_dims g)); auto. now apply (trig_crack r B _ _ (pic_dims g)).
Qed.
Lemma contour_sets k co : znth (lb_contours st') (k - 1) = Some co ->
  (exists p, znth (map begin_of T) (co_ext co) = Some (p, true) /\ pixel lab' (fst p) (snd p) = Some k) /\
  StronglySorted Z.lt (co_int co) /\
  forall j, In j (co_int co) <-> exists p, znth (map begin_of T) j = Some (p, false) /\ pixel lab' (fst p) (snd p) = Some k.
Proof.
  intros Z. pose proof (run_functional _ _ _ _ _ _ _ Ro) as Fn. pose proof (ro_con _ _ _ _ _ _ _ Ro) as Cn.
  destruct (conrel_spec _ _ _ _ Cn Fn k co Z) as (I1 & (c & I2 & I3) & I4 & I5).
  assert (forall c', trig r B c' -> fg g (sh (cpix c'))) as Fg.
  { intros c' Tr. apply fg_pic. rewrite up_sh. now apply (trig_black r). }
  assert (forall j c', znth T j = Some c' -> trig r B c') as Tj by (intros; apply (ro_T _ _ _ _ _ _ _ Ro); eapply znth_In; eauto).
  split; [|split].
  - exists (sh (cpix c)). rewrite znth_map, I2. cbn [option_map]. unfold begin_of. assert (isU c = true) as -> by (apply znth_In, Us_in in I3; tauto). split; auto.
    destruct (lab_fg _ _ _ _ _ _ _ Ro _ (Fg c (Tj _ _ I2))) as (k' & L & Rk). unfold lab_at in L. rewrite L. f_equal.
    eapply Fn; [exact Rk|]. exists c. split; auto. rewrite up_sh. apply conn_refl. apply (trig_black r). eapply Tj; eauto.
  - pose proof (conrel_sorted _ _ _ _ Cn) as S. rewrite Forall_forall in S. apply S. eapply znth_In; eauto.
  - intros j. rewrite I5. split.
    + intros (c' & Zc & Uc & Rk). exists (sh (cpix c')). rewrite znth_map, Zc. cbn [option_map]. unfold begin_of. rewrite Uc. split; auto.
      destruct (lab_fg _ _ _ _ _ _ _ Ro _ (Fg c' (Tj _ _ Zc))) as (k' & L & Rk'). unfold lab_at in L. rewrite L. f_equal.
      rewrite up_sh in Rk'. eapply Fn; eauto.
    + intros (p & Zp & Lp). rewrite znth_map in Zp. destruct (znth T j) as [c'|] eqn:Zc; [|discriminate]. cbn in Zp. injection Zp as <- Uc.
      exists c'. split; auto. split; auto. destruct (lab_fg _ _ _ _ _ _ _ Ro _ (Fg c' (Tj _ _ Zc))) as (k' & L & Rk').
      unfold lab_at in L. rewrite L in Lp. injection Lp as ->. now rewrite up_sh in Rk'.
Qed.
End Run.

Lemma order_lemma fuel st g lab st' lab' : used st -> label_args fuel g lab -> process fuel st g lab = Ok (st', lab') ->
  exists ss, StronglySorted sooner ss /\ (forall s, In s ss <-> begins (lb_rule st) g s) /\ ps_count (lb_pts st') = zlen ss /\
  (forall i p ext, znth ss i = Some (p, ext) -> exists l, round (lb_rule st) (fg g) p (first_look (lb_rule st) ext) l /\
     has_points st' i (limited (ext || lb_save st) (lb_min st) (lb_max st) l)) /\
  forall k co, znth (lb_contours st') (k - 1) = Some co ->
    (exists p, znth ss (co_ext co) = Some (p, true) /\ pixel lab' (fst p) (snd p) = Some k) /\
    StronglySorted Z.lt (co_int co) /\
    forall j, In j (co_int co) <-> exists p, znth ss j = Some (p, false) /\ pixel lab' (fst p) (snd p) = Some k.
Proof.
  intros U A E. destruct (process_run fuel st g lab (used_inv st U) A) as (lab0 & st1 & lab1 & T & ls & E0 & E1 & R).
  rewrite E in E1. injection E1 as <- <-. pose proof (la_in _ _ _ A) as Wg. pose proof (la_size _ _ _ A) as Sz.
  exists (map begin_of T). split; [eapply begins_sorted; eauto|]. split; [intros s; eapply begins_all; eauto|].
  split; [rewrite (run_count _ _ _ _ _ _ _ Wg Sz R); unfold zlen; now rewrite map_length|].
  split; [intros i p ext; eapply set_round; eauto|]. intros k co; eapply contour_sets; eauto.
Qed.

(** ** The same picture at another place *)
Definition back (v : point) : point := (- fst v, - snd v).
Lemma back_moved v p : moved (back v) (moved v p) = p.
Proof. destruct p. unfold moved, back; cbn. f_equal; lia. Qed.
Lemma moved_back v p : moved v (moved (back v) p) = p.
Proof. destruct p. unfold moved, back; cbn. f_equal; lia. Qed.
Lemma adj_moved r v p q : adj r (moved v p) (moved v q) <-> adj r p q.
Proof. destruct r; cbn; unfold adj4, adj8, moved; cbn; lia. Qed.
Lemma adj_bg_moved r v p q : adj_bg r (moved v p) (moved v q) <-> adj_bg r p q.
Proof. destruct r; cbn; unfold adj4, adj8, moved; cbn; lia. Qed.
Lemma before_moved v p q : before (moved v p) (moved v q) <-> before p q.
Proof. unfold before, moved; cbn. lia. Qed.
Lemma conn_moved (a : point -> point -> Prop) (S S' : point -> Prop) v p q :
  (forall u u', a (moved v u) (moved v u') <-> a u u') -> (forall u, S' (moved v u) <-> S u) -> conn a S' (moved v p) (moved v q) <-> conn a S p q.
Proof.
  intros Ha Hs. split.
  - intros C. rewrite <- (back_moved v p), <- (back_moved v q). revert C. apply conn_map.
    + intros u u' A. apply Ha. now rewrite !moved_back.
    + intros u Su. apply Hs. now rewrite moved_back.
  - apply conn_map; intros; [now apply Ha|now apply Hs].
Qed.
Lemma first_moved (a : point -> point -> Prop) (S S' : point -> Prop) v p :
  (forall u u', a (moved v u) (moved v u') <-> a u u') -> (forall u, S' (moved v u) <-> S u) -> first_of a S' (moved v p) <-> first_of a S p.
Proof.
  intros Ha Hs. unfold first_of. rewrite Hs. split; intros [H1 H2]; (split; [auto|]); intros q C.
  - rewrite <- (before_moved v). apply H2. now apply (conn_moved a S S').
  - rewrite <- (moved_back v q) in *. rewrite before_moved. apply H2. now apply (conn_moved a S S') in C.
Qed.

Definition cmove (v : point) (c : crack) : crack := match c with Ck x y o => Ck (x + fst v) (y + snd v) o end.
Lemma cmove_pix v c : cpix (cmove v c) = moved v (cpix c).
Proof. now destruct c. Qed.
Lemma cmove_U v c : isU (cmove v c) = isU c.
Proof. now destruct c. Qed.
Lemma cmove_back v c : cmove v (cmove (back v) c) = c.
Proof. destruct c as [x y o]. unfold cmove, back; cbn. f_equal; lia. Qed.
Lemma cmove_inj v c c' : cmove v c = cmove v c' -> c = c'.
Proof. destruct c, c'. cbn. intros [= H1 H2 ->]. f_equal; lia. Qed.
Lemma Us_cmove v T : Us (map (cmove v) T) = map (cmove v) (Us T).
Proof. induction T as [|c T IH]; auto. cbn. rewrite cmove_U. fold (Us T) (Us (map (cmove v) T)). destruct (isU c); cbn; now rewrite IH. Qed.
Lemma zlen_map {A C} (f : A -> C) l : zlen (map f l) = zlen l.
Proof. unfold zlen. now rewrite map_length. Qed.

Section TwoPictures.
Variable r : crule.
Variables B1 B2 : Z -> Z -> bool.
Variable v : point.
Hypothesis HB : forall p, isB B2 (moved v p) <-> isB B1 p.
Lemma white_moved p : isW B2 (moved v p) <-> isW B1 p.
Proof. rewrite !isW_B. now rewrite HB. Qed.
Lemma trig_moved c : trig r B2 (cmove v c) <-> trig r B1 c.
Proof.
  destruct c as [x y []]; cbn [cmove trig]; try tauto.
  - change (x + fst v, y + snd v) with (moved v (x, y)). rewrite HB.
    replace (x + fst v, y + snd v + 1) with (moved v (x, y + 1)) by (unfold moved; cbn; f_equal; lia).
    rewrite (first_moved (adj_bg r) (isW B1) (isW B2) v); [tauto|intros; apply adj_bg_moved|apply white_moved].
  - change (x + fst v, y + snd v) with (moved v (x, y)). apply first_moved; [intros; apply adj_moved|exact HB].
Qed.
Lemma rank_moved T q k : rank r B1 T q k <-> rank r B2 (map (cmove v) T) (moved v q) k.
Proof.
  unfold rank. rewrite Us_cmove, znth_map. split.
  - intros (c & Z & C). exists (cmove v c). rewrite Z. cbn. split; auto. rewrite cmove_pix. apply (conn_moved _ (isB B1)); auto. intros; apply adj_moved.
  - intros (c & Z & C). destruct (znth (Us T) (k - 1)) as [c'|]; [|discriminate]. cbn in Z. injection Z as <-. exists c'. split; auto.
    rewrite cmove_pix in C. apply (conn_moved _ (isB B1)) in C; auto. intros; apply adj_moved.
Qed.
Lemma conrel_moved T con : conrel r B1 T con -> conrel r B2 (map (cmove v) T) con.
Proof.
  induction 1 as [|T con c C IH U|T con c k co C IH U R Z]; [constructor| |]; rewrite map_app; cbn [map]; rewrite <- (zlen_map (cmove v) T).
  - apply cr_ext; auto. now rewrite cmove_U.
  - eapply cr_int; eauto; [now rewrite cmove_U|]. rewrite cmove_pix. now apply rank_moved.
Qed.
Lemma sorted_moved T : StronglySorted tlt T -> StronglySorted tlt (map (cmove v) T).
Proof.
  induction 1 as [|c l S IH F]; cbn; constructor; auto. rewrite Forall_forall in *. intros s Hs. apply in_map_iff in Hs as (c' & <- & I).
  apply F in I. unfold tlt in *. rewrite !cmove_pix, !cmove_U, before_moved. destruct I as [I|(I1 & I2 & I3)]; [auto|right]. rewrite I1. auto.
Qed.
End TwoPictures.

Lemma moved_lemma fuel1 fuel2 st1 st2 g1 g2 v lab1 lab2 st1' lab1' st2' lab2' :
  used st1 -> used st2 -> lb_rule st1 = lb_rule st2 -> lb_min st1 = lb_min st2 -> lb_max st1 = lb_max st2 -> lb_save st1 = lb_save st2 ->
  label_args fuel1 g1 lab1 -> label_args fuel2 g2 lab2 -> (forall p, fg g2 (moved v p) <-> fg g1 p) ->
  process fuel1 st1 g1 lab1 = Ok (st1', lab1') -> process fuel2 st2 g2 lab2 = Ok (st2', lab2') ->
  (forall p, fg g1 p -> pixel lab2' (fst p + fst v) (snd p + snd v) = pixel lab1' (fst p) (snd p)) /\
  lb_contours st2' = lb_contours st1' /\ ps_count (lb_pts st2') = ps_count (lb_pts st1') /\
  (forall i l, has_points st1' i l <-> has_points st2' i (map (moved v) l)).
Proof.
  intros U1 U2 Er Emn Emx Esv A1 A2 Hv E1 E2.
  destruct (process_run fuel1 st1 g1 lab1 (used_inv st1 U1) A1) as (l1 & s1 & lb1 & T1 & ls1 & _ & X1 & R1). rewrite E1 in X1. injection X1 as <- <-.
  destruct (process_run fuel2 st2 g2 lab2 (used_inv st2 U2) A2) as (l2 & s2 & lb2 & T2 & ls2 & _ & X2 & R2). rewrite E2 in X2. injection X2 as <- <-.
  pose proof (la_in _ _ _ A1) as W1. pose proof (la_size _ _ _ A1) as Sz1. pose proof (la_in _ _ _ A2) as W2. pose proof (la_size _ _ _ A2) as Sz2.
  assert (forall p, isB (pic g2) (moved v p) <-> isB (pic g1) p) as HB.
  { intros p. rewrite <- (up_sh p) at 2. rewrite <- fg_pic, <- Hv, fg_pic. replace (up (moved v (sh p))) with (moved v p); [tauto|].
    destruct p. unfold up, moved, sh; cbn. f_equal; lia. }
  assert (T2 = map (cmove v) T1) as ->.
  { apply sorted_eq; [apply R2|apply sorted_moved, R1|]. intros c. rewrite (ro_T _ _ _ _ _ _ _ R2), <- Er, in_map_iff.
    rewrite <- (cmove_back v c) at 1. rewrite (trig_moved _ (pic g1)) by auto. rewrite <- (ro_T _ _ _ _ _ _ _ R1). split.
    - intros I. eexists. split; [|exact I]. apply cmove_back.
    - intros (c' & <- & I). replace (cmove (back v) (cmove v c')) with c'; auto. apply (cmove_inj v). now rewrite cmove_back. }
  pose proof (run_functional _ _ _ _ _ _ _ R1) as F1. pose proof (run_functional _ _ _ _ _ _ _ R2) as F2.
  pose proof (run_count _ _ _ _ _ _ _ W1 Sz1 R1) as C1. pose proof (run_count _ _ _ _ _ _ _ W2 Sz2 R2) as C2. rewrite zlen_map in C2.
  split; [|split; [|split; [congruence|]]].
  - intros p Fp. destruct (lab_fg _ _ _ _ _ _ _ R1 p Fp) as (k & P & Rk).
    destruct (lab_fg _ _ _ _ _ _ _ R2 (moved v p) (proj2 (Hv p) Fp)) as (k' & P' & Rk').
    unfold lab_at in *. cbn [moved fst snd] in P'. rewrite P, P'. f_equal.
    replace (up (moved v p)) with (moved v (up p)) in Rk' by (unfold up, moved; cbn; f_equal; lia).
    rewrite <- Er in Rk'. apply (rank_moved _ (pic g1)) in Rk'; auto. eapply F1; eauto.
  - eapply conrel_det; [exact F2|apply R2|]. rewrite <- Er. apply (conrel_moved _ (pic g1)); auto. apply R1.
  - assert (forall i, 0 <= i < zlen T1 -> exists l, has_points st1' i l /\ has_points st2' i (map (moved v) l)) as G.
    { intros i Hi. destruct (znth_in_range T1 i Hi) as (c & Zc).
      destruct (set_round _ _ _ _ _ _ _ W1 Sz1 R1 i (sh (cpix c)) (isU c)) as (l & Rl & Hl); [rewrite znth_map, Zc; reflexivity|].
      destruct (set_round _ _ _ _ _ _ _ W2 Sz2 R2 i (moved v (sh (cpix c))) (isU c)) as (l' & Rl' & Hl').
      { rewrite !znth_map, Zc. cbn. unfold begin_of. rewrite cmove_pix, cmove_U. f_equal. f_equal. destruct (cpix c). unfold sh, moved; cbn. f_equal; lia. }
      rewrite <- Er, <- Emn, <- Emx, <- Esv in *.
      assert (l' = map (moved v) l) as ->. { eapply round_det; [exact Rl'|]. eapply round_moved; eauto. }
      eexists. split; [exact Hl|]. replace (map (moved v) (limited _ _ _ l)) with (limited (isU c || lb_save st1) (lb_min st1) (lb_max st1) (map (moved v) l)); auto.
      unfold limited. rewrite zlen_map. now destruct (negb _ || _ || _). }
    intros i l. split; intros H; pose proof H as [Hi _].
    + destruct (G i) as (l0 & H1 & H2); [lia|]. now rewrite (has_unique _ _ _ _ H H1).
    + destruct (G i) as (l0 & H1 & H2); [lia|]. pose proof (has_unique _ _ _ _ H H2) as E.
      now rewrite (map_moved_inj v l l0 E).
Qed.

(** ** Examples *)
(** A pixel with another one on its lower right. *)
Definition pair2 : gray Z := pict 2 2 [1;0; 0;1].
Definition pair4 : gray Z := pict 4 3 [0;0;0;0; 0;1;0;0; 0;0;1;0].
Lemma args_pair2 : label_args 16 pair2 lab0.
Proof. apply (args_pict 2 2); try lia; try reflexivity. apply wf_new; lia. Qed.
Lemma args_pair4 : label_args 48 pair4 lab0.
Proof. apply (args_pict 4 3); try lia; try reflexivity. apply wf_new; lia. Qed.
Ltac look := intros i Hi; let C := fresh in
  assert (i = 0 \/ i = 1 \/ i = 2 \/ i = 3 \/ i = 4 \/ i = 5 \/ i = 6 \/ i = 7) as C by lia; decompose [or] C; subst; try lia; vm_compute; discriminate.
Lemma pair_round : round Eight (fg pair2) (0, 0) (upwards Eight) [(0, 0); (1, 1)].
Proof.
  right. exists 1. split; [exists 3; split; [vm_compute; split; congruence|]; split; [reflexivity|]; split; [reflexivity|look]|].
  apply tour_more with (p' := (1, 1)) (d' := 5).
  - split; [reflexivity|]. exists 6. split; [vm_compute; split; congruence|]. split; [reflexivity|]. split; [reflexivity|look].
  - discriminate.
  - apply tour_last. split; [reflexivity|]. exists 6. split; [vm_compute; split; congruence|]. split; [reflexivity|]. split; [reflexivity|look].
Qed.
Lemma pair_run : exists st lab, process 16 (lb_new Eight) pair2 lab0 = Ok (st, lab) /\ has_points st 0 [(0, 0); (1, 1)] /\
  lb_contours st = [mkCo 1 0 []].
Proof.
  eexists _, _. split; [vm_compute; reflexivity|]. split; [|vm_compute; reflexivity]. split; [vm_compute; split; congruence|vm_compute; reflexivity].
Qed.
Lemma pair_moved : (forall p, fg pair4 (moved (1, 1) p) <-> fg pair2 p) /\
  exists st lab, process 48 (lb_new Eight) pair4 lab0 = Ok (st, lab) /\ has_points st 0 [(1, 1); (2, 2)].
Proof.
  split.
  - intros [x y]. unfold fg, moved; cbn [fst snd].
    assert (forall g x y, pixel g x y = Some 1 -> inside g x y) as In by (intros; eapply pixel_Some; eauto). split; intros H.
    + pose proof (In _ _ _ H) as [Hx Hy]. cbn in Hx, Hy. assert (x = -1 \/ x = 0 \/ x = 1 \/ x = 2) as C by lia.
      assert (y = -1 \/ y = 0 \/ y = 1) as C' by lia. decompose [or] C; decompose [or] C'; subst; vm_compute in H |- *; congruence.
    + pose proof (In _ _ _ H) as [Hx Hy]. cbn in Hx, Hy. assert (x = 0 \/ x = 1) as C by lia. assert (y = 0 \/ y = 1) as C' by lia.
      decompose [or] C; decompose [or] C'; subst; vm_compute in H |- *; congruence.
  - eexists _, _. split; [vm_compute; reflexivity|]. split; [vm_compute; split; congruence|vm_compute; reflexivity].
Qed.
Lemma pair_example : used (lb_new Eight) /\ label_args 16 pair2 lab0 /\ begins Eight pair2 (0, 0, true) /\
  exists st lab, process 16 (lb_new Eight) pair2 lab0 = Ok (st, lab) /\ has_points st 0 [(0, 0); (1, 1)] /\ lb_contours st = [mkCo 1 0 []].
Proof.
  split; [constructor|]. split; [exact args_pair2|]. split; [|exact pair_run]. split; [reflexivity|].
  intros q C. apply conn_right in C. assert (inside pair2 (fst q) (snd q)) as [Hx Hy] by (eapply pixel_Some; exact C). unfold before; cbn in *. lia.
Qed.

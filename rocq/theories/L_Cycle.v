(** What a closed boundary walk visits, and where its first horizontal side lies. *)
From Verif Require Import Base BaseFacts M_Contour S_Contour L_Crack.
From Coq Require Import Lia.

(** ** Connected sets *)
Lemma conn_trans {a S p q s} : conn a S p q -> conn a S q s -> conn a S p s.
Proof. intros H1 H2. induction H2 as [Hq|s s' C IH A Hs]; [exact H1|]. eapply conn_step; eauto. Qed.
Lemma conn_one {a : point -> point -> Prop} {S : point -> Prop} {p q} : a p q -> S p -> S q -> conn a S p q.
Proof. intros. eapply conn_step; [apply conn_refl| |]; eauto. Qed.
Lemma conn_sym {a : point -> point -> Prop} {S p q} : (forall u v, a u v -> a v u) -> conn a S p q -> conn a S q p.
Proof.
  intros Sy. induction 1 as [H|q q' C IH A Hq]; [now apply conn_refl|].
  refine (conn_trans (conn_one _ _ _) IH); auto. exact (conn_right C).
Qed.
Lemma adj4_sym p q : adj4 p q -> adj4 q p.
Proof. unfold adj4. lia. Qed.
Lemma adj8_sym p q : adj8 p q -> adj8 q p.
Proof. unfold adj8. lia. Qed.
Lemma adj_sym r p q : adj r p q -> adj r q p.
Proof. destruct r; [apply adj4_sym|apply adj8_sym]. Qed.
Lemma adj_bg_sym r p q : adj_bg r p q -> adj_bg r q p.
Proof. destruct r; [apply adj8_sym|apply adj4_sym]. Qed.
Lemma conn_mono {a} {S S' : point -> Prop} {p q} : (forall u, S u -> S' u) -> conn a S p q -> conn a S' p q.
Proof. intros H. induction 1; [apply conn_refl|eapply conn_step]; eauto. Qed.

Lemma before_irrefl p : ~ before p p.
Proof. unfold before. lia. Qed.
Lemma before_trans p q s : before p q -> before q s -> before p s.
Proof. unfold before. lia. Qed.
Lemma before_total p q : before p q \/ p = q \/ before q p.
Proof. destruct p as [a b], q as [c d]. unfold before; cbn. assert (b < d \/ d < b \/ (b = d /\ (a < c \/ c < a)) \/ (b = d /\ a = c)) as C by lia.
  destruct C as [?|[?|[?|[-> ->]]]]; auto; try (left; lia); try (right; right; lia). destruct H as [? [|]]; [left|right;right]; lia. Qed.
Lemma before_dec p q : {before p q} + {~ before p q}.
Proof. unfold before. destruct (Z_lt_dec (snd p) (snd q)); [left; lia|]. destruct (Z.eq_dec (snd p) (snd q)); [|right; lia].
  destruct (Z_lt_dec (fst p) (fst q)); [left|right]; lia. Defined.

(** The two first pixels of a set agree. *)
Lemma first_unique {a : point -> point -> Prop} {S p q} : (forall u v, a u v -> a v u) -> first_of a S p -> first_of a S q -> conn a S p q -> p = q.
Proof.
  intros Sy [_ Fp] [_ Fq] C. destruct (before_total p q) as [X|[X|X]]; auto.
  - exfalso. apply (Fq p); auto. now apply conn_sym.
  - exfalso. now apply (Fp q).
Qed.

(** ** Horizontal sides *)
Definition horiz (c : crack) : bool := match c with Ck _ _ U | Ck _ _ D => true | _ => false end.
(** Pixel whose upper edge the side is. *)
Definition hpos (c : crack) : point := match c with Ck x y D => (x, y + 1) | Ck x y _ => (x, y) end.

Lemma min_side l a : In a l -> horiz a = true ->
  exists t, In t l /\ horiz t = true /\ (forall b, In b l -> horiz b = true -> ~ before (hpos b) (hpos t)) /\ ~ before (hpos a) (hpos t).
Proof.
  revert a. induction l as [|c l IH]; intros a Ha Hh; [easy|].
  assert (forall a', In a' (c :: l) -> horiz a' = true -> exists t, In t (c :: l) /\ horiz t = true /\
     (forall b, In b (c :: l) -> horiz b = true -> ~ before (hpos b) (hpos t))) as G.
  { intros a' Ha' Hh'. destruct (existsb horiz l) eqn:Ex.
    - apply existsb_exists in Ex as (b & Hb & Hhb). destruct (IH b Hb Hhb) as (t & Ht & Hht & Mt & _).
      destruct (horiz c) eqn:Hc.
      + destruct (before_dec (hpos c) (hpos t)) as [Bt|Bt].
        * exists c. split; [now left|]. split; auto. intros b' [<-|Hb'] Hhb'; [apply before_irrefl|].
          intros X. apply (Mt b' Hb' Hhb'). eapply before_trans; eauto.
        * exists t. split; [now right|]. split; auto. intros b' [<-|Hb'] Hhb'; auto.
      + exists t. split; [now right|]. split; auto. intros b' [<-|Hb'] Hhb'; [congruence|auto].
    - assert (forall b, In b l -> horiz b = false) as Nl.
      { intros b Hb. destruct (horiz b) eqn:E; auto. assert (existsb horiz l = true) by (apply existsb_exists; eauto). congruence. }
      destruct Ha' as [<-|Ha']; [|rewrite Nl in Hh' by auto; discriminate].
      exists c. split; [now left|]. split; auto. intros b [<-|Hb] Hhb; [apply before_irrefl|]. rewrite Nl in Hhb by auto. discriminate. }
  destruct (G a Ha Hh) as (t & T1 & T2 & T3). exists t. auto.
Qed.

Section Rule.
Variable r : crule.
Variable B : Z -> Z -> bool.
Notation isB := (isB B). Notation isW := (isW B). Notation next := (next r B). Notation valid := (valid r B).
Notation is_crack := (is_crack B). Notation corner := (corner B). Notation period := (period r B).
Notation orbit := (orbit r B). Notation sides := (sides r B). Notation iter := (iter r B). Notation wn := (wn r B).

Ltac nrm := cbn [fst snd cpix cout startv endv next4 next8] in *; rewrite ?Z.add_simpl_r, ?Z.sub_add in *.
Ltac brk :=
  repeat (nrm; match goal with
  | H : _ && _ = true |- _ => apply andb_prop in H as [? ?]
  | H : _ || _ = true |- _ => apply orb_prop in H as [?|?]
  | H : negb _ = true |- _ => apply negb_true_iff in H
  | H : B ?a ?b = _ |- context [B ?a ?b] => rewrite H
  | H : B ?a ?b = true, H' : B ?a ?b = false |- _ => congruence
  end; cbn [andb orb negb]); nrm.

Lemma rule_cases (q : crule) : q = Four \/ q = Eight.
Proof. destruct q; auto. Qed.
Lemma crack_valid c : is_crack c = true -> valid c = true.
Proof. intros H. unfold L_Crack.valid. destruct r; rewrite H; auto. Qed.
Lemma crack_iff c : is_crack c = true <-> isB (cpix c) /\ isW (cout c).
Proof. unfold L_Crack.is_crack, L_Crack.isB, L_Crack.isW. rewrite andb_true_iff, negb_true_iff. tauto. Qed.

(** Background pixel touched by a state of the walk. *)
Definition wpt (c : crack) : point :=
  if is_crack c then cout c else
  match c with Ck x y U => (x - 1, y - 1) | Ck x y R => (x + 1, y - 1) | Ck x y D => (x + 1, y + 1) | Ck x y L => (x - 1, y + 1) end.
Lemma wpt_crack c : is_crack c = true -> wpt c = cout c.
Proof. unfold wpt. now intros ->. Qed.
Lemma wpt_white c : valid c = true -> isW (wpt c).
Proof.
  unfold L_Crack.valid, wpt, L_Crack.isW. destruct (is_crack c) eqn:E.
  - intros _. now apply crack_iff in E.
  - destruct r; [|congruence]. cbn. unfold L_Crack.corner. intros H. destruct c as [x y []]; brk; auto.
Qed.
Ltac pt4 := unfold adj4; cbn [fst snd]; lia.
Ltac pt8 := unfold adj8; cbn [fst snd]; lia.
Ltac fin :=
  first [ left; f_equal; lia | right; left; first [pt4|pt8]
        | right; right; match goal with H : B ?a ?b = false |- _ => exists (a, b); split; [exact H|split; pt4] end ].
Lemma wpt_next_cases c : valid c = true ->
  wpt (next c) = wpt c \/ adj_bg r (wpt c) (wpt (next c)) \/
  exists m, isW m /\ adj_bg r (wpt c) m /\ adj_bg r m (wpt (next c)).
Proof.
  unfold L_Crack.valid, L_Crack.next, wpt. destruct r; cbn [adj_bg]; destruct c as [x y []];
    unfold L_Crack.is_crack, L_Crack.corner; intros V; brk;
    repeat match goal with |- context [if B ?a ?b then Ck _ _ _ else _] => destruct (B a b) eqn:?; brk end;
    repeat match goal with |- context [B ?a ?b] => destruct (B a b) eqn:?; brk end; try congruence; cbn [andb negb]; try fin.
Qed.
Lemma wpt_next c : valid c = true -> conn (adj_bg r) isW (wpt c) (wpt (next c)).
Proof.
  intros V. pose proof (wpt_white _ V) as W1. pose proof (wpt_white _ (valid_next _ _ _ V)) as W2.
  destruct (wpt_next_cases c V) as [->|[A|(m & Hm & A1 & A2)]].
  - now apply conn_refl.
  - now apply conn_one.
  - refine (conn_trans (conn_one A1 _ _) (conn_one A2 _ _)); auto.
Qed.
Lemma cpix_next c : valid c = true -> cpix (next c) = cpix c \/ adj r (cpix c) (cpix (next c)).
Proof.
  unfold L_Crack.valid, L_Crack.next. destruct r; cbn [adj]; destruct c as [x y []];
    unfold L_Crack.is_crack, L_Crack.corner; intros V; brk;
    repeat match goal with |- context [if B ?a ?b then Ck _ _ _ else _] => destruct (B a b) eqn:?; brk end;
    auto; right; first [pt4|pt8].
Qed.
Lemma cpix_conn c : valid c = true -> conn (adj r) isB (cpix c) (cpix (next c)).
Proof.
  intros V. pose proof (valid_B _ _ _ V). pose proof (valid_B _ _ _ (valid_next _ _ _ V)).
  destruct (cpix_next c V) as [->|A]; [now apply conn_refl|now apply conn_one].
Qed.
Lemma iter_conn_B c i : valid c = true -> conn (adj r) isB (cpix c) (cpix (iter i c)).
Proof.
  intros V. induction i as [|i IH]; [apply conn_refl, (valid_B r); auto|]. rewrite iter_S.
  eapply conn_trans; [exact IH|]. apply cpix_conn. now apply valid_iter.
Qed.
Lemma iter_conn_W c i : valid c = true -> conn (adj_bg r) isW (wpt c) (wpt (iter i c)).
Proof.
  intros V. induction i as [|i IH]; [apply conn_refl; now apply wpt_white|]. rewrite iter_S.
  eapply conn_trans; [exact IH|]. apply wpt_next. now apply valid_iter.
Qed.
Lemma adj_wpt c : valid c = true -> adj_bg r (cpix c) (wpt c).
Proof.
  unfold L_Crack.valid, wpt. destruct r; cbn [adj_bg].
  - intros _. destruct (is_crack c); destruct c as [x y []]; nrm; pt8.
  - intros ->. destruct c as [x y []]; nrm; pt4.
Qed.

Section Orbit.
Variables (n : nat) (c : crack).
Hypothesis Hc : is_crack c = true.
Hypothesis Pn : period n c.
Let Vc : valid c = true := crack_valid c Hc.

Lemma orbit_conn_B a : In a (orbit n c) -> conn (adj r) isB (cpix c) (cpix a).
Proof. intros H. apply in_orbit in H as (i & _ & ->). now apply iter_conn_B. Qed.
Lemma orbit_conn_W a : In a (orbit n c) -> conn (adj_bg r) isW (cout c) (wpt a).
Proof. intros H. apply in_orbit in H as (i & _ & ->). rewrite <- wpt_crack by auto. now apply iter_conn_W. Qed.

(** A walk uses every side between its two connected sets. *)
Lemma side_unique a : is_crack a = true -> conn (adj r) isB (cpix c) (cpix a) -> conn (adj_bg r) isW (cout c) (cout a) ->
  In a (orbit n c).
Proof.
  intros Ha CB CW. apply (wn_conn_black r B n c Vc Pn) in CB. apply (wn_conn_white r B n c Vc Pn) in CW.
  assert (In c (sides n c)) as Ic by (apply in_sides; split; auto; now apply orbit_self).
  pose proof (wn_cross_in r B n c Vc Pn c Ic) as E.
  apply (in_sides r B n c a), (wn_cross_iff r B n c Vc Pn); auto. lia.
Qed.

(** Pixels of the walk. *)
Lemma orbit_pixels p : (exists a, In a (orbit n c) /\ cpix a = p) <->
  conn (adj r) isB (cpix c) p /\ exists q, conn (adj_bg r) isW (cout c) q /\ adj_bg r p q.
Proof.
  split.
  - intros (a & Ha & <-). split; [now apply orbit_conn_B|]. exists (wpt a). split; [now apply orbit_conn_W|].
    apply adj_wpt. now apply (orbit_valid r B n c).
  - intros (CB & q & CW & A).
    pose proof (conn_right CB) as Bp. pose proof (conn_right CW) as Wq.
    assert (adj4 p q -> exists a, In a (orbit n c) /\ cpix a = p) as G4.
    { destruct p as [x y], q as [x' y']. unfold adj4; cbn [fst snd]. intros A4.
      assert ((x' = x + 1 /\ y' = y) \/ (x' = x - 1 /\ y' = y) \/ (x' = x /\ y' = y + 1) \/ (x' = x /\ y' = y - 1)) as C by lia.
      destruct C as [[-> ->]|[[-> ->]|[[-> ->]|[-> ->]]]];
        [exists (Ck x y R)|exists (Ck x y L)|exists (Ck x y D)|exists (Ck x y U)];
        (split; [apply side_unique; auto; apply crack_iff; auto|reflexivity]). }
    assert (r = Four \/ r = Eight) as [Er|Er] by exact (rule_cases r); rewrite Er in A; cbn [adj_bg] in A; [|now apply G4].
    assert (adj4 p q \/ (Z.abs (fst p - fst q) = 1 /\ Z.abs (snd p - snd q) = 1)) as [?|Dg] by (unfold adj4, adj8 in *; lia); [now apply G4|].
    destruct p as [x y], q as [x' y']. cbn [fst snd] in Dg.
    assert (forall o e, is_crack e = true -> cpix e = (x, y) -> adj8 (x', y') (cout e) -> o = e -> exists a, In a (orbit n c) /\ cpix a = (x, y)) as G8.
    { intros o e He Ee Ae _. exists e. split; auto. apply side_unique; auto; [now rewrite Ee|].
      eapply conn_step; [exact CW|rewrite Er; exact Ae|]. now apply crack_iff in He. }
    assert (forall e d, is_crack e = true -> cpix e = d -> isB d -> adj4 (x, y) d -> cout e = (x', y') -> next e = Ck x y (match next e with Ck _ _ o => o end) -> exists a, In a (orbit n c) /\ cpix a = (x, y)) as GC.
    { intros e d He Ee Bd Ad Oe Ne. exists (next e). split; [|rewrite Ne; reflexivity]. apply orbit_next; auto.
      apply side_unique; auto; [|now rewrite Oe]. rewrite Ee. eapply conn_step; [exact CB|rewrite Er; exact Ad|exact Bd]. }
    unfold L_Crack.isB, L_Crack.isW in Bp, Wq; cbn [fst snd] in Bp, Wq.
    assert ((x' = x + 1 \/ x' = x - 1) /\ (y' = y + 1 \/ y' = y - 1)) as [Cx Cy] by lia. clear Dg.
    destruct (B x' y) eqn:E1.
    2:{ destruct Cx as [->| ->]; [eapply (G8 _ (Ck x y R))|eapply (G8 _ (Ck x y L))]; try reflexivity;
        try (unfold L_Crack.is_crack; nrm; rewrite Bp, E1; reflexivity); nrm; pt8. }
    destruct (B x y') eqn:E2.
    2:{ destruct Cy as [->| ->]; [eapply (G8 _ (Ck x y D))|eapply (G8 _ (Ck x y U))]; try reflexivity;
        try (unfold L_Crack.is_crack; nrm; rewrite Bp, E2; reflexivity); nrm; pt8. }
    destruct Cx as [->| ->], Cy as [->| ->].
    + apply (GC (Ck (x + 1) y D) (x + 1, y)); auto; try (unfold L_Crack.is_crack; nrm; rewrite E1, Wq; reflexivity); try pt4.
      unfold L_Crack.next. rewrite Er. nrm. now rewrite Wq, Bp.
    + apply (GC (Ck x (y - 1) R) (x, y - 1)); auto; try (unfold L_Crack.is_crack; nrm; rewrite E2, Wq; reflexivity); try pt4.
      unfold L_Crack.next. rewrite Er. nrm. now rewrite Wq, Bp.
    + apply (GC (Ck x (y + 1) L) (x, y + 1)); auto; try (unfold L_Crack.is_crack; nrm; rewrite E2, Wq; reflexivity); try pt4.
      unfold L_Crack.next. rewrite Er. nrm. now rewrite Wq, Bp.
    + apply (GC (Ck (x - 1) y U) (x - 1, y)); auto; try (unfold L_Crack.is_crack; nrm; rewrite E1, Wq; reflexivity); try pt4.
      unfold L_Crack.next. rewrite Er. nrm. now rewrite Wq, Bp.
Qed.

(** ** The first horizontal side *)
Definition top (t : crack) : Prop :=
  In t (sides n c) /\ horiz t = true /\ forall a, In a (sides n c) -> horiz a = true -> ~ before (hpos a) (hpos t).
Lemma top_exists a : In a (sides n c) -> horiz a = true -> exists t, top t /\ ~ before (hpos a) (hpos t).
Proof. intros Ha Hh. destruct (min_side _ _ Ha Hh) as (t & T1 & T2 & T3 & T4). exists t. unfold top. auto. Qed.
Lemma top_wn0 t z : top t -> before z (hpos t) -> wn n c z = 0.
Proof.
  intros (_ & _ & M) Hz. apply sumf_0. intros [cx cy o] Ha. specialize (M _ Ha).
  destruct o; cbn [wind1 horiz hpos] in *; auto; destruct (_ && _) eqn:E; auto; exfalso; apply M; auto;
    unfold before in *; destruct z; cbn [fst snd] in *; lia.
Qed.
Lemma top_U x y : top (Ck x y U) -> first_of (adj r) isB (x, y).
Proof.
  intros T. pose proof T as (I & _ & _). pose proof I as I'. apply in_sides in I' as (_ & Cr). apply crack_iff in Cr as [Bp _].
  split; [exact Bp|]. intros q Cq Bq. apply (wn_conn_black r B n c Vc Pn) in Cq.
  pose proof (wn_cross_in r B n c Vc Pn _ I) as E. cbn [cpix cout] in E.
  rewrite (top_wn0 _ (x, y - 1) T) in E by (unfold before; cbn; lia).
  rewrite (top_wn0 _ q T) in Cq by exact Bq. lia.
Qed.
Lemma top_D x y : top (Ck x y D) -> first_of (adj_bg r) isW (x, y + 1).
Proof.
  intros T. pose proof T as (I & _ & _). pose proof I as I'. apply in_sides in I' as (_ & Cr). apply crack_iff in Cr as [_ Wp].
  split; [exact Wp|]. intros q Cq Bq. apply (wn_conn_white r B n c Vc Pn) in Cq.
  pose proof (wn_cross_in r B n c Vc Pn _ I) as E. cbn [cpix cout] in E.
  rewrite (top_wn0 _ (x, y) T) in E by (unfold before; cbn; lia).
  rewrite (top_wn0 _ q T) in Cq by exact Bq. lia.
Qed.
(** Nothing outside a walk winds around a pixel left of or above its first side. *)
End Orbit.
End Rule.

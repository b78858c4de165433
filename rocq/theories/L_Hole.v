(** Outside and holes of connected sets: which contours go around the outside and which around a hole. *)
From Verif Require Import Base BaseFacts M_Contour S_Contour L_Crack L_Cycle L_Step L_Trace L_Trig.
From Coq Require Import Lia.

Lemma conn_iff {a} {S S' : point -> Prop} p q : (forall u, S u <-> S' u) -> conn a S p q <-> conn a S' p q.
Proof. intros H. split; apply conn_mono; intros u; apply H. Qed.

Lemma adj8_split u v : adj8 u v -> adj4 u v \/ exists m m', adj4 u m /\ adj4 m v /\ adj4 u m' /\ adj4 m' v /\ adj8 m m'.
Proof.
  destruct u as [x y], v as [x' y']. unfold adj8, adj4; cbn. intros H.
  destruct (Z.eq_dec x x'), (Z.eq_dec y y'); [left; lia..|]. right. exists (x, y'), (x', y). cbn. lia.
Qed.

Section Hole.
Variable r : crule.
Variable B : Z -> Z -> bool.
Notation isB := (isB B). Notation isW := (isW B). Notation next := (next r B). Notation valid := (valid r B).
Notation is_crack := (is_crack B). Notation period := (period r B). Notation orbit := (orbit r B). Notation iter := (iter r B).
Notation sides := (sides r B). Notation wn := (wn r B). Notation cpoints := (cpoints r B). Notation trig := (trig r B).
Notation leaves := (leaves r B).
Variables w h : Z.
Hypothesis HB : forall x y, B x y = true -> 1 <= x <= w /\ 1 <= y <= h.

Definition box (p : point) : Prop := 1 <= fst p <= w /\ 1 <= snd p <= h.
Notation inC := (conn (adj r) isB).
Notation inH := (conn (adj_bg r) isW).
Definition esc (p q : point) : Prop := exists s, conn (adj_bg r) (fun u => ~ inC p u) q s /\ ~ box s.

Lemma isW_B p : isW p <-> ~ isB p.
Proof. unfold L_Crack.isW, L_Crack.isB. destruct (B (fst p) (snd p)); split; congruence. Qed.
Lemma white_avoids p u : isW u -> ~ inC p u.
Proof. intros W C. apply conn_right in C. now apply isW_B in W. Qed.
Lemma H_avoids p u v : inH u v -> conn (adj_bg r) (fun x => ~ inC p x) u v.
Proof. apply conn_mono. intros x. apply white_avoids. Qed.

Section Orbit.
Variables (n : nat) (c : crack).
Hypothesis Cc : is_crack c = true.
Hypothesis Pc : period n c.
Let Vc : valid c = true := crack_valid r B c Cc.
Notation wn := (wn n c). Notation sides := (sides n c).
Let p := cpix c.

Lemma wn_step4 u v : adj4 u v -> ~ inC p u -> ~ inC p v -> wn u = wn v.
Proof.
  intros A Nu Nv. destruct (Bool.bool_dec (B (fst u) (snd u)) (B (fst v) (snd v))) as [E|E]; [now apply wn_same4|].
  assert (forall a, is_crack a = true -> ~ inC p (cpix a) -> wn (cpix a) = wn (cout a)) as X.
  { intros a Ca Na. rewrite (wn_cross r B n c Vc Pc a Ca). rewrite cnt_notin; [lia|]. intros I. apply in_sides in I as [I _].
    apply Na. now apply (orbit_conn_B r B n c). }
  destruct u as [x y], v as [x' y']. unfold adj4 in A; cbn [fst snd] in *.
  assert ((x' = x + 1 /\ y' = y) \/ (x' = x - 1 /\ y' = y) \/ (x' = x /\ y' = y + 1) \/ (x' = x /\ y' = y - 1)) as C by lia.
  destruct (B x y) eqn:E1; destruct (B x' y') eqn:E2; try congruence.
  - destruct C as [[-> ->]|[[-> ->]|[[-> ->]|[-> ->]]]];
      [apply (X (Ck x y R))|apply (X (Ck x y L))|apply (X (Ck x y D))|apply (X (Ck x y U))]; auto; unfold L_Crack.is_crack; cbn; now rewrite E1, E2.
  - symmetry. destruct C as [[-> ->]|[[-> ->]|[[-> ->]|[-> ->]]]].
    + replace x with (x + 1 - 1) at 2 by lia. apply (X (Ck (x + 1) y L)); auto. unfold L_Crack.is_crack; cbn. replace (x + 1 - 1) with x by lia. now rewrite E1, E2.
    + replace x with (x - 1 + 1) at 2 by lia. apply (X (Ck (x - 1) y R)); auto. unfold L_Crack.is_crack; cbn. replace (x - 1 + 1) with x by lia. now rewrite E1, E2.
    + replace y with (y + 1 - 1) at 2 by lia. apply (X (Ck x (y + 1) U)); auto. unfold L_Crack.is_crack; cbn. replace (y + 1 - 1) with y by lia. now rewrite E1, E2.
    + replace y with (y - 1 + 1) at 2 by lia. apply (X (Ck x (y - 1) D)); auto. unfold L_Crack.is_crack; cbn. replace (y - 1 + 1) with y by lia. now rewrite E1, E2.
Qed.

Lemma wn_step u v : adj_bg r u v -> ~ inC p u -> ~ inC p v -> wn u = wn v.
Proof.
  intros A Nu Nv. destruct (rule_cases r) as [Er|Er]; rewrite Er in A; cbn [adj_bg] in A; [|now apply wn_step4].
  destruct (adj8_split u v A) as [A4|(m & m' & A1 & A2 & A3 & A4 & A5)]; [now apply wn_step4|].
  assert (forall k, adj4 u k -> adj4 k v -> ~ inC p k -> wn u = wn v) as X.
  { intros k K1 K2 Nk. transitivity (wn k); apply wn_step4; auto. }
  assert (forall k k', adj4 k k' -> adj r k k') as A4r by (rewrite Er; auto).
  destruct (B_dec B m) as [Bm|Wm]; [|apply (X m); auto; now apply white_avoids].
  destruct (B_dec B u) as [Bu|Wu].
  { apply (X m); auto. intros C. apply Nu. eapply conn_step; [exact C| |exact Bu]. apply A4r. now apply adj4_sym. }
  destruct (B_dec B v) as [Bv|Wv].
  { apply (X m); auto. intros C. apply Nv. eapply conn_step; [exact C| |exact Bv]. now apply A4r. }
  apply (wn_white r B n c Vc Pc); auto. now rewrite Er.
Qed.
Lemma wn_avoid u v : conn (adj_bg r) (fun x => ~ inC p x) u v -> wn u = wn v.
Proof.
  induction 1 as [|q q' C IH A N]; auto. rewrite IH. apply wn_step; auto. exact (conn_right C).
Qed.

Lemma side_box a : In a sides -> box (cpix a).
Proof.
  intros I. apply in_sides in I as [_ Ca]. apply crack_iff in Ca as [Ca _]. apply HB in Ca. exact Ca.
Qed.
Lemma wn_outside s : ~ box s -> wn s = 0.
Proof.
  assert (forall x y, x < 1 \/ w < x \/ y < 1 -> wn (x, y) = 0) as Far.
  { intros x y F. unfold L_Crack.wn, wind. apply sumf_0. intros a Ia. apply side_box in Ia. destruct a as [ax ay o].
    destruct Ia as [I1 I2]. cbn in I1, I2. destruct o; cbn; auto; replace (_ && _) with false by lia; reflexivity. }
  intros N. destruct s as [x y]. unfold box in N; cbn in N.
  destruct (Z.lt_ge_cases x 1) as [|G1]; [apply Far; lia|]. destruct (Z.lt_ge_cases w x); [apply Far; lia|].
  destruct (Z.lt_ge_cases y 1); [apply Far; lia|]. assert (h < y) as Hy by lia.
  assert (forall k : nat, Z.of_nat k <= x -> wn (x - Z.of_nat k, y) = wn (x, y)) as Left.
  { induction k as [|k IH]; intros Hk; [f_equal; f_equal; lia|]. rewrite <- IH by lia. apply wn_same4; auto.
    - unfold adj4; cbn [fst snd]; lia.
    - cbn [fst snd]. destruct (B (x - Z.of_nat (S k)) y) eqn:E1; [apply HB in E1; lia|]. destruct (B (x - Z.of_nat k) y) eqn:E2; [apply HB in E2; lia|]. reflexivity. }
  rewrite <- (Left (Z.to_nat x)) by lia. apply Far. lia.
Qed.
End Orbit.

(** Every side lies on the walk from a trigger. *)
Lemma side_trig a : is_crack a = true -> exists n t, trig t /\ period n t /\ In a (orbit n t).
Proof.
  intros Ca. pose proof (crack_valid r B a Ca) as Va. destruct (period_ex r B w h HB a Va) as (n & Pn & _).
  assert (exists b, In b (sides n a) /\ horiz b = true) as (b & Ib & Hb).
  { destruct (existsb horiz (sides n a)) eqn:E; [apply existsb_exists in E as (b & Ib & Hb); eauto|]. exfalso.
    assert (forall q, wn n a q = 0) as Z0.
    { intros q. unfold L_Crack.wn, wind. apply sumf_0. intros b Ib.
      assert (horiz b = false) as Hb.
      { destruct (horiz b) eqn:X; auto. rewrite <- E. symmetry. apply existsb_exists. eauto. }
      destruct b as [bx by_ []]; cbn in *; auto; discriminate. }
    pose proof (wn_cross_in r B n a Va Pn a) as X. rewrite !Z0 in X. assert (In a (sides n a)); [|specialize (X H); lia].
    apply in_sides. split; auto. now apply orbit_self. }
  apply in_sides in Ib as [Ib Cb]. destruct (reach_trig r B w h HB a b n Ca Pn Ib Cb Hb) as (t & Tt & Pt & It & _). eauto.
Qed.

(** The lower side of a foreground pixel above the first pixel of a background set: that set is enclosed. *)
Lemma trig_D_closed x y : trig (Ck x y D) -> ~ esc (x, y) (x, y + 1).
Proof.
  intros T (s & C & N). pose proof (trig_crack r B w h HB _ T) as Ct. pose proof (crack_valid r B _ Ct) as Vt.
  destruct (period_ex r B w h HB _ Vt) as (n & Pn & _).
  assert (In (Ck x y D) (sides n (Ck x y D))) as It by (apply in_sides; split; auto; now apply orbit_self).
  destruct (top_exists r B n (Ck x y D) (Ck x y D) It eq_refl) as (t & Tp & _).
  pose proof (wn_avoid n (Ck x y D) Ct Pn _ _ C) as E1. rewrite (wn_outside n (Ck x y D) Ct Pn s N) in E1.
  pose proof (wn_cross_in r B n _ Vt Pn _ It) as E2. cbn [cpix cout] in E2. rewrite E1 in E2.
  assert (t = Ck x y D) as ->.
  { pose proof Tp as Tp'. destruct Tp as (I & Hz & Min). apply in_sides in I as [I Cr]. destruct t as [tx ty []]; try discriminate.
    - (* D *) pose proof (top_D r B n _ Ct Pn tx ty Tp') as F. pose proof (orbit_conn_W r B n _ Ct _ I) as W. rewrite wpt_crack in W by auto.
      cbn [cout] in W. assert ((x, y + 1) = (tx, ty + 1)) as [= <- E] by (eapply (first_unique (adj_bg_sym r)); eauto; apply T). f_equal. lia.
    - (* U *) exfalso. pose proof (top_wn0 r B n _ _ (tx, ty - 1) Tp' ltac:(left; cbn; lia)) as Z0.
      pose proof (orbit_conn_W r B n _ Ct _ I) as W. rewrite wpt_crack in W by auto. cbn [cout] in W.
      pose proof T as [_ [_ F]]. specialize (F _ W). specialize (Min _ It eq_refl). cbn [hpos] in Min.
      unfold before in *; cbn in *. lia. }
  pose proof (top_wn0 r B n _ _ (x, y) Tp ltac:(left; cbn; lia)) as Z0. lia.
Qed.

(** Above the first pixel of a foreground set one gets out. *)
Lemma trig_U_open x y : trig (Ck x y U) -> esc (x, y) (x, y - 1).
Proof.
  intros T. assert (1 <= x <= w /\ 1 <= y <= h) as [Dx Dy] by (apply HB; apply T).
  assert (forall k : nat, (Z.of_nat k <= y - 1) -> conn (adj_bg r) (fun u => ~ inC (x, y) u) (x, y - 1) (x, y - 1 - Z.of_nat k)) as Up.
  { assert (forall z, z < y -> ~ inC (x, y) (x, z)) as N.
    { intros z Hz C. apply T in C. apply C. left; cbn; lia. }
    induction k as [|k IH]; intros Hk.
    - replace (y - 1 - Z.of_nat 0) with (y - 1) by lia. apply conn_refl. apply N. lia.
    - eapply conn_step; [apply IH; lia| |apply N; lia]. apply (adj4_adj_bg r B w h HB). unfold adj4; cbn. lia. }
  exists (x, 0). split.
  - specialize (Up (Z.to_nat (y - 1)) ltac:(lia)). now replace (y - 1 - Z.of_nat (Z.to_nat (y - 1))) with 0 in Up by lia.
  - intros [_ H]; cbn in H; lia.
Qed.

Lemma esc_same p p' q q' : inC p p' -> inH q q' -> esc p q -> esc p' q'.
Proof.
  intros C W (s & P & N). exists s. split; auto.
  assert (forall u, ~ inC p u -> ~ inC p' u) as X.
  { intros u H C'. apply H. eapply conn_trans; eauto. }
  eapply conn_mono in P; [|exact X]. refine (conn_trans _ P). apply H_avoids. eapply conn_sym; eauto. apply adj_bg_sym.
Qed.

(** Where a set touches background there is a side. *)
Lemma touch_side u v : isB u -> isW v -> adj_bg r u v -> exists a, is_crack a = true /\ inC u (cpix a) /\ inH v (cout a).
Proof.
  intros Bu Wv A.
  assert (forall u' v', isB u' -> isW v' -> adj4 u' v' -> exists a, is_crack a = true /\ cpix a = u' /\ cout a = v') as S4.
  { intros [x y] [x' y'] B' W' A4. unfold adj4 in A4; cbn in A4.
    assert ((x' = x + 1 /\ y' = y) \/ (x' = x - 1 /\ y' = y) \/ (x' = x /\ y' = y + 1) \/ (x' = x /\ y' = y - 1)) as C by lia.
    destruct C as [[-> ->]|[[-> ->]|[[-> ->]|[-> ->]]]];
      [exists (Ck x y R)|exists (Ck x y L)|exists (Ck x y D)|exists (Ck x y U)]; (split; [apply crack_iff; split; auto|auto]). }
  assert (forall u' v', isB u' -> isW v' -> adj4 u' v' -> inC u u' -> inH v v' -> exists a, is_crack a = true /\ inC u (cpix a) /\ inH v (cout a)) as S4'.
  { intros u' v' B' W' A4 C W. destruct (S4 u' v' B' W' A4) as (a & Ca & <- & <-). eauto. }
  destruct (rule_cases r) as [Er|Er].
  2:{ apply (S4' u v); auto; [rewrite Er in A; exact A| |]; now apply conn_refl. }
  assert (adj8 u v) as A8 by (rewrite Er in A; exact A).
  destruct (adj8_split u v A8) as [A4|(m & _ & A1 & A2 & _)]; [apply (S4' u v); auto; now apply conn_refl|].
  destruct (B_dec B m) as [Bm|Wm].
  - apply (S4' m v); auto; [|now apply conn_refl]. apply conn_one; auto. now apply (adj4_adj r B w h HB).
  - apply (S4' u m); auto; [now apply conn_refl|]. apply conn_one; auto. apply (adj4_adj_bg r B w h HB). now apply adj4_sym.
Qed.

(** Enclosed background sets that touch the component of [p] are found by exactly the lower triggers of the component. *)
Lemma hole_trig p q : isW q -> (exists u v, inC p u /\ inH q v /\ adj4 u v) -> ~ esc p q ->
  exists x y, trig (Ck x y D) /\ inC p (x, y) /\ inH q (x, y + 1).
Proof.
  intros Wq (u & v & Cu & Hv & A) N.
  destruct (touch_side u v (conn_right Cu) (conn_right Hv)) as (a & Ca & C1 & C2); [now apply (adj4_adj_bg r B w h HB)|].
  destruct (side_trig a Ca) as (n & t & Tt & Pt & It). pose proof (trig_crack r B w h HB t Tt) as Ct.
  pose proof (orbit_conn_B r B n t Ct a It) as CB. pose proof (orbit_conn_W r B n t Ct a It) as CW. rewrite wpt_crack in CW by auto.
  assert (inC p (cpix t)) as X by (refine (conn_trans (conn_trans Cu C1) _); eapply conn_sym; eauto; apply adj_sym).
  assert (inH q (cout t)) as Y by (refine (conn_trans (conn_trans Hv C2) _); eapply conn_sym; eauto; apply adj_bg_sym).
  destruct t as [x y o]; destruct o; cbn [L_Trig.trig] in Tt; try tauto.
  - exists x, y. auto.
  - exfalso. apply N. apply (esc_same (x, y) p (x, y - 1) q); [eapply conn_sym; eauto; apply adj_sym|eapply conn_sym; eauto; apply adj_bg_sym|].
    now apply trig_U_open.
Qed.
Lemma trig_hole x y : trig (Ck x y D) ->
  isW (x, y + 1) /\ (exists u v, inC (x, y) u /\ inH (x, y + 1) v /\ adj4 u v) /\ ~ esc (x, y) (x, y + 1).
Proof.
  intros T. pose proof T as [T1 [T2 _]]. split; auto. split; [|now apply trig_D_closed].
  exists (x, y), (x, y + 1). split; [now apply conn_refl|]. split; [now apply conn_refl|]. unfold adj4; cbn; lia.
Qed.

(** The points of the walk from the first pixel of a component: where the component touches the outside. *)
Lemma outer_points n x y u : trig (Ck x y U) -> period n (Ck x y U) ->
  In u (cpoints n (Ck x y U)) <-> inC (x, y) u /\ exists v, isW v /\ adj_bg r u v /\ esc (x, y) v.
Proof.
  intros T Pn. pose proof (trig_crack r B w h HB _ T) as Ct. pose proof (crack_valid r B _ Ct) as Vt.
  rewrite (cpoints_in r B w h HB n _ u Vt Pn), (orbit_pixels r B n _ Ct Pn u). cbn [cpix cout]. split.
  - intros [C (v & V & A)]. split; auto. exists v. split; [now apply conn_right in V|]. split; auto.
    apply (esc_same (x, y) _ (x, y - 1)); auto; [apply conn_refl; apply T|]. now apply trig_U_open.
  - intros [C (v & V & A & E)]. split; auto. exists v. split; auto.
    destruct (touch_side u v (conn_right C) V A) as (a & Ca & C1 & C2).
    destruct (side_trig a Ca) as (m & t & Tt & Pt & It). pose proof (trig_crack r B w h HB t Tt) as Ct'.
    pose proof (orbit_conn_B r B m t Ct' a It) as CB. pose proof (orbit_conn_W r B m t Ct' a It) as CW. rewrite wpt_crack in CW by auto.
    assert (inC (x, y) (cpix t)) as X by (refine (conn_trans (conn_trans C C1) _); eapply conn_sym; eauto; apply adj_sym).
    assert (inH v (cout t)) as Y by (refine (conn_trans C2 _); eapply conn_sym; eauto; apply adj_bg_sym).
    destruct t as [tx ty o]; destruct o; cbn [L_Trig.trig] in Tt; try tauto.
    + exfalso. apply (trig_D_closed tx ty Tt). eapply esc_same; eauto.
    + cbn [cpix cout] in *. assert ((x, y) = (tx, ty)) as [= <- <-].
      { eapply (first_unique (adj_sym r)); [exact T|exact Tt|exact X]. }
      eapply conn_sym; eauto. apply adj_bg_sym.
Qed.
Lemma hole_points n x y u : trig (Ck x y D) -> period n (Ck x y D) ->
  In u (cpoints n (Ck x y D)) <-> inC (x, y) u /\ exists v, inH (x, y + 1) v /\ adj_bg r u v.
Proof.
  intros T Pn. pose proof (trig_crack r B w h HB _ T) as Ct. pose proof (crack_valid r B _ Ct) as Vt.
  rewrite (cpoints_in r B w h HB n _ u Vt Pn), (orbit_pixels r B n _ Ct Pn u). reflexivity.
Qed.

(** ** The points as a closed walk *)
Lemma chained_snoc (a : point -> point -> Prop) l x y : chained a (l ++ [x]) -> a x y -> chained a (l ++ [x] ++ [y]).
Proof.
  induction l as [|z l IH]; intros H A; [cbn; auto|]. destruct l as [|z' l]; [cbn in *; tauto|].
  destruct H as [H1 H2]. split; [exact H1|exact (IH H2 A)].
Qed.
Lemma leave_walk c k : valid c = true -> chained (adj r) (map cpix (filter leaves (orbit k c)) ++ [cpix (iter k c)]).
Proof.
  intros V. induction k as [|k IH]; [cbn; auto|].
  rewrite orbit_S, filter_app, map_app, <- app_assoc. cbn [filter]. rewrite iter_S.
  pose proof (valid_iter r B k c V) as Vk.
  destruct (leaves (iter k c)) eqn:E; cbn [map].
  - apply chained_snoc; auto. destruct (cpix_next r B _ Vk) as [X|X]; auto. exfalso. unfold L_Step.leaves in E. rewrite X in E.
    rewrite !Z.eqb_refl in E. discriminate.
  - cbn [app]. apply leaves_false in E. now rewrite E.
Qed.
Lemma leave_head c k : match filter leaves (orbit k c) with [] => cpix (iter k c) = cpix c | a :: _ => cpix a = cpix c end.
Proof.
  induction k as [|k IH]; [reflexivity|]. rewrite orbit_S, filter_app, iter_S. destruct (filter leaves (orbit k c)) as [|a l]; cbn [app].
  - cbn [filter]. destruct (leaves (iter k c)) eqn:E; auto. apply leaves_false in E. now rewrite E.
  - exact IH.
Qed.
Lemma cpoints_walk n c : valid c = true -> period n c -> closed_walk (adj r) (cpoints n c) (cpix c).
Proof.
  intros V P. pose proof (leave_walk c n V) as W. pose proof (leave_head c n) as H. destruct P as (_ & P & _). rewrite P in W.
  unfold L_Trace.cpoints, closed_walk. destruct (filter leaves (orbit n c)) as [|a l]; cbn [map] in *.
  - exists []. auto.
  - exists (map cpix l). split; [now rewrite H|]. right. exact W.
Qed.
End Hole.

(** The scan of the labeller: which contours are traced and which labels are set. *)
From Verif Require Import Base BaseFacts M_Image S_Image L_Image M_PackedSet S_PackedSet L_PackedSet M_Contour S_Contour
  L_Crack L_Cycle L_Step L_Trace L_Trig.
From Coq Require Import Lia Sorted.

(** Contours that are too long or too short are stored as empty sets. *)
Definition kept (mn mx : Z) (l : list point) : list point :=
  if (mx <=? zlen l) || (zlen l <? mn) then [] else l.

Lemma kept_len mn mx l : zlen (kept mn mx l) <= zlen l.
Proof. unfold kept. destruct (_ || _); [apply zlen_nonneg|lia]. Qed.

Lemma limit_ok mn mx m p s0 l : Rps p (s0 ++ [firstn (Z.to_nat m) l]) -> 0 <= mx -> m = mx \/ m = 0 ->
  exists p', limit_tail mn mx p = Ok p' /\ Rps p' (s0 ++ [if m =? mx then kept mn mx l else []]).
Proof.
  intros R Hm C. unfold limit_tail. rewrite (ps_tail_size_ok _ _ R), last_last.
  pose proof (ps_remove_ok _ _ R) as R1. rewrite removelast_last in R1.
  destruct (ps_start_ok _ _ R1) as (p1 & E1 & R2).
  destruct (Z.eqb_spec m mx) as [->|Ne].
  - unfold kept. unfold zlen. rewrite firstn_length.
    destruct (Z.leb_spec mx (Z.of_nat (length l))) as [Le|Gt].
    + replace (mx <=? Z.of_nat (Nat.min (Z.to_nat mx) (length l))) with true by lia. cbn [orb]. eauto.
    + replace (mx <=? Z.of_nat (Nat.min (Z.to_nat mx) (length l))) with false by lia. cbn [orb].
      replace (Nat.min (Z.to_nat mx) (length l)) with (length l) by lia.
      destruct (_ <? mn); [eauto|]. exists p. split; auto. rewrite firstn_all2 in R by lia. exact R.
  - destruct C as [| ->]; [congruence|]. cbn [Z.to_nat firstn] in *. destruct (_ || _); eauto.
Qed.

Section Label.
Variable r : crule.
Variable B : Z -> Z -> bool.
Notation isB := (isB B). Notation isW := (isW B). Notation next := (next r B). Notation valid := (valid r B).
Notation is_crack := (is_crack B). Notation period := (period r B).
Notation orbit := (orbit r B). Notation iter := (iter r B). Notation cpoints := (cpoints r B). Notation trig := (trig r B).

Variables w h : Z.
Hypothesis HB : forall x y, B x y = true -> 1 <= x <= w /\ 1 <= y <= h.
Hypothesis Hw : 0 <= w.
Hypothesis Hh : 0 <= h.
Hypothesis Hsz : 4 * (w + 2) * (h + 2) < 4294967296.
Notation bin_ok := (bin_ok B w h). Notation lab_ok := (lab_ok w h).

Lemma dims : w < 2147483647 /\ h < 2147483647 /\ 4 * w * h + 1 < 4294967296 /\ 0 <= w * h.
Proof. nia. Qed.

(** Order in which contours are traced. *)
Definition tlt (c c' : crack) : Prop := before (cpix c) (cpix c') \/ (cpix c = cpix c' /\ isU c = true /\ isU c' = false).
Lemma tlt_irrefl c : ~ tlt c c.
Proof. intros [H|(_ & H1 & H2)]; [now apply before_irrefl in H|congruence]. Qed.

Definition Us (T : list crack) : list crack := filter isU T.
Lemma Us_app T T' : Us (T ++ T') = Us T ++ Us T'.
Proof. apply filter_app. Qed.
(** [q] belongs to the [k]-th component found, counting from 1. *)
Definition rank (T : list crack) (q : point) (k : Z) : Prop :=
  exists c, znth (Us T) (k - 1) = Some c /\ conn (adj r) isB (cpix c) q.
Lemma rank_range T q k : rank T q k -> 1 <= k <= zlen (Us T).
Proof. clear HB Hw Hh Hsz. intros (c & E & _). apply znth_Some_range in E. lia. Qed.
Lemma rank_app T T' q k : rank T q k -> rank (T ++ T') q k.
Proof. clear HB Hw Hh Hsz.
  intros (c & E & C). exists c. split; auto. rewrite Us_app. pose proof (znth_Some_range _ _ _ E).
  rewrite znth_app_l; auto; lia.
Qed.
Lemma rank_conn T p q k : rank T p k -> conn (adj r) isB p q -> rank T q k.
Proof. intros (c & E & C) X. exists c. split; auto. eapply conn_trans; eauto. Qed.

(** The list of contours after the triggers in the list. *)
Inductive conrel : list crack -> list contour -> Prop :=
| cr_nil : conrel [] []
| cr_ext T con c : conrel T con -> isU c = true -> conrel (T ++ [c]) (con ++ [mkCo (zlen con + 1) (zlen T) []])
| cr_int T con c k co : conrel T con -> isU c = false -> rank T (cpix c) k -> znth con (k - 1) = Some co ->
    conrel (T ++ [c]) (upd con (Z.to_nat (k - 1)) (mkCo (co_id co) (co_ext co) (co_int co ++ [zlen T]))).
Lemma zlen_upd {A} (l : list A) i a : zlen (upd l i a) = zlen l.
Proof. unfold zlen. now rewrite upd_length. Qed.
Lemma conrel_len T con : conrel T con -> zlen con = zlen (Us T).
Proof. clear HB Hw Hh Hsz.
  induction 1 as [|T con c H IH E|T con c k co H IH E R Z]; auto.
  - rewrite Us_app, !zlen_app, IH. change (Us [c]) with (if isU c then [c] else []). rewrite E. reflexivity.
  - rewrite zlen_upd, Us_app, zlen_app, IH. change (Us [c]) with (if isU c then [c] else []). rewrite E. change (zlen (@nil crack)) with 0. lia.
Qed.

(** State of the images: [T] triggers traced so far, [Dn] those that should be, [sc] pixels scanned. *)
Record ginv (bin0 lab0 bin lab : gray Z) (T : list crack) (Dn : crack -> Prop) (sc : point -> Prop) : Prop := {
  gi_bin : bin_ok bin;
  gi_lab : lab_ok lab;
  gi_lbin : same_layout bin0 bin;
  gi_llab : same_layout lab0 lab;
  gi_frame : forall j, outside_window lab0 j -> znth (g_data lab) j = znth (g_data lab0) j;
  gi_T : forall c, In c T <-> trig c /\ Dn c;
  gi_sorted : StronglySorted tlt T;
  gi_white : forall x y, 1 <= x <= w -> 1 <= y <= h -> B x y = false ->
    pixel bin x y = Some 0 \/ (pixel bin x y = Some 255 /\ exists c, In c T /\ conn (adj_bg r) isW (cout c) (x, y));
  gi_mark : forall c n, In c T -> period n c ->
    (forall a, In a (orbit n c) -> is_crack a = true -> pixel bin (fst (cout a)) (snd (cout a)) = Some 255) \/
    (forall a, In a (orbit n c) -> is_crack a = true /\ cout a = cout c);
  gi_black : forall q, isB q -> exists v, pixel lab (fst q - 1) (snd q - 1) = Some v /\ (v = 0 \/ rank T q v);
  gi_zero : forall x y, 1 <= x <= w -> 1 <= y <= h -> B x y = false -> pixel lab (x - 1) (y - 1) = Some 0;
  gi_traced : forall c n a, In c T -> period n c -> In a (orbit n c) -> pixel lab (fst (cpix a) - 1) (snd (cpix a) - 1) <> Some 0;
  gi_scanned : forall q, sc q -> isB q -> pixel lab (fst q - 1) (snd q - 1) <> Some 0 }.

Lemma trig_period c : trig c -> exists n, period n c /\ Z.of_nat n <= 4 * w * h.
Proof. intros H. apply (period_ex r B w h HB). apply crack_valid. now apply (trig_crack r B w h HB). Qed.

(** ** Sizes *)
Lemma sorted_nodup T : StronglySorted tlt T -> NoDup T.
Proof.
  induction 1 as [|c T S IH F]; constructor; auto. intros I. rewrite Forall_forall in F. apply F in I. now apply tlt_irrefl in I.
Qed.
Lemma T_len T : NoDup T -> (forall c, In c T -> trig c) -> zlen T <= 2 * w * h.
Proof.
  intros N H. set (all := flat_map (fun x => flat_map (fun y => [Ck x y U; Ck x y D]) (zs h)) (zs w)).
  assert (Z.of_nat (length all) = 2 * w * h) as E.
  { unfold all. rewrite flat_map_len with (k := (length (zs h) * 2)%nat).
    - unfold zs. rewrite !map_length, !seq_length. nia.
    - intros x _. apply flat_map_len. reflexivity. }
  assert (length T <= length all)%nat as L.
  { apply NoDup_incl_length; auto. intros c Hc. specialize (H c Hc). pose proof (trig_black r B c H) as Bc.
    destruct c as [x y o]. cbn in Bc. apply HB in Bc. cbn in Bc. unfold all. apply in_flat_map. exists x. split; [apply (zs_in B w h HB); lia|].
    apply in_flat_map. exists y. split; [apply (zs_in B w h HB); lia|]. destruct o; cbn in H; try tauto; cbn; auto. }
  unfold zlen. lia.
Qed.
Lemma Us_len T : zlen (Us T) <= zlen T.
Proof. clear HB Hw Hh Hsz. unfold zlen, Us. induction T as [|c T IH]; [cbn; lia|]. cbn [filter]. destruct (isU c); cbn [length]; lia. Qed.

Lemma NoDup_append {A} (l l' : list A) : NoDup l -> NoDup l' -> (forall a, In a l -> ~ In a l') -> NoDup (l ++ l').
Proof.
  induction 1 as [|a l Ha N IH]; cbn [app]; intros N' D; [exact N'|]. constructor.
  - rewrite in_app_iff. intros [X|X]; [auto|]. apply (D a); [now left|auto].
  - apply IH; auto. intros b Hb. apply D. now right.
Qed.
Lemma total_len T (ls : list (list point)) : Forall2 (fun c l => exists n, period n c /\ zlen l <= Z.of_nat n) T ls ->
  NoDup T -> (forall c, In c T -> trig c) -> ll_total ls <= 4 * w * h.
Proof.
  intros F N H.
  assert (exists os, NoDup os /\ ll_total ls <= Z.of_nat (length os) /\
    forall a, In a os -> exists c n, In c T /\ period n c /\ In a (orbit n c)) as (os & No & Lo & So).
  { induction F as [|c l T ls (n & P & Hl) F IH].
    - exists []. split; [constructor|]. split; [change (ll_total (@nil (list (Z * Z)))) with 0; cbn; lia|easy].
    - apply NoDup_cons_iff in N as [Nc N]. destruct IH as (os & No & Lo & So); auto.
      { intros; apply H; now right. }
      pose proof (H c (or_introl eq_refl)) as Tc. pose proof (crack_valid r B c (trig_crack r B w h HB c Tc)) as Vc.
      exists (orbit n c ++ os). split; [|split].
      + apply NoDup_append; auto; [now apply orbit_nodup|]. intros a Ha Ia. destruct (So a Ia) as (c' & n' & Ic & Pc & Ia').
        apply Nc. rewrite (trig_disjoint r B w h HB c c' n n' a); auto. apply H. now right.
      + rewrite ll_total_cons, app_length. unfold L_Crack.orbit at 1. rewrite map_length, seq_length. lia.
      + intros a Ha. apply in_app_iff in Ha as [Ha|Ha]; [exists c, n; split; [now left|auto]|].
        destruct (So a Ha) as (c' & n' & Ic & X). exists c', n'. split; [now right|auto]. }
  assert (length os <= length (all_cracks w h))%nat as L.
  { apply NoDup_incl_length; auto. intros a Ha. destruct (So a Ha) as (c & n & Ic & Pc & Ia).
    apply (valid_in r B w h HB). apply (orbit_valid r B n c); auto. apply crack_valid. apply (trig_crack r B w h HB). auto. }
  pose proof (all_cracks_len B w h HB Hw Hh). lia.
Qed.

(** ** Decisions of the scan *)
Section Dec.
Variables (bin0 lab0 bin lab : gray Z) (T : list crack) (p : point).
Hypothesis Bp : isB p.
Let Dn0 (c : crack) : Prop := before (cpix c) p.
Let Dn1 (c : crack) : Prop := before (cpix c) p \/ (cpix c = p /\ isU c = true).
Let sc0 (q : point) : Prop := before q p.

Lemma before_up x y : before (x, y - 1) (x, y).
Proof. left; cbn; lia. Qed.

(** A trigger not after [p] in raster order of edges has been traced. *)
Lemma trig_before t : trig t -> ~ before p (hpos t) -> Dn0 t \/ t = Ck (fst p) (snd p) U.
Proof.
  intros Tt Hb. destruct p as [x y]. unfold Dn0. destruct t as [tx ty []]; cbn [L_Trig.trig] in Tt; try tauto; cbn [hpos cpix fst snd] in *.
  - left. unfold before in *; cbn [fst snd] in *. lia.
  - destruct (before_total (tx, ty) (x, y)) as [X|[[= -> ->]|X]]; auto; tauto.
Qed.

Lemma decide1 : ginv bin0 lab0 bin lab T Dn0 sc0 ->
  (pixel lab (fst p - 1) (snd p - 1) = Some 0 /\ isW (fst p, snd p - 1)) <-> trig (Ck (fst p) (snd p) U).
Proof.
  intros G. split.
  - intros [V Wu]. destruct (reach_h r B w h HB (Ck (fst p) (snd p) U)) as (n & t & Tt & Pt & It & Hb).
    { apply crack_iff. split; [now destruct p|auto]. }
    { reflexivity. }
    cbn [hpos] in Hb. rewrite <- surjective_pairing in Hb. destruct (trig_before t Tt Hb) as [X| ->]; auto. exfalso.
    assert (In t T) as IT by (apply (gi_T _ _ _ _ _ _ _ G); auto).
    exact (gi_traced _ _ _ _ _ _ _ G t n _ IT Pt It V).
  - intros Tp. split.
    + destruct (gi_black _ _ _ _ _ _ _ G p Bp) as (v & V & [->|(c & E & C)]); auto. exfalso.
      apply znth_In in E. unfold Us in E. apply filter_In in E as [E Eu]. apply (gi_T _ _ _ _ _ _ _ G) in E as [Tc Dc].
      destruct c as [x y []]; try discriminate. cbn [L_Trig.trig cpix] in *. unfold Dn0 in Dc; cbn [cpix] in Dc.
      assert ((x, y) = p) as <-.
      { eapply (first_unique (adj_sym r)); eauto. now rewrite (surjective_pairing p). }
      now apply before_irrefl in Dc.
    + apply (trig_crack r B w h HB), crack_iff in Tp. apply Tp.
Qed.

Lemma decide3 : ginv bin0 lab0 bin lab T Dn0 sc0 -> pixel lab (fst p - 1) (snd p - 1) = Some 0 -> isB (fst p, snd p - 1) ->
  isB (fst p - 1, snd p).
Proof.
  intros G V Bu. destruct (B_dec B (fst p - 1, snd p)) as [|Wl]; auto. exfalso.
  assert (is_crack (Ck (fst p) (snd p) L) = true) as Cr by (apply crack_iff; split; [now destruct p|auto]).
  destruct (reach_left r B w h HB (fst p) (snd p) Cr) as (n & t & Tt & Pt & It & Hb).
  rewrite <- surjective_pairing in Hb. destruct (trig_before t Tt Hb) as [X| ->].
  - assert (In t T) as IT by (apply (gi_T _ _ _ _ _ _ _ G); auto).
    exact (gi_traced _ _ _ _ _ _ _ G t n _ IT Pt It V).
  - apply (trig_crack r B w h HB), crack_iff in Tt as [_ Tt]. cbn [cout] in Tt. unfold L_Crack.isB, L_Crack.isW in *. congruence.
Qed.

Lemma decide2 sc : ginv bin0 lab0 bin lab T Dn1 sc ->
  pixel bin (fst p) (snd p + 1) = Some 0 <-> trig (Ck (fst p) (snd p) D).
Proof.
  intros G. pose proof (HB _ _ Bp) as [Px Py]. split.
  - intros V. assert (isW (fst p, snd p + 1)) as Wq.
    { destruct (gi_bin _ _ _ _ _ _ _ G) as (_ & _ & _ & Rd). destruct (Rd (fst p) (snd p + 1)) as (v & V' & E); [lia..|].
      rewrite V in V'. injection V' as <-. symmetry. exact E. }
    assert (is_crack (Ck (fst p) (snd p) D) = true) as Cr by (apply crack_iff; split; [now destruct p|auto]).
    destruct (reach_h r B w h HB _ Cr eq_refl) as (n & t & Tt & Pt & It & Hb). cbn [hpos] in Hb.
    pose proof (trig_crack r B w h HB t Tt) as Ct.
    pose proof (orbit_conn_B r B n t Ct _ It) as CB. cbn [cpix] in CB. rewrite <- surjective_pairing in CB.
    assert (Dn1 t \/ t = Ck (fst p) (snd p) D) as [Dt|Et].
    { unfold Dn1. destruct t as [tx ty []]; cbn [L_Trig.trig] in Tt; try tauto; cbn [cpix isU hpos] in *.
      - destruct (before_total (tx, ty) p) as [X|[X|X]]; auto.
        + right. rewrite <- X. reflexivity.
        + exfalso. apply Hb. unfold before in *; cbn [fst snd] in *. lia.
      - destruct Tt as [_ Ft]. apply Ft in CB. destruct (before_total (tx, ty) p) as [X|[X|X]]; auto; tauto. }
    2:{ now rewrite Et in Tt. }
    exfalso. assert (In t T) as IT by (apply (gi_T _ _ _ _ _ _ _ G); auto).
    destruct (gi_mark _ _ _ _ _ _ _ G t n IT Pt) as [M|M].
    + specialize (M _ It Cr). cbn [cout fst snd] in M. congruence.
    + destruct (M _ It) as [_ E]. cbn [cout] in E. unfold Dn1 in Dt. destruct p as [x y]. cbn [fst snd] in *.
      destruct t as [tx ty []]; cbn [L_Trig.trig] in Tt; try tauto; cbn [cout cpix isU] in *.
      * injection E as -> E. assert (y = ty) as -> by lia. destruct Dt as [Dt|[_ Dt]]; [now apply before_irrefl in Dt|discriminate].
      * injection E as -> E. destruct Dt as [Dt|[Dt _]]; [unfold before in Dt; cbn in Dt; lia|injection Dt; lia].
  - intros Tp. pose proof Tp as [_ [Wq Fq]]. 
    assert (snd p + 1 <= h) as Hq.
    { destruct (Z.le_gt_cases (snd p + 1) h); auto. exfalso. apply (bottom_not_first r B w h HB (fst p)); [lia|].
      replace (h + 1) with (snd p + 1) by lia. apply Tp. }
    destruct (gi_white _ _ _ _ _ _ _ G (fst p) (snd p + 1)) as [|[_ (c & Ic & C)]]; auto; try lia. exfalso.
    apply (gi_T _ _ _ _ _ _ _ G) in Ic as [Tc Dc]. unfold Dn1 in Dc. destruct p as [x y]. cbn [fst snd] in *.
    pose proof (Fq _ (conn_sym (adj_bg_sym r) C)) as Nb.
    destruct c as [cx cy []]; cbn [L_Trig.trig] in Tc; try tauto; cbn [cout cpix isU] in *.
    + assert ((cx, cy + 1) = (x, y + 1)) as [= -> E].
      { eapply (first_unique (adj_bg_sym r)); [apply Tc|apply Tp|auto]. }
      assert (cy = y) as -> by lia. destruct Dc as [Dc|[_ Dc]]; [now apply before_irrefl in Dc|discriminate].
    + apply Nb. destruct Dc as [Dc|[[= -> ->] _]]; unfold before in *; cbn [fst snd] in *; lia.
Qed.
End Dec.

(** ** One trace *)
Lemma sorted_snoc T c : StronglySorted tlt T -> (forall c', In c' T -> tlt c' c) -> StronglySorted tlt (T ++ [c]).
Proof.
  induction 1 as [|a T S IH F]; cbn; intros H; constructor; auto.
  - constructor.
  - apply Forall_forall. intros b Hb. apply in_app_iff in Hb as [Hb|[<-|[]]]; auto. rewrite Forall_forall in F. auto.
Qed.
Lemma in_sh q l : In (fst q - 1, snd q - 1) (map sh l) <-> In q l.
Proof.
  rewrite in_map_iff. split.
  - intros ([a b] & E & I). unfold sh in E. cbn in E. replace q with (a, b); auto. destruct q; cbn in E. injection E. intros. f_equal; lia.
  - intros I. exists q. split; auto.
Qed.

Lemma g_trace bin0 lab0 bin lab T Dn sc Dn' (sc' : point -> Prop) c x y ext cf pts s0 n fuel :
  ginv bin0 lab0 bin lab T Dn sc -> c = start ext x y -> trig c -> period n c -> (forall c', In c' T -> tlt c' c) ->
  (forall c', trig c' -> (Dn' c' <-> Dn c' \/ c' = c)) -> (forall q, sc' q -> isB q -> sc q \/ q = cpix c) ->
  conf_ok r cf bin lab -> 0 <= tc_max cf -> rank (T ++ [c]) (cpix c) (tc_label cf) ->
  ll_total s0 + Z.of_nat n + 1 < 4294967296 -> (n <= fuel)%nat -> Rps pts (s0 ++ [[]]) ->
  exists t, trace fuel cf bin lab pts x y ext = Ok t /\ ginv bin0 lab0 (tr_bin t) (tr_lab t) (T ++ [c]) Dn' sc' /\
    Rps (tr_pts t) (s0 ++ [firstn (Z.to_nat (tc_max cf)) (map sh (cpoints n c))]).
Proof.
  intros G Ec Tc Pc Ht HD Hsc Cf Hm Rk Hf Hfu Rp. pose proof dims as (Dw & Dh & _).
  pose proof (trig_crack r B w h HB c Tc) as Cc. pose proof (crack_valid r B c Cc) as Vc.
  pose proof G as [G1 G2 G3 G4 G5 G6 G7 G8 G9 G10 G11 G12 G13].
  destruct (trace_ok r B w h HB Dw Dh cf bin lab pts s0 x y ext n fuel) as (t & M & Et & Pb & Hb & Pl & Hl & Rt & Ms & Mc);
    rewrite <- ?Ec; auto.
  rewrite <- Ec in *. exists t. split; [exact Et|]. split; [|exact Rt].
  assert (forall u v, inside bin u v -> pixel (tr_bin t) u v = if in_pt (u, v) M then Some 255 else pixel bin u v) as Xb.
  { intros u v I. apply paint_pixel; auto. apply G1. }
  assert (forall q, 1 <= fst q <= w -> 1 <= snd q <= h -> pixel (tr_lab t) (fst q - 1) (snd q - 1) =
    if in_pt q (cpoints n c) then Some (tc_label cf) else pixel lab (fst q - 1) (snd q - 1)) as Xl.
  { intros q Hx Hy. rewrite (paint_pixel lab (map sh (cpoints n c)) (tc_label cf)); auto.
    - destruct (in_pt _ (map sh (cpoints n c))) as [I|I], (in_pt q (cpoints n c)) as [J|J]; auto; exfalso; [apply J, in_sh, I|apply I, in_sh, J].
    - apply G2.
    - destruct G2 as (_ & E1 & E2). split; lia. }
  assert (forall a, In a (orbit n c) -> isB (cpix a)) as Ob.
  { intros a Ha. apply (valid_B r). eapply orbit_valid; eauto. }
  pose proof (rank_range _ _ _ Rk) as Rg.
  assert (forall q, isB q -> pixel lab (fst q - 1) (snd q - 1) <> Some 0 -> pixel (tr_lab t) (fst q - 1) (snd q - 1) <> Some 0) as Kp.
  { intros q Bq Hq. pose proof (HB _ _ Bq) as [? ?]. rewrite Xl by auto. destruct (in_pt q _); auto. intros [= E]. lia. }
  assert (forall a, In a (orbit n c) -> pixel (tr_lab t) (fst (cpix a) - 1) (snd (cpix a) - 1) <> Some 0) as New.
  { intros a Ha. pose proof (HB _ _ (Ob a Ha)) as [? ?]. rewrite Xl by auto. destruct (in_pt _ _) as [|N]; [intros [= E]; lia|].
    exfalso. apply N. apply (cpoints_in r B w h HB); eauto. }
  split; auto.
  - eapply same_layout_trans; eauto. apply Pb.
  - eapply same_layout_trans; eauto. apply Pl.
  - intros j Hj. rewrite <- G5 by auto. destruct Pl as (_ & P2 & P3). apply P3. intros q Hq E. destruct (P2 q Hq) as [I _].
    rewrite (pos_layout lab0 lab) in E by auto. apply (inside_layout lab0 lab) in I; auto. now apply (Hj (fst q) (snd q)).
  - intros c'. rewrite in_app_iff, G6. cbn [In]. split.
    + intros [[X Y]|[<-|[]]]; split; auto; apply HD; auto.
    + intros [X Y]. apply HD in Y as [Y|Y]; auto.
  - now apply sorted_snoc.
  - intros u v Hu Hv Wq. rewrite Xb by (destruct G1 as (_ & E1 & E2 & _); split; lia).
    destruct (in_pt (u, v) M) as [I|I].
    + right. split; auto. exists c. split; [apply in_app_iff; right; now left|]. now apply Ms.
    + destruct (G8 u v Hu Hv Wq) as [X|[X (c' & I' & C')]]; auto. right. split; auto. exists c'. split; auto. apply in_app_iff; auto.
  - intros c' n' Ic Pc'. apply in_app_iff in Ic as [Ic|[<-|[]]].
    + destruct (G9 c' n' Ic Pc') as [X|X]; auto. left. intros a Ha Ca. specialize (X a Ha Ca).
      rewrite Xb by (eapply pixel_Some; eauto). destruct (in_pt _ M); auto.
    + assert (n' = n) as -> by (eapply period_unique; eauto). destruct Mc as [X|X]; auto. left. intros a Ha Ca.
      specialize (X a Ha Ca). rewrite Xb by (eapply paint_inside; eauto). rewrite <- surjective_pairing. destruct (in_pt _ M); tauto.
  - intros q Bq. pose proof (HB _ _ Bq) as [? ?]. rewrite Xl by auto. destruct (in_pt q (cpoints n c)) as [I|I].
    + exists (tc_label cf). split; auto. right. eapply rank_conn; [exact Rk|].
      apply (cpoints_in r B w h HB) in I as (a & Ha & <-); auto. eapply orbit_conn_B; eauto.
    + destruct (G10 q Bq) as (v & V & [->|X]); eauto. exists v. split; auto. right. now apply rank_app.
  - intros u v Hu Hv Wq. pose proof (Xl (u, v)) as X. cbn [fst snd] in X. rewrite X by auto. destruct (in_pt _ _) as [I|I]; auto.
    exfalso. apply (cpoints_in r B w h HB) in I as (a & Ha & E); auto. apply Ob in Ha. rewrite E in Ha. unfold L_Crack.isB in Ha; cbn in Ha. congruence.
  - intros c' n' a Ic Pc' Ia. apply in_app_iff in Ic as [Ic|[<-|[]]].
    + apply Kp; [|eapply G12; eauto]. apply (valid_B r). apply G6 in Ic as [Tc' _].
      eapply (orbit_valid r B n' c'); auto. apply crack_valid. now apply (trig_crack r B w h HB).
    + assert (n' = n) as -> by (eapply period_unique; eauto). auto.
  - intros q Sq Bq. destruct (Hsc q Sq Bq) as [X| ->]; [now apply Kp; [|apply G13]|]. apply New. now apply orbit_self.
Qed.

(** ** The state of the scan *)
Variable st : labeler.
Hypothesis Hrule : lb_rule st = r.
Hypothesis Hmax : 0 <= lb_max st.
Variables bin0 lab0 : gray Z.
Variables ob ol : list Z.
Hypothesis Hob : table r ob (g_stride bin0).
Hypothesis Hol : table r ol (g_stride lab0).
Variable fuel : nat.
Hypothesis Hfuel : 4 * w * h <= Z.of_nat fuel.

(** What is stored for the contour that starts at [c]. *)
Definition stored (c : crack) (l : list point) : Prop :=
  exists n, period n c /\
    l = if isU c || lb_save st then kept (lb_min st) (lb_max st) (map sh (cpoints n c)) else [].

Record linv (s : scan) (T : list crack) (Dn : crack -> Prop) (sc : point -> Prop) : Prop := {
  ln_g : ginv bin0 lab0 (sc_bin s) (sc_lab s) T Dn sc;
  ln_con : conrel T (sc_con s);
  ln_pts : exists ls, Rps (sc_pts s) ls /\ Forall2 stored T ls }.

Lemma stored_total T ls c n : Forall2 stored T ls -> NoDup (T ++ [c]) -> (forall a, In a (T ++ [c]) -> trig a) -> period n c ->
  ll_total ls + Z.of_nat n <= 4 * w * h.
Proof.
  intros F N H P.
  pose proof (total_len (T ++ [c]) (ls ++ [repeat (0, 0) n])) as X. rewrite ll_total_app, ll_total_1, zlen_repeat in X.
  replace (Z.max 0 (Z.of_nat n)) with (Z.of_nat n) in X by lia. apply X; auto. apply Forall2_app.
  - clear X N H. induction F as [|a l T ls (m & Pm & ->) F IH]; constructor; auto. exists m. split; auto.
    assert (zlen (map sh (cpoints m a)) <= Z.of_nat m) as Lm.
    { unfold zlen. rewrite map_length. destruct Pm as (Pm & _). pose proof (cpoints_len r B w h HB m a Pm). lia. }
    destruct (_ || _); [|change (zlen (@nil (Z * Z))) with 0; lia]. pose proof (kept_len (lb_min st) (lb_max st) (map sh (cpoints m a))). lia.
  - constructor; [|constructor]. exists n. split; auto. rewrite zlen_repeat. lia.
Qed.

Lemma l_trace s T Dn sc Dn' (sc' : point -> Prop) c x y ext v :
  linv s T Dn sc -> c = start ext x y -> trig c -> (forall c', In c' T -> tlt c' c) ->
  (forall c', trig c' -> (Dn' c' <-> Dn c' \/ c' = c)) -> (forall q, sc' q -> isB q -> sc q \/ q = cpix c) ->
  rank (T ++ [c]) (cpix c) v ->
  exists p1 t p2, ps_start (sc_pts s) = Ok p1 /\
    trace fuel (mkTC r ob ol v (if isU c || lb_save st then lb_max st else 0)) (sc_bin s) (sc_lab s) p1 x y ext = Ok t /\
    limit_tail (lb_min st) (lb_max st) (tr_pts t) = Ok p2 /\
    ginv bin0 lab0 (tr_bin t) (tr_lab t) (T ++ [c]) Dn' sc' /\
    exists ls, Rps p2 ls /\ Forall2 stored (T ++ [c]) ls.
Proof.
  intros [G _ (ls & Rls & F)] Ec Tc Ht HD Hsc Rk. pose proof dims as (Dw & Dh & Df & _).
  destruct (ps_start_ok _ _ Rls) as (p1 & E1 & R1). exists p1.
  destruct (trig_period c Tc) as (n & Pn & Hn). pose proof G as [G1 G2 G3 G4 G5 G6 G7 _ _ _ _ _ _].
  assert (NoDup (T ++ [c])) as Nd by (apply sorted_nodup, sorted_snoc; auto).
  assert (forall a, In a (T ++ [c]) -> trig a) as At.
  { intros a Ha. apply in_app_iff in Ha as [Ha|[<-|[]]]; auto. now apply G6 in Ha. }
  pose proof (stored_total T ls c n F Nd At Pn) as Tot.
  set (m := if isU c || lb_save st then lb_max st else 0).
  destruct (g_trace bin0 lab0 (sc_bin s) (sc_lab s) T Dn sc Dn' sc' c x y ext (mkTC r ob ol v m) p1 ls n fuel)
    as (t & Et & Gt & Rt); auto; cbn.
  { split; cbn; auto.
    - destruct G3 as (_ & _ & _ & E & _). now rewrite E.
    - destruct G4 as (_ & _ & _ & E & _). now rewrite E. }
  { unfold m. destruct (_ || _); lia. }
  { lia. }
  { lia. }
  exists t. cbn [tc_max] in Rt. destruct (limit_ok (lb_min st) (lb_max st) m (tr_pts t) ls (map sh (cpoints n c)) Rt) as (p2 & E2 & R2); auto.
  { unfold m. destruct (_ || _); auto. }
  exists p2. split; [exact E1|]. split; [exact Et|]. split; [exact E2|]. split; [exact Gt|].
  eexists. split; [exact R2|]. apply Forall2_app; auto. constructor; [|constructor]. exists n. split; auto. unfold m.
  destruct (isU c || lb_save st); [now rewrite Z.eqb_refl|]. destruct (Z.eqb_spec 0 (lb_max st)) as [E|E]; auto.
  unfold kept. rewrite <- E. pose proof (zlen_nonneg (map sh (cpoints n c))). now replace (0 <=? zlen (map sh (cpoints n c))) with true by lia.
Qed.

(** ** One pixel of the scan *)
Lemma ginv_ext bin lab T Dn sc (Dn' : crack -> Prop) (sc' : point -> Prop) : ginv bin0 lab0 bin lab T Dn sc ->
  (forall c, trig c -> (Dn' c <-> Dn c)) -> (forall q, isB q -> sc' q -> pixel lab (fst q - 1) (snd q - 1) <> Some 0) ->
  ginv bin0 lab0 bin lab T Dn' sc'.
Proof.
  intros [G1 G2 G3 G4 G5 G6 G7 G8 G9 G10 G11 G12 G13] H1 H2. split; auto.
  intros c. rewrite G6. split; intros [X Y]; (split; [auto|now apply H1]).
Qed.
Lemma g_label bin lab T Dn sc p l : ginv bin0 lab0 bin lab T Dn sc -> isB p -> rank T p l ->
  exists d, bset (g_data lab) (pos lab (fst p - 1) (snd p - 1)) l = Ok d /\
    ginv bin0 lab0 bin (with_data lab d) T Dn (fun q => sc q \/ q = p).
Proof.
  intros [G1 G2 G3 G4 G5 G6 G7 G8 G9 G10 G11 G12 G13] Bp Rk. pose proof (HB _ _ Bp) as [Px Py]. destruct G2 as (W2 & E1 & E2).
  destruct (paint_one lab (fst p - 1) (snd p - 1) l W2) as (d & Ed & Pd); [split; lia|]. exists d. split; auto.
  pose proof Pd as (Ld & _). pose proof (rank_range _ _ _ Rk) as Rg.
  assert (forall q, 1 <= fst q <= w -> 1 <= snd q <= h ->
    pixel (with_data lab d) (fst q - 1) (snd q - 1) = if in_pt q [p] then Some l else pixel lab (fst q - 1) (snd q - 1)) as X.
  { intros q Hx Hy. rewrite (paint_pixel lab [(fst p - 1, snd p - 1)] l) by (auto; split; lia).
    destruct (in_pt _ [(fst p - 1, snd p - 1)]) as [[I|[]]|I], (in_pt q [p]) as [[J|[]]|J]; auto; exfalso.
    - apply J. left. destruct p, q; cbn in *. injection I. intros. f_equal; lia.
    - apply I. left. now subst q. }
  assert (forall q, isB q -> pixel lab (fst q - 1) (snd q - 1) <> Some 0 -> pixel (with_data lab d) (fst q - 1) (snd q - 1) <> Some 0) as K.
  { intros q Bq H. pose proof (HB _ _ Bq) as [? ?]. rewrite X by auto. destruct (in_pt q [p]); auto. intros [= E]. lia. }
  split; auto.
  - split; [now apply (wf_layout lab)|]. destruct Ld as (D1 & D2 & _). now rewrite D1, D2.
  - eapply same_layout_trans; eauto.
  - intros j Hj. rewrite <- G5 by auto. destruct Pd as (_ & P2 & P3). apply P3. intros q Hq E. destruct (P2 q Hq) as [I _].
    rewrite (pos_layout lab0 lab) in E by auto. apply (inside_layout lab0 lab) in I; auto. now apply (Hj (fst q) (snd q)).
  - intros q Bq. pose proof (HB _ _ Bq) as [? ?]. rewrite X by auto. destruct (in_pt q [p]) as [[<-|[]]|_]; [eauto|]. apply G10; auto.
  - intros u v Hu Hv Wq. specialize (X (u, v)). cbn [fst snd] in X. rewrite X by auto. destruct (in_pt _ _) as [[-> |[]]|_]; auto.
    unfold L_Crack.isB in Bp; cbn in Bp. congruence.
  - intros c n a Ic Pc Ia. apply K; [|eapply G12; eauto]. apply (valid_B r). apply G6 in Ic as [Tc' _].
    eapply (orbit_valid r B n c); auto. apply crack_valid. now apply (trig_crack r B w h HB).
  - intros q [Sq| ->] Bq; [now apply K; [|apply G13]|]. rewrite X by auto.
    destruct (in_pt p [p]) as [|I]; [intros [= E]; lia|]. exfalso. apply I. now left.
Qed.

Lemma bget_pixel (g : gray Z) x y v : pixel g x y = Some v -> bget (g_data g) (pos g x y) = Ok v.
Proof. intros E. apply bget_Ok. pose proof (pixel_Some _ _ _ _ E). now rewrite pixel_inside in E. Qed.
Lemma bget_at0 (g0 g : gray Z) x y v : same_layout g0 g -> pixel g x y = Some v -> bget (g_data g) (pos g0 x y) = Ok v.
Proof. intros L E. rewrite <- (pos_layout g0 g) by auto. now apply bget_pixel. Qed.
Lemma bget_at (g0 g : gray Z) x y v i : same_layout g0 g -> wf g -> pixel g x y = Some v ->
  i = pos g0 x y -> bget (g_data g) (u32 i) = Ok v.
Proof.
  intros L W E ->. rewrite <- (pos_layout g0 g) by auto. pose proof (wf_pos g x y W (pixel_Some _ _ _ _ E)).
  pose proof W as (_ & _ & _ & _ & Z & _). rewrite u32_id by lia. now apply bget_pixel.
Qed.

Lemma linv_con_len s T Dn sc : linv s T Dn sc -> zlen (sc_con s) = zlen (Us T) /\ zlen T <= 2 * w * h /\ zlen (Us T) <= zlen T.
Proof.
  intros [G C _]. split; [now apply conrel_len|]. split; [|apply Us_len]. apply T_len; [apply sorted_nodup; apply G|].
  intros c Hc. now apply (gi_T _ _ _ _ _ _ _ G) in Hc.
Qed.
Lemma linv_pts_len s T Dn sc : linv s T Dn sc -> zlen (ps_info (sc_pts s)) = zlen T.
Proof.
  intros [_ _ (ls & R & F)]. destruct R as (_ & _ & _ & _ & _ & _ & I). rewrite (infos_len _ _ _ _ I).
  clear - F. induction F as [|c l T ls _ _ IH]; auto. now rewrite !zlen_cons, IH.
Qed.

Section Pixel.
Variables x y : Z.
Hypothesis Hx : 1 <= x <= w.
Hypothesis Hy : 1 <= y <= h.
Let p : point := (x, y).
Let Dn0 (c : crack) : Prop := before (cpix c) p.
Let Dn1 (c : crack) : Prop := before (cpix c) p \/ (cpix c = p /\ isU c = true).
Let Dn2 (c : crack) : Prop := before (cpix c) p \/ cpix c = p.
Let sc0 (q : point) : Prop := before q p.
Let sc2 (q : point) : Prop := before q p \/ q = p.

Lemma small : 2 * w * h < 2147483647.
Proof. nia. Qed.

Lemma step1_ok s T : linv s T Dn0 sc0 -> trig (Ck x y U) ->
  exists s1, step1 fuel st ob ol x y s = Ok s1 /\ linv s1 (T ++ [Ck x y U]) Dn1 sc2 /\
    rank (T ++ [Ck x y U]) p (u32 (zlen (sc_con s1))).
Proof.
  intros Ln Tc. pose proof (linv_con_len _ _ _ _ Ln) as (Lc & Lt & Lu). pose proof (linv_pts_len _ _ _ _ Ln) as Lp. pose proof small.
  pose proof (zlen_nonneg (sc_con s)). pose proof (zlen_nonneg T).
  assert (rank (T ++ [Ck x y U]) p (zlen (sc_con s) + 1)) as Rk.
  { exists (Ck x y U). rewrite Us_app, znth_app_r by lia. replace (_ - _ - _) with 0 by lia. split; [reflexivity|].
    apply conn_refl. apply (trig_black r B _ Tc). }
  destruct (l_trace s T Dn0 sc0 Dn1 sc2 (Ck x y U) x y true (zlen (sc_con s) + 1) Ln) as (p1 & t & p2 & E1 & E2 & E3 & G & Ls); auto.
  { intros c' Ic. apply (gi_T _ _ _ _ _ _ _ (ln_g _ _ _ _ Ln)) in Ic as [_ Dc]. left. exact Dc. }
  { intros c' Tc'. unfold Dn1, Dn0. cbn [cpix]. split.
    - intros [X|[X Y]]; auto. right. destruct c' as [u v []]; try discriminate. injection X as -> ->. reflexivity.
    - intros [X| ->]; auto. }
  unfold step1. rewrite E1. cbn [bind]. rewrite Hrule, (u32_id (zlen (sc_con s) + 1)), s32_id by lia.
  cbn [isU orb] in E2. rewrite E2. cbn [bind]. rewrite E3. cbn [bind].
  eexists. split; [reflexivity|]. cbn [sc_con]. rewrite zlen_app. change (zlen [_]) with 1. rewrite u32_id by lia. split; auto.
  unfold ps_count. rewrite Lp, u32_id by lia. split; cbn; auto. apply cr_ext; auto. apply Ln.
Qed.

Lemma left_label s T sc Dn : linv s T Dn sc -> (forall q, before q p -> sc q) -> isB p -> isB (x - 1, y) ->
  exists v, pixel (sc_lab s) (x - 2) (y - 1) = Some v /\ rank T p v.
Proof.
  intros [G _ _] Hsc Bp Bl. destruct (gi_black _ _ _ _ _ _ _ G _ Bl) as (v & V & X). cbn [fst snd] in V.
  replace (x - 1 - 1) with (x - 2) in V by lia. exists v. split; auto. destruct X as [->|X].
  - exfalso. apply (gi_scanned _ _ _ _ _ _ _ G (x - 1, y)); auto; cbn [fst snd]; [apply Hsc; right; cbn; lia|].
    now replace (x - 1 - 1) with (x - 2) by lia.
  - eapply rank_conn; [exact X|]. eapply conn_step; [now apply conn_refl| |exact Bp]. apply (adj4_adj r B w h HB). unfold adj4, p; cbn. lia.
Qed.

Lemma step2_ok s T sc label : linv s T Dn1 sc -> (forall q, before q p -> sc q) -> (forall q, sc q -> before q p \/ q = p) ->
  trig (Ck x y D) ->
  (label = 0 /\ isB (x - 1, y)) \/ rank T p label ->
  exists s2, step2 fuel st ob ol x y (pos lab0 (x - 1) (y - 1)) label s = Ok s2 /\ linv s2 (T ++ [Ck x y D]) Dn2 sc2.
Proof.
  intros Ln Hs Hs' Tc Hl. pose proof (linv_con_len _ _ _ _ Ln) as (Lc & Lt & Lu). pose proof (linv_pts_len _ _ _ _ Ln) as Lp. pose proof small.
  pose proof (zlen_nonneg T). pose proof (trig_black r B _ Tc) as Bp. cbn [cpix] in Bp.
  assert (exists lb, (if label =? 0 then let* v := bget (g_data (sc_lab s)) (u32 (pos lab0 (x - 1) (y - 1) - 1)) in Ok (u32 v) else Ok label)
    = Ok lb /\ rank T p lb) as (lb & El & Rk).
  { destruct Hl as [[-> Bl]|Rk].
    - destruct (left_label s T sc Dn1 Ln) as (v & V & Rv); auto. exists v. split; auto. cbn [Z.eqb].
      pose proof (ln_g _ _ _ _ Ln) as G. rewrite (bget_at lab0 (sc_lab s) (x - 2) (y - 1) v); auto.
      + cbn [bind]. apply rank_range in Rv. now rewrite u32_id by lia.
      + apply G.
      + apply G.
      + unfold pos. lia.
    - exists label. split; auto. apply rank_range in Rk. now destruct (Z.eqb_spec label 0) as [E|_]; [lia|]. }
  pose proof (rank_range _ _ _ Rk) as Rg.
  destruct (znth_in_range (sc_con s) (lb - 1)) as [co Eco]; [lia|].
  destruct (l_trace s T Dn1 sc Dn2 sc2 (Ck x y D) x y false lb Ln) as (p1 & t & p2 & E1 & E2 & E3 & G & Ls); auto.
  { intros c' Ic. apply (gi_T _ _ _ _ _ _ _ (ln_g _ _ _ _ Ln)) in Ic as [_ [Dc|[E Eu]]]; [left; exact Dc|right; auto]. }
  { intros c' Tc'. unfold Dn1, Dn2. cbn [cpix]. split.
    - intros [X|X]; auto. destruct c' as [u v o]. injection X as -> ->. destruct o; cbn in Tc'; try tauto; auto.
    - intros [[X|[X Y]]| ->]; auto. }
  { intros q [Sq|Sq] _; auto. }
  { now apply rank_app. }
  unfold step2. rewrite El. cbn [bind]. unfold push_internal. rewrite (u32_id (lb - 1)), Eco by lia. cbn [bind].
  rewrite E1. cbn [bind]. rewrite Hrule, s32_id by lia. cbn [isU orb] in E2. rewrite E2. cbn [bind]. rewrite E3. cbn [bind].
  eexists. split; [reflexivity|]. rewrite Lp, u32_id by lia. split; cbn; auto.
  apply cr_int; auto. apply Ln.
Qed.

Lemma scan_pixel_ok s T : linv s T Dn0 sc0 ->
  exists s' T', scan_pixel fuel st ob ol x y (pos bin0 x y) (pos lab0 (x - 1) (y - 1)) s = Ok s' /\ linv s' T' Dn2 sc2.
Proof.
  intros Ln. pose proof Ln as [G C P]. pose proof (gi_bin _ _ _ _ _ _ _ G) as (Wb & Ew & Eh & Rd). pose proof small.
  pose proof (linv_con_len _ _ _ _ Ln) as (Lc & Lt & Lu).
  assert (wf (sc_lab s)) as Wl by apply G.
  unfold scan_pixel. destruct (Rd x y) as (v & V & Ev); [lia..|].
  rewrite (bget_at0 bin0 (sc_bin s) x y v) by (auto; apply G). cbn [bind]. rewrite Ev.
  destruct (B x y) eqn:Bxy; cbn [negb].
  2:{ exists s, T. split; auto. split; auto. apply (ginv_ext _ _ _ Dn0 sc0); auto.
      - intros c Tc. unfold Dn0, Dn2. split; auto. intros [X|X]; auto. exfalso. apply trig_black in Tc. rewrite X in Tc.
        unfold L_Crack.isB, p in Tc; cbn in Tc. congruence.
      - intros q Bq [X|X]; [apply (gi_scanned _ _ _ _ _ _ _ G); auto|]. subst q. unfold L_Crack.isB, p in Bq; cbn in Bq. congruence. }
  assert (isB p) as Bp by exact Bxy.
  destruct (gi_black _ _ _ _ _ _ _ G p Bp) as (l & El & Hl). cbn [fst snd p] in El.
  rewrite (bget_at0 lab0 (sc_lab s) (x - 1) (y - 1) l) by (auto; apply G). cbn [bind].
  assert (u32 l = l) as Ul.
  { destruct Hl as [->|Hl]; [reflexivity|]. apply rank_range in Hl. apply u32_id. lia. }
  rewrite Ul.
  destruct (Rd x (y - 1)) as (vu & Vu & Eu); [lia..|].
  assert (pos bin0 x y - g_stride (sc_bin s) = pos bin0 x (y - 1)) as Pu.
  { pose proof (gi_lbin _ _ _ _ _ _ _ G) as (_ & _ & _ & -> & _). unfold pos. lia. }
  rewrite (bget_at bin0 (sc_bin s) x (y - 1) vu) by (auto; apply G). cbn [bind]. rewrite Eu.
  pose proof (decide1 bin0 lab0 (sc_bin s) (sc_lab s) T p Bp G) as D1. cbn [fst snd p] in D1.
  set (one := if l =? 0 then negb (B x (y - 1)) else false).
  assert ((if l =? 0 then Ok (negb (B x (y - 1))) else Ok false) = Ok one) as -> by (unfold one; now destruct (l =? 0)).
  cbn [bind].
  assert (one = true <-> trig (Ck x y U)) as One.
  { rewrite <- D1. unfold one. rewrite El. destruct (Z.eqb_spec l 0) as [->|Nl].
    - unfold L_Crack.isW; cbn [fst snd]. destruct (B x (y - 1)); cbn [negb]; split; auto; intros; try discriminate. destruct H0; discriminate.
    - split; [discriminate|]. intros [[= E] _]. congruence. }
  (* first step *)
  assert (exists s1 T1, (if one then step1 fuel st ob ol x y s else Ok s) = Ok s1 /\
    linv s1 T1 Dn1 (fun q => before q p \/ (one = true /\ q = p)) /\
    ((if one then u32 (zlen (sc_con s1)) else l) = 0 /\ isB (x - 1, y) \/ rank T1 p (if one then u32 (zlen (sc_con s1)) else l)) /\
    (one = false -> s1 = s)) as (s1 & T1 & E1 & Ln1 & Hl1 & Hs1).
  { destruct one eqn:Eo.
    - destruct (step1_ok s T Ln (proj1 One eq_refl)) as (s1 & E1 & L1 & R1). exists s1, (T ++ [Ck x y U]). split; auto. split.
      + destruct L1 as [L1 L2 L3]. split; auto. apply (ginv_ext _ _ _ Dn1 sc2); auto; [tauto|].
        intros q Bq Hq. apply (gi_scanned _ _ _ _ _ _ _ L1); auto. destruct Hq as [|[_ ->]]; [left|right]; auto.
      + split; auto. discriminate.
    - exists s, T. split; auto. split.
      + split; auto. apply (ginv_ext _ _ _ Dn0 sc0); auto.
        * intros c Tc. unfold Dn0, Dn1. split; auto. intros [X|[X Y]]; auto. exfalso. destruct c as [a b []]; try discriminate. injection X as -> ->.
          apply One in Tc. discriminate.
        * intros q Bq [X|[X _]]; [|discriminate]. apply (gi_scanned _ _ _ _ _ _ _ G); auto.
      + split; auto. destruct Hl as [->|Hl]; auto. left. split; auto.
        pose proof (decide3 bin0 lab0 (sc_bin s) (sc_lab s) T p Bp G) as D3. cbn [fst snd p] in D3. apply D3; auto.
        unfold one in Eo. cbn in Eo. now apply negb_false_iff in Eo. }
  rewrite E1. cbn [bind]. pose proof (ln_g _ _ _ _ Ln1) as G1.
  pose proof (gi_bin _ _ _ _ _ _ _ G1) as (Wb1 & _ & _ & Rd1).
  destruct (Rd1 x (y + 1)) as (vd & Vd & Ed); [lia..|].
  assert (pos bin0 x y + g_stride (sc_bin s1) = pos bin0 x (y + 1)) as Pd.
  { pose proof (gi_lbin _ _ _ _ _ _ _ G1) as (_ & _ & _ & -> & _). unfold pos. lia. }
  rewrite (bget_at bin0 (sc_bin s1) x (y + 1) vd) by (auto; apply G1). cbn [bind].
  pose proof (decide2 bin0 lab0 (sc_bin s1) (sc_lab s1) T1 p Bp _ G1) as D2. cbn [fst snd p] in D2.
  destruct (Z.eqb_spec vd 0) as [->|Nd].
  - destruct (step2_ok s1 T1 _ _ Ln1 ltac:(tauto) ltac:(tauto) (proj1 D2 Vd) Hl1) as (s2 & E2 & L2).
    rewrite E2. cbn [bind]. rewrite orb_true_r. eauto.
  - cbn [bind]. rewrite orb_false_r.
    assert (forall c, trig c -> Dn2 c <-> Dn1 c) as D12.
    { intros c Tc. unfold Dn1, Dn2. split; [|tauto]. intros [X|X]; auto. right. split; auto. destruct c as [a b o]. injection X as -> ->.
      destruct o; cbn in Tc; try tauto; auto. apply D2 in Tc. rewrite Vd in Tc. injection Tc. congruence. }
    destruct one eqn:Eo.
    + exists s1, T1. split; auto. destruct Ln1 as [_ L2 L3]. split; auto. apply (ginv_ext _ _ _ _ _ _ _ G1); auto.
      intros q Bq Hq. apply (gi_scanned _ _ _ _ _ _ _ G1); auto. destruct Hq; auto.
    + rewrite (Hs1 eq_refl) in *. clear Hs1. unfold step3.
      rewrite (bget_at0 lab0 (sc_lab s) (x - 1) (y - 1) l) by (auto; apply G). cbn [bind].
      destruct (Z.eqb_spec l 0) as [->|Nl].
      * destruct Hl1 as [[_ Bl]|X]; [|apply rank_range in X; lia].
        destruct (left_label s T1 _ _ Ln1) as (v' & V' & Rv); auto.
        rewrite (bget_at lab0 (sc_lab s) (x - 2) (y - 1) v') by (auto; try apply G; unfold pos; lia). cbn [bind].
        destruct (g_label _ _ _ _ _ p v' G1 Bp Rv) as (d & Eb & Gd). cbn [fst snd p] in Eb. rewrite (pos_layout lab0) in Eb by apply G.
        rewrite Eb. cbn [bind]. eexists _, T1. split; [reflexivity|]. destruct Ln1 as [_ L2 L3]. split; auto. cbn.
        apply (ginv_ext _ _ _ _ _ _ _ Gd); auto. intros q Bq Hq. apply (gi_scanned _ _ _ _ _ _ _ Gd); auto. destruct Hq; auto.
      * exists s, T1. split; auto. destruct Ln1 as [_ L2 L3]. split; auto. apply (ginv_ext _ _ _ _ _ _ _ G1); auto.
        intros q Bq [X| ->]; [apply (gi_scanned _ _ _ _ _ _ _ G1); auto|]. cbn [fst snd p]. rewrite El. congruence.
Qed.
End Pixel.
End Label.

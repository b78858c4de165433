(** The contours of an image determine the image. *)
From Verif Require Import Base BaseFacts M_Image S_Image L_Image M_PackedSet S_PackedSet L_PackedSet
  M_Contour S_Contour S_Stats L_Crack L_Cycle L_Step L_Trace L_Trig L_Label L_Scan L_Hole L_Contour S_Redraw L_ContourEx.
From Coq Require Import Lia Sorted Wellfounded.

Section One.
Variables (st : labeler) (g lab0 : gray Z) (st' : labeler) (lab' : gray Z) (T : list crack) (ls : list (list point)).
Hypothesis Wg : wf g.
Hypothesis Sz : 4 * (g_width g + 2) * (g_height g + 2) < 4294967296.
Hypothesis Ro : run_ok st g lab0 st' lab' T ls.
Hypothesis Un : unlimited st.
Notation r := (lb_rule st). Notation B := (pic g).

Lemma full_stored i c : znth T i = Some c -> exists n, period r B n c /\ has_points st' i (map sh (cpoints r B n c)).
Proof.
  intros Zc. destruct (run_stored _ _ _ _ _ _ _ Wg Sz Ro i c Zc) as (n & Pn & H). exists n. split; auto.
  destruct Un as (U1 & U2 & U3). rewrite U1, U2, U3, Bool.orb_true_r in H. rewrite limited_all in H; auto.
  assert (trig r B c) as Tc by (apply (ro_T _ _ _ _ _ _ _ Ro); eapply znth_In; eauto).
  destruct (trig_period r B _ _ (pic_dims g) c Tc) as (m & Pm & Lm). assert (m = n) as -> by (eapply period_unique; eauto).
  assert (zlen (map sh (cpoints r B n c)) <= Z.of_nat n) as L.
  { unfold zlen. rewrite map_length. apply inj_le. apply (cpoints_len _ _ _ _ (pic_dims g)). now destruct Pn. }
  destruct (sizes g Wg Sz) as (Dw & Dh & Dm). nia.
Qed.
Lemma stored_trig i l : has_points st' i l -> exists c n, znth T i = Some c /\ trig r B c /\ period r B n c /\ l = map sh (cpoints r B n c).
Proof.
  intros H. pose proof H as [Ri _]. rewrite (run_count _ _ _ _ _ _ _ Wg Sz Ro) in Ri. destruct (znth_in_range T i Ri) as (c & Zc).
  destruct (full_stored i c Zc) as (n & Pn & H'). exists c, n. split; auto. split; [|split; auto; eapply has_unique; eauto].
  apply (ro_T _ _ _ _ _ _ _ Ro). eapply znth_In; eauto.
Qed.

Lemma edge_drawn u : drawn st' u <-> fg g u /\ exists v, bg g v /\ adj_bg r u v.
Proof.
  split.
  - intros (i & l & H & I). destruct (stored_trig i l H) as (c & n & Zc & Tc & Pn & ->).
    apply in_map_sh in I. pose proof (trig_crack r B _ _ (pic_dims g) _ Tc) as Ct. pose proof (crack_valid r B _ Ct) as Vc.
    apply (cpoints_in r B _ _ (pic_dims g) n c _ Vc Pn) in I. apply (orbit_pixels r B n c Ct Pn) in I as (I & v & V & A).
    split; [apply fg_pic; now apply conn_right in I|]. exists (sh v). rewrite bg_pic, adj_bg_up, up_sh. split; auto. now apply conn_right in V.
  - intros (F & v & V & A). apply fg_pic in F. apply bg_pic in V. apply adj_bg_up in A.
    destruct (touch_side r B _ _ (pic_dims g) (up u) (up v) F V A) as (a & Ca & C1 & C2).
    destruct (side_trig r B _ _ (pic_dims g) a Ca) as (n & t & Tt & Pt & It).
    pose proof (trig_crack r B _ _ (pic_dims g) t Tt) as Ct. pose proof (crack_valid r B _ Ct) as Vt.
    pose proof (orbit_conn_B r B n t Ct a It) as CB. pose proof (orbit_conn_W r B n t Ct a It) as CW. rewrite wpt_crack in CW by auto.
    assert (In t T) as Hin by (now apply (ro_T _ _ _ _ _ _ _ Ro)). apply In_nth_error in Hin as (k & Ek).
    assert (znth T (Z.of_nat k) = Some t) as Zk. { unfold znth. replace (_ <? 0) with false by lia. now rewrite Nat2Z.id. }
    destruct (full_stored _ _ Zk) as (m & Pm & H). assert (m = n) as -> by (eapply period_unique; eauto).
    exists (Z.of_nat k), (map sh (cpoints r B n t)). split; auto. apply in_map_sh.
    apply (cpoints_in r B _ _ (pic_dims g) n t _ Vt Pt). apply (orbit_pixels r B n t Ct Pt). split.
    + refine (conn_trans CB _). eapply conn_sym; eauto. apply adj_sym.
    + exists (up v). split; auto. refine (conn_trans CW _). eapply conn_sym; eauto. apply adj_bg_sym.
Qed.

Lemma ext_iff i c : znth T i = Some c -> (isU c = true <-> exists co, In co (lb_contours st') /\ co_ext co = i).
Proof.
  intros Zc. pose proof (run_functional _ _ _ _ _ _ _ Ro) as Fn.
  pose proof (conrel_spec _ _ _ _ (ro_con _ _ _ _ _ _ _ Ro) Fn) as Sp. split.
  - intros Uc. pose proof (znth_Some_range _ _ _ Zc). pose proof (run_count _ _ _ _ _ _ _ Wg Sz Ro).
    destruct (run_owner _ _ _ _ _ _ _ Wg Sz Ro i ltac:(lia)) as (k & co & Zk & [O|O] & _); exists co; (split; [eapply znth_In; eauto|auto]).
    destruct (Sp k co Zk) as (_ & _ & _ & S4). apply S4 in O as (c' & Zc' & U' & _). congruence.
  - intros (co & I & <-). apply In_nth_error in I as (k & Ek).
    assert (znth (lb_contours st') (Z.of_nat k + 1 - 1) = Some co) as Zk.
    { unfold znth. replace (_ <? 0) with false by lia. now replace (Z.to_nat (Z.of_nat k + 1 - 1)) with k by lia. }
    destruct (Sp _ co Zk) as (_ & (c' & S2 & S3) & _). rewrite Zc in S2. injection S2 as <-. apply znth_In, Us_in in S3. tauto.
Qed.

(** The inner contours: those that start above the first pixel of a space below a foreground pixel. *)
Lemma inner_set x y : fg g (x, y - 1) -> first_of (adj_bg r) (isW B) (up (x, y)) ->
  exists i l, has_points st' i ((x, y - 1) :: l) /\ ~ exists co, In co (lb_contours st') /\ co_ext co = i.
Proof.
  intros F H. apply fg_pic in F. cbn in F, H. unfold up in F, H; cbn [fst snd] in F, H. replace (y - 1 + 1) with y in F by lia.
  assert (trig r B (Ck (x + 1) y D)) as Tc by (split; auto).
  assert (In (Ck (x + 1) y D) T) as Hin by (now apply (ro_T _ _ _ _ _ _ _ Ro)). apply In_nth_error in Hin as (k & Ek).
  assert (znth T (Z.of_nat k) = Some (Ck (x + 1) y D)) as Zk. { unfold znth. replace (_ <? 0) with false by lia. now rewrite Nat2Z.id. }
  destruct (full_stored _ _ Zk) as (n & Pn & Hp). exists (Z.of_nat k).
  assert (L_Crack.valid r B (Ck (x + 1) y D) = true) as Vc by (apply crack_valid, (trig_crack r B _ _ (pic_dims g) _ Tc)).
  destruct (cpoints_walk r B n _ Vc Pn) as (t & Et & _).
  exists (map sh t). split.
  - rewrite Et in Hp. cbn [map cpix] in Hp. unfold sh in Hp at 1. cbn [fst snd] in Hp. now replace (x + 1 - 1) with x in Hp by lia.
  - intros X. apply (ext_iff _ _ Zk) in X. discriminate.
Qed.
Lemma inner_head i p l : has_points st' i (p :: l) -> (~ exists co, In co (lb_contours st') /\ co_ext co = i) -> bg g (fst p, snd p + 1).
Proof.
  intros H N. destruct (stored_trig _ _ H) as (c & n & Zc & Tc & Pn & E).
  pose proof (trig_crack r B _ _ (pic_dims g) c Tc) as Ct. pose proof (crack_valid r B _ Ct) as Vc.
  destruct (cpoints_walk r B n _ Vc Pn) as (t & Et & _). rewrite Et in E. cbn [map] in E. injection E as -> _.
  destruct c as [cx cy []]; cbn [L_Trig.trig] in Tc; try tauto.
  - apply bg_pic. unfold sh, up; cbn. apply crack_iff in Ct as [_ Ct]. cbn in Ct. now replace (cx - 1 + 1) with cx by lia; replace (cy - 1 + 1 + 1) with (cy + 1) by lia.
  - exfalso. apply N. now apply (ext_iff _ _ Zc).
Qed.
End One.

Section Two.
Variables (st1 st2 : labeler) (g1 g2 l1 l2 : gray Z) (st1' st2' : labeler) (lab1 lab2 : gray Z) (T1 T2 : list crack) (ls1 ls2 : list (list point)).
Hypothesis W1 : wf g1.
Hypothesis W2 : wf g2.
Hypothesis Z1 : 4 * (g_width g1 + 2) * (g_height g1 + 2) < 4294967296.
Hypothesis Z2 : 4 * (g_width g2 + 2) * (g_height g2 + 2) < 4294967296.
Hypothesis R1 : run_ok st1 g1 l1 st1' lab1 T1 ls1.
Hypothesis R2 : run_ok st2 g2 l2 st2' lab2 T2 ls2.
Hypothesis U1 : unlimited st1.
Hypothesis U2 : unlimited st2.
Hypothesis Er : lb_rule st1 = lb_rule st2.
Hypothesis Same : same_report st1' st2'.

Lemma drawn_same p : drawn st1' p <-> drawn st2' p.
Proof. destruct Same as [_ S]. unfold drawn. split; intros (i & l & H & I); exists i, l; (split; [now apply S|auto]). Qed.
Lemma fg_decides g p : fg g p \/ bg g p.
Proof. rewrite fg_pic, bg_pic. apply B_dec. Qed.
Lemma space_covered p q : fg g2 p -> space (lb_rule st1) g1 p q -> fg g2 q.
Proof.
  intros F. induction 1 as [Sp|q q' C IH A Sq]; auto.
  destruct (fg_decides g2 q') as [X|X]; auto. exfalso.
  assert (drawn st1' q) as Dq.
  { apply drawn_same. apply (edge_drawn _ _ _ _ _ _ _ W2 Z2 R2 U2). split; auto. exists q'. split; auto. now rewrite <- Er. }
  apply (edge_drawn _ _ _ _ _ _ _ W1 Z1 R1 U1) in Dq as [Dq _]. now apply conn_right in C.
Qed.
Lemma no_space p : fg g2 p -> bg g1 p -> False.
Proof.
  intros F Bp.
  assert (forall n q, space (lb_rule st1) g1 p q -> snd q * (g_width g2) + fst q < Z.of_nat n -> False) as K.
  { induction n as [|n IH]; intros q C Hn.
    - pose proof (space_covered p q F C) as Fq. apply pixel_Some in Fq as [I1 I2].
      pose proof (Z.mul_nonneg_nonneg (snd q) (g_width g2) ltac:(lia) ltac:(lia)). cbn in Hn. lia.
    - destruct q as [x y]. cbn [fst snd] in Hn.
      pose proof (space_covered p _ F C) as Fq. pose proof Fq as Fq'. apply pixel_Some in Fq' as [I1 I2]. cbn [fst snd] in I1, I2.
      assert (forall q', space (lb_rule st1) g1 p q' -> before q' (x, y) -> False) as No.
      { intros q' C' X. apply (IH q' C'). pose proof (space_covered p _ F C') as Fq'. apply pixel_Some in Fq' as [J1 J2].
        unfold before in X. cbn [fst snd] in X. nia. }
      destruct (fg_decides g1 (x, y - 1)) as [A|A].
      + destruct (inner_set _ _ _ _ _ _ _ W1 Z1 R1 U1 x y A) as (i & l & H & N).
        { split; [apply bg_pic; now apply conn_right in C|]. intros q' C' X.
          apply (No (sh q')).
          - apply (conn_trans C). apply space_pic. now rewrite up_sh.
          - apply before_up_iff. now rewrite up_sh. }
        destruct Same as [Ec Sp]. apply Sp in H. rewrite Ec in N.
        pose proof (inner_head _ _ _ _ _ _ _ W2 Z2 R2 U2 _ _ _ H N) as X. cbn [fst snd] in X. apply X. now replace (y - 1 + 1) with y by lia.
      + apply (No (x, y - 1)); [|unfold before; cbn; lia]. refine (conn_step _ _ _ _ _ C _ A).
        destruct (lb_rule st1); cbn; unfold adj4, adj8; cbn; lia. }
  apply (K (S (Z.to_nat (snd p * g_width g2 + fst p))) p); [now apply conn_refl|lia].
Qed.
End Two.

Lemma redraw_edge fuel st g lab st' lab' : used st -> unlimited st -> label_args fuel g lab -> process fuel st g lab = Ok (st', lab') ->
  forall u, drawn st' u <-> fg g u /\ exists v, bg g v /\ adj_bg (lb_rule st) u v.
Proof.
  intros U Un A E. destruct (process_run fuel st g lab (used_inv st U) A) as (lab0 & st1 & lab1 & T & ls & E0 & E1 & R).
  rewrite E in E1. injection E1 as <- <-. intros u. exact (edge_drawn _ _ _ _ _ _ _ (la_in _ _ _ A) (la_size _ _ _ A) R Un u).
Qed.
Lemma redraw_same fuel1 fuel2 st1 st2 g1 g2 lab1 lab2 st1' lab1' st2' lab2' :
  used st1 -> used st2 -> unlimited st1 -> unlimited st2 -> lb_rule st1 = lb_rule st2 ->
  label_args fuel1 g1 lab1 -> label_args fuel2 g2 lab2 ->
  process fuel1 st1 g1 lab1 = Ok (st1', lab1') -> process fuel2 st2 g2 lab2 = Ok (st2', lab2') ->
  same_report st1' st2' -> forall p, fg g1 p <-> fg g2 p.
Proof.
  intros U1 U2 N1 N2 Er A1 A2 E1 E2 S.
  destruct (process_run fuel1 st1 g1 lab1 (used_inv st1 U1) A1) as (l1 & s1 & lb1 & T1 & ls1 & _ & X1 & R1). rewrite E1 in X1. injection X1 as <- <-.
  destruct (process_run fuel2 st2 g2 lab2 (used_inv st2 U2) A2) as (l2 & s2 & lb2 & T2 & ls2 & _ & X2 & R2). rewrite E2 in X2. injection X2 as <- <-.
  pose proof (la_in _ _ _ A1) as W1. pose proof (la_size _ _ _ A1) as Z1. pose proof (la_in _ _ _ A2) as W2. pose proof (la_size _ _ _ A2) as Z2.
  assert (same_report st2' st1') as S' by (destruct S as [S1 S2]; split; [auto|intros i l; symmetry; apply S2]).
  intros p. split; intros F.
  - destruct (fg_decides g2 p) as [X|X]; auto. exfalso.
    exact (no_space _ _ _ _ _ _ _ _ _ _ _ _ _ _ W2 W1 Z2 Z1 R2 R1 N2 N1 (eq_sym Er) S' p F X).
  - destruct (fg_decides g1 p) as [X|X]; auto. exfalso.
    exact (no_space _ _ _ _ _ _ _ _ _ _ _ _ _ _ W1 W2 Z1 Z2 R1 R2 N1 N2 Er S p F X).
Qed.

(** ** A block and a ring *)
Definition block3 : gray Z := pict 3 3 [1;1;1; 1;1;1; 1;1;1].
Definition ring3 : gray Z := pict 3 3 [1;1;1; 1;0;1; 1;1;1].
Lemma args_block3 : label_args 36 block3 lab0.
Proof. apply (args_pict 3 3); try lia; try reflexivity. apply wf_new; lia. Qed.
Lemma args_ring3 : label_args 36 ring3 lab0.
Proof. apply (args_pict 3 3); try lia; try reflexivity. apply wf_new; lia. Qed.
Definition around : list point := [(0,0); (1,0); (2,0); (2,1); (2,2); (1,2); (0,2); (0,1)].
Lemma block_ring : exists st1 lab1 st2 lab2,
  process 36 (lb_new Eight) block3 lab0 = Ok (st1, lab1) /\ process 36 (lb_new Eight) ring3 lab0 = Ok (st2, lab2) /\  ps_count (lb_pts st1) = 1 /\ ps_count (lb_pts st2) = 2 /\  has_points st1 0 around /\ has_points st2 0 around /\ has_points st2 1 [(1,0); (0,1); (1,2); (2,1)].
Proof.
  eexists _, _, _, _. split; [vm_compute; reflexivity|]. split; [vm_compute; reflexivity|].
  split; [vm_compute; reflexivity|]. split; [vm_compute; reflexivity|].
  repeat split; try (vm_compute; congruence); vm_compute; reflexivity.
Qed.
Lemma points_only : exists fuel st g1 g2 lab st1' lab1' st2' lab2' p, used st /\ unlimited st /\ label_args fuel g1 lab /\ label_args fuel g2 lab /\  process fuel st g1 lab = Ok (st1', lab1') /\ process fuel st g2 lab = Ok (st2', lab2') /\  (forall q, drawn st1' q <-> drawn st2' q) /\ fg g1 p /\ bg g2 p.
Proof.
  destruct block_ring as (st1 & l1 & st2 & l2 & E1 & E2 & C1 & C2 & H1 & H2 & H3).
  exists 36%nat, (lb_new Eight), block3, ring3, lab0, st1, l1, st2, l2, (1, 1).
  split; [constructor|]. split; [repeat split|]. split; [exact args_block3|]. split; [exact args_ring3|]. split; auto. split; auto.
  split; [|split; [reflexivity|intros X; vm_compute in X; discriminate]].
  intros q. split.
  - intros (i & l & H & I). exists 0, around. split; auto. pose proof H as [Hi _]. rewrite C1 in Hi. assert (i = 0) as -> by lia.
    now rewrite (has_unique _ _ _ _ H1 H).
  - intros (i & l & H & I). exists 0, around. split; auto. pose proof H as [Hi _]. rewrite C2 in Hi. assert (i = 0 \/ i = 1) as [-> | ->] by lia.
    + now rewrite (has_unique _ _ _ _ H2 H).
    + rewrite <- (has_unique _ _ _ _ H3 H) in I. cbn in I |- *. intuition auto.
Qed.
Lemma redraw_example : used (lb_new Eight) /\ unlimited (lb_new Eight) /\ label_args 36 ring3 lab0 /\  exists st lab, process 36 (lb_new Eight) ring3 lab0 = Ok (st, lab) /\ drawn st (1, 0) /\ bg ring3 (1, 1) /\ adj_bg Eight (1, 0) (1, 1).
Proof.
  destruct block_ring as (st1 & l1 & st2 & l2 & E1 & E2 & C1 & C2 & H1 & H2 & H3).
  split; [constructor|]. split; [repeat split|]. split; [exact args_ring3|]. exists st2, l2. split; auto. split; [|split].
  - exists 1, [(1,0); (0,1); (1,2); (2,1)]. split; auto. now left.
  - intros X; vm_compute in X; discriminate.
  - cbn. unfold adj4. cbn. lia.
Qed.
(** The ring in a larger image gives the same report. *)
Definition ring4 : gray Z := pict 4 5 [1;1;1;0; 1;0;1;0; 1;1;1;0; 0;0;0;0; 0;0;0;0].
Lemma args_ring4 : label_args 80 ring4 lab0.
Proof. apply (args_pict 4 5); try lia; try reflexivity. apply wf_new; lia. Qed.
Lemma same_example : exists st1 lab1 st2 lab2, label_args 36 ring3 lab0 /\ label_args 80 ring4 lab0 /\  process 36 (lb_new Eight) ring3 lab0 = Ok (st1, lab1) /\ process 80 (lb_new Eight) ring4 lab0 = Ok (st2, lab2) /\ same_report st1 st2.
Proof.
  assert (exists st1 lab1 st2 lab2, process 36 (lb_new Eight) ring3 lab0 = Ok (st1, lab1) /\ process 80 (lb_new Eight) ring4 lab0 = Ok (st2, lab2) /\    lb_contours st1 = lb_contours st2 /\ lb_pts st1 = lb_pts st2) as (st1 & l1 & st2 & l2 & E1 & E2 & Ec & Ep).
  { eexists _, _, _, _. split; [vm_compute; reflexivity|]. split; [vm_compute; reflexivity|]. split; vm_compute; reflexivity. }
  exists st1, l1, st2, l2. split; [exact args_ring3|]. split; [exact args_ring4|]. split; auto. split; auto. split; auto.
  intros i l. unfold has_points. now rewrite Ep.
Qed.

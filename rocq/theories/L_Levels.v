(** Lemmas about blobs of pixels on one side of a threshold. *)
From Coq Require Import Lia.
From Verif Require Import Base BaseFacts M_Image S_Image L_Image M_PackedSet M_Convolve S_Convolve M_Heap S_Heap M_Binary L_Binary M_Contour S_Contour S_Walk L_Contour L_ContourEx L_Walk
  S_Blobs L_Blobs S_Levels.
Open Scope Z_scope.

Lemma level_ok fuel g t down out lab : level_args fuel g out lab -> exists r, threshold Z.leb Z.gtb g t down out = Ok r /\ label_args fuel r lab /\
  g_width r = g_width g /\ g_height r = g_height g /\ forall p, fg r p <-> side_of g t down p.
Proof.
  intros [Wg Wo So Hs Wl Sl Hf]. pose proof (wf_small g Wg) as Sm. unfold small in Sm. pose proof Wg as W. unfold wf in W.
  assert (exists o, gray_reshape 0 out (g_width g) (g_height g) = Ok o) as (o & Eo).
  { unfold gray_reshape. destruct (_ && _) eqn:E; [eauto|]. destruct (g_sub out) eqn:S; [|eauto]. specialize (So eq_refl). lia. }
  destruct (gray_reshape_wf 0 out (g_width g) (g_height g) o Wo) as (Ho & Ow & Oh); auto; try lia.
  destruct (threshold_ok Z.leb Z.gtb g t down out o Wg Wo Eo) as (r & E & R1 & R2 & R3 & R4 & _). exists r. split; auto.
  assert (Wr : wf r) by (eapply wf_layout; eauto).
  assert (F : forall p, fg r p <-> side_of g t down p).
  { intros (x, y). unfold fg, side_of; cbn [fst snd]. split.
    - intros P. pose proof (pixel_Some _ _ _ _ P) as N. assert (Ng : inside g x y) by (unfold inside in *; lia). rewrite R4 in P by auto.
      destruct (pixel g x y) as [v|] eqn:Ev; [|congruence]. exists v. split; auto.
      destruct down; [destruct (v <=? t) eqn:C; [lia|congruence]|]. rewrite Z.gtb_ltb in P. destruct (t <? v) eqn:C; [lia|congruence].
    - intros (v & Ev & C). pose proof (pixel_Some _ _ _ _ Ev) as N. rewrite R4, Ev by auto. destruct down.
      + replace (v <=? t) with true by lia. reflexivity.
      + rewrite Z.gtb_ltb. replace (t <? v) with true by lia. reflexivity. }
  split; [|auto]. split; auto; rewrite ?R1, ?R2; auto.
  intros x y v P. pose proof (pixel_Some _ _ _ _ P) as N. rewrite R4 in P by (unfold inside in *; lia). destruct (pixel g x y); [|congruence].
  injection P as <-. destruct (if down then _ else _); auto.
Qed.
Lemma level_runs fuel st g t down out lab : used st -> level_args fuel g out lab -> exists st' lab', found fuel st g t down out lab st' lab'.
Proof.
  intros U A. destruct (level_ok fuel g t down out lab A) as (r & E & L & _). destruct (labels_theorem fuel st r lab U L) as (st' & lab' & P & _).
  exists st', lab', r. auto.
Qed.
Ltac open H A r E L W Hh F P := destruct H as (r & E & P); let r' := fresh in let E' := fresh in
  match type of E with threshold _ _ ?g ?t ?d ?o = _ => destruct (level_ok _ g t d o _ A) as (r' & E' & L & W & Hh & F) end; rewrite E in E'; injection E' as <-.
Lemma level_nested fuel1 fuel2 st1 st2 g1 g2 t1 t2 (down : bool) out1 out2 lab1 lab2 st1' lab1' st2' lab2' : used st1 -> used st2 -> lb_rule st1 = lb_rule st2 ->
  level_args fuel1 g1 out1 lab1 -> level_args fuel2 g2 out2 lab2 -> g_width g2 = g_width g1 -> g_height g2 = g_height g1 ->
  (forall x y u v, pixel g1 x y = Some u -> pixel g2 x y = Some v -> if down then v - t2 <= u - t1 else u - t1 <= v - t2) ->
  found fuel1 st1 g1 t1 down out1 lab1 st1' lab1' -> found fuel2 st2 g2 t2 down out2 lab2 st2' lab2' ->
  forall p, side_of g1 t1 down p -> side_of g2 t2 down p /\ forall q, side_of g1 t1 down q -> together lab1' p q -> together lab2' p q.
Proof.
  intros U1 U2 R A1 A2 Sw Sh C H1 H2. pose proof (le_in _ _ _ _ A2) as W2.
  assert (N : forall p, side_of g1 t1 down p -> side_of g2 t2 down p).
  { intros p (u & Eu & Cu). pose proof (pixel_Some _ _ _ _ Eu) as I. destruct (pixel_exists g2 (fst p) (snd p) W2) as (v & Ev); [unfold inside in *; lia|].
    exists v. split; auto. specialize (C _ _ _ _ Eu Ev). destruct down; lia. }
  open H1 A1 r1 E1 L1 W1' Hh1 F1 P1. open H2 A2 r2 E2 L2 W2' Hh2 F2 P2. intros p Sp. split; auto. intros q Sq T.
  apply (more_together fuel1 fuel2 st1 st2 r1 r2 lab1 lab2 st1' lab1' st2' lab2'); auto.
  - rewrite <- R. destruct (lb_rule st1); auto.
  - intros u Fu. apply F2, N, F1, Fu.
  - now apply F1.
  - now apply F1.
Qed.
Lemma level_same fuel1 fuel2 st1 st2 g1 g2 t1 t2 down out1 out2 lab1 lab2 st1' lab1' st2' lab2' : used st1 -> used st2 ->
  lb_rule st1 = lb_rule st2 -> lb_min st1 = lb_min st2 -> lb_max st1 = lb_max st2 -> lb_save st1 = lb_save st2 ->
  level_args fuel1 g1 out1 lab1 -> level_args fuel2 g2 out2 lab2 -> g_width g2 = g_width g1 -> g_height g2 = g_height g1 ->
  (forall x y u v, pixel g1 x y = Some u -> pixel g2 x y = Some v -> v - t2 = u - t1) ->
  found fuel1 st1 g1 t1 down out1 lab1 st1' lab1' -> found fuel2 st2 g2 t2 down out2 lab2 st2' lab2' ->
  lb_contours st2' = lb_contours st1' /\ (forall i l, has_points st1' i l <-> has_points st2' i l) /\
  forall p, inside g1 (fst p) (snd p) -> pixel lab2' (fst p) (snd p) = pixel lab1' (fst p) (snd p).
Proof.
  intros U1 U2 R Mn Mx Sv A1 A2 Sw Sh C H1 H2. pose proof (le_in _ _ _ _ A1) as W1. pose proof (le_in _ _ _ _ A2) as W2.
  assert (N : forall p, side_of g2 t2 down p <-> side_of g1 t1 down p).
  { intros p. split; intros (u & Eu & Cu); pose proof (pixel_Some _ _ _ _ Eu) as I.
    - destruct (pixel_exists g1 (fst p) (snd p) W1) as (v & Ev); [unfold inside in *; lia|]. exists v. split; auto. specialize (C _ _ _ _ Ev Eu). destruct down; lia.
    - destruct (pixel_exists g2 (fst p) (snd p) W2) as (v & Ev); [unfold inside in *; lia|]. exists v. split; auto. specialize (C _ _ _ _ Eu Ev). destruct down; lia. }
  open H1 A1 r1 E1 L1 W1' Hh1 F1 P1. open H2 A2 r2 E2 L2 W2' Hh2 F2 P2.
  assert (Z0 : forall p : point, moved (0, 0) p = p) by (intros (x, y); unfold moved; cbn; f_equal; lia).
  assert (M : forall p, fg r2 (moved (0, 0) p) <-> fg r1 p) by (intros p; rewrite Z0, F1, F2; apply N).
  destruct (moved_lemma _ _ _ _ _ _ (0, 0) _ _ _ _ _ _ U1 U2 R Mn Mx Sv L1 L2 M P1 P2) as (Q1 & Q2 & Q3 & Q4). split; auto. split.
  - intros i l. rewrite (Q4 i l). replace (map (moved (0, 0)) l) with l; [reflexivity|]. rewrite <- (map_id l) at 1. apply map_ext. intros; now rewrite Z0.
  - intros p I. destruct (labels_theorem _ _ _ _ U1 L1) as (s & l & X & _ & _ & B1 & _). rewrite P1 in X. injection X as <- <-.
    destruct (labels_theorem _ _ _ _ U2 L2) as (s & l & X & _ & _ & B2 & _). rewrite P2 in X. injection X as <- <-.
    destruct (L_Redraw.fg_decides r1 p) as [F|F].
    + specialize (Q1 p F). cbn [fst snd] in Q1. now rewrite !Z.add_0_r in Q1.
    + destruct (B1 p) as (k & Ek & _ & Zk); [unfold inside in *; lia|]. destruct (B2 p) as (k' & Ek' & _ & Zk'); [unfold inside in *; lia|].
      rewrite Ek, Ek'. f_equal. assert (k = 0) as -> by now apply Zk. apply Zk'. intros F'. apply F. apply M. now rewrite Z0.
Qed.
Lemma level_holes fuel1 fuel2 st1 st2 g t down out1 out2 lab1 lab2 st1' lab1' st2' lab2' : used st1 -> used st2 -> lb_rule st2 = dual (lb_rule st1) ->
  level_args fuel1 g out1 lab1 -> level_args fuel2 g out2 lab2 -> 0 < g_width g -> 0 < g_height g -> edge_apart g t down ->
  found fuel1 st1 g t down out1 lab1 st1' lab1' -> found fuel2 st2 g t (negb down) out2 lab2 st2' lab2' -> blobs st2' = 1 + holes st1'.
Proof.
  intros U1 U2 R A1 A2 Hw Hh Ed H1 H2. pose proof (le_in _ _ _ _ A1) as W1.
  open H1 A1 r1 E1 L1 W1' Hh1 F1 P1. open H2 A2 r2 E2 L2 W2' Hh2 F2 P2.
  apply (inverse_counts _ _ _ _ _ _ _ _ _ _ _ _ U1 U2 L1 L2 P1 P2 R); try lia.
  - intros p F. rewrite W1', Hh1. now apply Ed, F1.
  - split; [lia|]. split; [lia|]. intros p I. unfold bg. rewrite F1, F2. destruct (pixel_exists g (fst p) (snd p) W1) as (v & Ev); [unfold inside in *; lia|].
    unfold side_of. rewrite Ev. split.
    + intros (u & [= <-] & C) (u' & [= <-] & C'). destruct down; cbn in *; lia.
    + intros X. exists v. split; auto. destruct down; cbn [negb].
      * destruct (Z.le_gt_cases v t) as [C|C]; [|lia]. exfalso. apply X. eauto.
      * destruct (Z.le_gt_cases v t) as [C|C]; [lia|]. exfalso. apply X. exists v. split; auto; lia.
Qed.

(** ** Examples *)
Definition hill : gray Z := pict 5 5
  [90;91;92;93;94;
   90;10;20;30;95;
   91;15;80;35;96;
   92;12;25;40;97;
   93;94;95;96;97].
Lemma hill_args : level_args 100 hill (gray_new 0 1 1) lab0.
Proof.
  split; try (cbn; congruence); try (cbn; lia).
  - unfold wf; cbn; repeat split; try lia; intros; discriminate.
  - apply wf_new; lia.
  - apply wf_new; lia.
Qed.
Lemma hill_edge : edge_apart hill 40 true.
Proof.
  intros (x, y) (v & Ev & C). pose proof (pixel_Some _ _ _ _ Ev) as N. unfold inside in N. cbn in N. cbn [fst snd] in *. change (g_width hill) with 5. change (g_height hill) with 5.
  assert (x = 0 \/ y = 0 \/ x = 4 \/ y = 4 \/ (1 <= x < 4 /\ 1 <= y < 4)) as [X|[X|[X|[X|X]]]] by lia; [..|lia]; exfalso; subst.
  - five y; vm_compute in Ev; injection Ev as <-; lia.
  - five x; vm_compute in Ev; injection Ev as <-; lia.
  - five y; vm_compute in Ev; injection Ev as <-; lia.
  - five x; vm_compute in Ev; injection Ev as <-; lia.
Qed.
Definition three : gray Z := pict 3 1 [10;30;20].
Lemma three_args : level_args 12 three (gray_new 0 1 1) lab0.
Proof.
  split; try (cbn; congruence); try (cbn; lia).
  - unfold wf; cbn; repeat split; try lia; intros; discriminate.
  - apply wf_new; lia.
  - apply wf_new; lia.
Qed.
Lemma counts_vary : exists fuel st g t1 t2 t3 out lab s1 l1 s2 l2 s3 l3, used st /\ level_args fuel g out lab /\ t1 < t2 < t3 /\
  found fuel st g t1 true out lab s1 l1 /\ found fuel st g t2 true out lab s2 l2 /\ found fuel st g t3 true out lab s3 l3 /\ blobs s1 < blobs s2 /\ blobs s3 < blobs s2.
Proof.
  exists 12%nat, (lb_new Four), three, 10, 20, 30, (gray_new 0 1 1), lab0. eexists _, _, _, _, _, _. split; [constructor|]. split; [exact three_args|]. split; [lia|].
  split; [eexists; split; [vm_compute; reflexivity|vm_compute; reflexivity]|]. split; [eexists; split; [vm_compute; reflexivity|vm_compute; reflexivity]|]. split; [eexists; split; [vm_compute; reflexivity|vm_compute; reflexivity]|].
  split; vm_compute; reflexivity.
Qed.
Definition three_up : gray Z := pict 3 1 [110;130;120].
Lemma three_up_args : level_args 12 three_up (gray_new 0 1 1) lab0.
Proof.
  split; try (cbn; congruence); try (cbn; lia).
  - unfold wf; cbn; repeat split; try lia; intros; discriminate.
  - apply wf_new; lia.
  - apply wf_new; lia.
Qed.
Lemma three_up_pixels : forall x y u v, pixel three x y = Some u -> pixel three_up x y = Some v -> v - 120 = u - 20.
Proof.
  intros x y u v Eu Ev. pose proof (pixel_Some _ _ _ _ Eu) as N. unfold inside in N. cbn in N. assert (y = 0) as -> by lia.
  assert (x = 0 \/ x = 1 \/ x = 2) as [->|[->| ->]] by lia; vm_compute in Eu, Ev; injection Eu as <-; injection Ev as <-; reflexivity.
Qed.

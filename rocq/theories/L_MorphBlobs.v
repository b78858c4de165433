(** Lemmas about blobs and holes of eroded and dilated images. *)
From Coq Require Import Lia.
From Verif Require Import Base BaseFacts M_Image S_Image L_Image M_PackedSet M_Binary S_Binary L_Binary S_Symmetry S_Morph L_Morph M_Contour S_Contour L_Cycle L_Contour L_ContourEx S_Blobs L_Blobs.
Open Scope Z_scope.

Lemma fg_set g x y : fg g (x, y) <-> is_set g x y = true.
Proof.
  unfold fg, is_set. cbn [fst snd]. destruct (pixel g x y) as [v|]; [|split; congruence].
  split; [intros [= ->]; reflexivity|]. destruct v as [|[]|]; congruence.
Qed.

(** A pixel of the cross that is set. *)
Definition source (g : gray Z) (p : point) : point :=
  match find (fun q => is_set g (fst q) (snd q)) (cross (fst p) (snd p)) with Some q => q | None => p end.
Lemma source_ok g x y u v : near x y u v -> is_set g u v = true ->
  fg g (source g (x, y)) /\ near x y (fst (source g (x, y))) (snd (source g (x, y))).
Proof.
  intros N S. unfold source. cbn [fst snd]. destruct (find _ _) as [(a, b)|] eqn:E.
  - apply find_some in E as (I & X). cbn [fst snd] in *. split; [now apply fg_set|]. unfold near. unfold cross in I. cbn [In] in I.
    repeat (destruct I as [[= <- <-]|I]; [lia|]). destruct I.
  - exfalso. assert (is_set g u v = false); [|congruence]. apply (find_none _ _ E (u, v)). unfold cross, near in *. cbn [In].
    destruct N as [(-> & ->)|[(-> & ->)|[(-> & ->)|[(-> & ->)|(-> & ->)]]]]; auto 6.
Qed.
Lemma near_adj r p u v : near (fst p) (snd p) u v -> p = (u, v) \/ adj r p (u, v).
Proof.
  destruct p as (x, y). unfold near. cbn [fst snd]. intros [(-> & ->)|N]; [now left|right].
  assert (A : adj4 (x, y) (u, v)) by (unfold adj4; cbn [fst snd]; lia). destruct r; [exact A|now apply four_eight].
Qed.
Lemma near_conn r (S : point -> Prop) p q : near (fst p) (snd p) (fst q) (snd q) -> S p -> S q -> conn (adj r) S p q.
Proof.
  intros N Sp Sq. destruct q as (u, v). destruct (near_adj r p u v N) as [->|A]; [now constructor|]. econstructor; [now constructor|exact A|exact Sq].
Qed.

(** ** Dilation *)
Lemma clamp_close n x u : Z.abs (Z.max 1 (Z.min n x) - Z.max 1 (Z.min n u)) <= Z.abs (x - u).
Proof. lia. Qed.
Section Dilate.
Variables (g d : gray Z).
Hypothesis D : dilated g d.
Definition inward (p : point) : point := (Z.max 1 (Z.min (g_width g - 2) (fst p)), Z.max 1 (Z.min (g_height g - 2) (snd p))).
Hypothesis Hw : 3 <= g_width g.
Hypothesis Hh : 3 <= g_height g.
Lemma inward_in p : fg g p -> near (fst (inward p)) (snd (inward p)) (fst p) (snd p) -> fg d (inward p).
Proof.
  destruct p as (x, y). intros F N. unfold inward in *. cbn [fst snd] in *. apply fg_set. apply (dilated_set g d _ _ D). split; [unfold interior; lia|].
  exists x, y. split; auto. now apply fg_set.
Qed.
Lemma inward_step r p q : adj r p q -> inward p = inward q \/ adj r (inward p) (inward q).
Proof.
  destruct p as (x, y), q as (u, v). unfold inward. cbn [fst snd]. intros A.
  pose proof (clamp_close (g_width g - 2) x u) as X. pose proof (clamp_close (g_height g - 2) y v) as Y. revert X Y.
  generalize (Z.max 1 (Z.min (g_width g - 2) x)) (Z.max 1 (Z.min (g_width g - 2) u)) (Z.max 1 (Z.min (g_height g - 2) y)) (Z.max 1 (Z.min (g_height g - 2) v)).
  intros a b c d' X Y. destruct (Z.eq_dec a b) as [->|N1]; [destruct (Z.eq_dec c d') as [->|N2]; [now left|]|]; right;
    destruct r; cbn [adj] in *; unfold adj4, adj8 in *; cbn [fst snd] in *; lia.
Qed.
Lemma inward_corner r p q : inside g (fst p) (snd p) -> inside g (fst q) (snd q) -> adj r p q ->
  near (fst (inward q)) (snd (inward q)) (fst q) (snd q) \/ inward q = inward p.
Proof.
  destruct p as (x, y), q as (u, v). unfold inward, near, inside. cbn [fst snd]. intros Ip Iq A.
  assert (Z.abs (x - u) <= 1 /\ Z.abs (y - v) <= 1) as (Ax & Ay) by (destruct r; cbn [adj] in A; unfold adj4, adj8 in A; cbn [fst snd] in A; lia). clear A.
  assert ((1 <= u < g_width g - 1 \/ 1 <= v < g_height g - 1) \/ ((u = 0 \/ u = g_width g - 1) /\ (v = 0 \/ v = g_height g - 1))) as [C|C] by lia.
  - left. lia.
  - right. f_equal; lia.
Qed.
Lemma inward_conn r p q : near (fst (inward p)) (snd (inward p)) (fst p) (snd p) -> blob r g p q -> blob r d (inward p) (inward q).
Proof.
  intros N. induction 1 as [F|q q' C IH A F]; [constructor; now apply inward_in|].
  assert (Iq : inside g (fst q) (snd q)) by (eapply pixel_Some; destruct C as [X|? ? ? ? X]; exact X).
  assert (Iq' : inside g (fst q') (snd q')) by (eapply pixel_Some; exact F).
  destruct (inward_corner r q q' Iq Iq' A) as [N'| ->]; auto. destruct (inward_step r q q' A) as [<-|A']; auto.
  econstructor; [exact IH|exact A'|now apply inward_in].
Qed.
End Dilate.
Lemma set_sizes g x y : interior g x y -> 3 <= g_width g /\ 3 <= g_height g.
Proof. unfold interior. lia. Qed.
Lemma dilated_source g d p : dilated g d -> fg d p -> interior g (fst p) (snd p) /\ fg g (source g p) /\ near (fst p) (snd p) (fst (source g p)) (snd (source g p)).
Proof.
  intros D F. destruct p as (x, y). apply fg_set in F. apply (dilated_set g d _ _ D) in F as (I & u & v & N & S). split; auto. now apply (source_ok g x y u v).
Qed.
Lemma inward_near g x y u v : interior g x y -> near x y u v ->
  near (fst (inward g (u, v))) (snd (inward g (u, v))) u v /\ near x y (fst (inward g (u, v))) (snd (inward g (u, v))).
Proof. unfold interior, near, inward. cbn [fst snd]. intros I N. split; lia. Qed.
Lemma dilated_blob r g d p q : dilated g d -> fg d p -> fg d q -> blob r g (source g p) (source g q) -> blob r d p q.
Proof.
  intros D Fp Fq B. destruct (dilated_source g d p D Fp) as (Ip & Sp & Np). destruct (dilated_source g d q D Fq) as (Iq & Sq & Nq).
  destruct (set_sizes _ _ _ Ip) as (Hw & Hh). destruct (source g p) as (a, b). destruct (source g q) as (a', b'). cbn [fst snd] in *.
  destruct (inward_near g _ _ a b Ip Np) as (N1 & N2). destruct (inward_near g _ _ a' b' Iq Nq) as (N1' & N2').
  apply (@conn_trans _ _ _ (inward g (a, b))).
  - apply near_conn; auto. now apply inward_in.
  - apply (@conn_trans _ _ _ (inward g (a', b'))).
    + now apply inward_conn.
    + apply near_conn; auto; [|now apply inward_in]. now apply near_sym.
Qed.

Lemma image_of fuel g lab : label_args fuel g lab -> 0 < g_width g -> 0 < g_height g -> bin_image g.
Proof. intros [W B S _ _ _] Hw Hh. split; auto. split; auto. nia. Qed.
Lemma args_same fuel g d lab : label_args fuel g lab -> bin_image d -> same_size g d -> label_args fuel d lab.
Proof. intros [W B S Wl L F] (Wd & Bd & _) (S1 & S2). split; auto; rewrite S1, S2; auto. Qed.

Lemma dilate_blobs fuel1 fuel2 st1 st2 g o lab1 lab2 st1' lab1' : used st1 -> used st2 -> lb_rule st1 = lb_rule st2 ->
  label_args fuel1 g lab1 -> label_args fuel2 g lab2 -> 0 < g_width g -> 0 < g_height g -> blank_for g o -> process fuel1 st1 g lab1 = Ok (st1', lab1') ->
  exists d st2' lab2', dilate4 g o = Ok d /\ process fuel2 st2 d lab2 = Ok (st2', lab2') /\ blobs st2' <= blobs st1' /\
    forall p q, fg g p -> fg g q -> interior g (fst p) (snd p) -> interior g (fst q) (snd q) -> fg d p /\ fg d q /\ (together lab1' p q -> together lab2' p q).
Proof.
  intros U1 U2 R A1 A2 Hw Hh B E1. pose proof (image_of _ _ _ A1 Hw Hh) as G. destruct (dilate_result g o G B) as (d & Ed & Gd & D).
  pose proof (args_same _ _ _ _ A2 Gd (proj1 D)) as A3. destruct (labels_theorem fuel2 st2 d lab2 U2 A3) as (st2' & lab2' & E2 & _).
  exists d, st2', lab2'. split; auto. split; auto. split.
  - apply (reflected_le fuel2 fuel1 st2 st1 d g lab2 lab1 st2' lab2' st1' lab1' U2 U1 A3 A1 E2 E1 (eq_sym R) (source g)).
    + intros p F. now apply (dilated_source g d p D).
    + intros p q Fp Fq. now apply dilated_blob.
  - assert (K : forall p, fg g p -> interior g (fst p) (snd p) -> fg d p).
    { intros (x, y) F I. apply fg_set. apply (dilated_set g d _ _ D). split; auto. exists x, y. split; [apply near_self|now apply fg_set]. }
    intros p q Fp Fq Ip Iq. split; auto. split; auto. intros T. apply (together_blob fuel2 st2 d lab2 st2' lab2'); auto.
    apply (together_blob fuel1 st1 g lab1 st1' lab1') in T; auto. rewrite <- R. destruct (set_sizes _ _ _ Ip) as (W3 & H3).
    assert (X : forall s, interior g (fst s) (snd s) -> inward g s = s) by (intros (x, y); unfold interior, inward; cbn [fst snd]; intros I; f_equal; lia).
    rewrite <- (X p), <- (X q) by auto. apply inward_conn; auto. rewrite X by auto. apply near_self.
Qed.

(** ** Erosion *)
Lemma neg_set g x y : wf g -> (fg (neg g) (x, y) <-> 0 <= x < g_width g + 2 /\ 0 <= y < g_height g + 2 /\ is_set g (x - 1) (y - 1) = false).
Proof.
  intros W. assert (0 <= g_width g /\ 0 <= g_height g) by (unfold wf in W; lia). unfold neg. rewrite draw_fg, negb_true_iff by lia.
  assert (E : is_fg g (x - 1) (y - 1) = is_set g (x - 1) (y - 1)); [|now rewrite E].
  apply eq_true_iff_eq. rewrite is_fg_ok. apply fg_set.
Qed.
Lemma eroded_inverse g e : wf g -> wf e -> eroded g e -> (forall p, fg (neg g) p -> fg (neg e) p) /\
  forall x y, fg (neg e) (x, y) -> exists u v, near x y u v /\ fg (neg g) (u, v).
Proof.
  intros Wg We Er. pose proof (proj1 Er) as (S1 & S2). split.
  - intros (x, y) F. apply neg_set in F as (Hx & Hy & S); auto. apply neg_set; auto. rewrite S1, S2. split; auto. split; auto.
    destruct (is_set e (x - 1) (y - 1)) eqn:X; auto. apply (eroded_set g e _ _ Er) in X as (_ & X). rewrite X in S; [congruence|apply near_self].
  - intros x y F. apply neg_set in F as (Hx & Hy & S); auto. rewrite S1 in Hx. rewrite S2 in Hy.
    assert (K : forall u v, near x y u v -> 0 <= u < g_width g + 2 -> 0 <= v < g_height g + 2 -> ~ inside g (u - 1) (v - 1) -> exists u v, near x y u v /\ fg (neg g) (u, v)).
    { intros u v N Hu Hv O. exists u, v. split; auto. apply neg_set; auto. split; auto. split; auto.
      destruct (is_set g (u - 1) (v - 1)) eqn:X; auto. apply set_inside in X. contradiction. }
    destruct (interior_dec g (x - 1) (y - 1)) as [I|I].
    + destruct (all_set g (cross (x - 1) (y - 1))) eqn:X.
      { exfalso. assert (is_set e (x - 1) (y - 1) = true); [|congruence]. apply Er. split; auto. }
      assert (exists q, In q (cross (x - 1) (y - 1)) /\ is_set g (fst q) (snd q) = false) as ((u, v) & J & Z0).
      { unfold all_set in X. revert X. generalize (cross (x - 1) (y - 1)). induction l as [|q l IH]; cbn [forallb]; [discriminate|].
        destruct (is_set g (fst q) (snd q)) eqn:Q; cbn [andb]; intros X; [|exists q; split; [now left|auto]]. destruct (IH X) as (q' & J & Z0). exists q'. split; [now right|auto]. }
      exists (u + 1), (v + 1). unfold cross in J. cbn [In fst snd] in *. unfold interior in I.
      assert (N : near x y (u + 1) (v + 1)) by (unfold near; repeat (destruct J as [[= <- <-]|J]; [lia|]); destruct J).
      split; auto. apply neg_set; auto. replace (u + 1 - 1) with u by lia. replace (v + 1 - 1) with v by lia. unfold near in N. split; [lia|]. split; [lia|auto].
    + unfold interior in I. destruct (Z.eq_dec x 0); [apply (K x y); unfold near, inside; lia|]. destruct (Z.eq_dec y 0); [apply (K x y); unfold near, inside; lia|].
      destruct (Z.eq_dec x (g_width g + 1)); [apply (K x y); unfold near, inside; lia|]. destruct (Z.eq_dec y (g_height g + 1)); [apply (K x y); unfold near, inside; lia|].
      destruct (Z.eq_dec x 1); [apply (K (x - 1) y); unfold near, inside; lia|]. destruct (Z.eq_dec y 1); [apply (K x (y - 1)); unfold near, inside; lia|].
      destruct (Z.eq_dec x (g_width g)); [apply (K (x + 1) y); unfold near, inside; lia|]. apply (K x (y + 1)); unfold near, inside; lia.
Qed.
Lemma erode_holes fuel1 fuel2 st1 st2 g o lab1 lab2 st1' lab1' : used st1 -> used st2 -> lb_rule st1 = lb_rule st2 ->
  label_args fuel1 g lab1 -> label_args fuel2 g lab2 -> 0 < g_width g -> 0 < g_height g -> 4 * (g_width g + 4) * (g_height g + 4) < 4294967296 ->
  blank_for g o -> process fuel1 st1 g lab1 = Ok (st1', lab1') ->
  exists e st2' lab2', erode4 g o = Ok e /\ process fuel2 st2 e lab2 = Ok (st2', lab2') /\ holes st2' <= holes st1' /\
    forall p q, fg e p -> fg e q -> fg g p /\ fg g q /\ (together lab2' p q -> together lab1' p q).
Proof.
  intros U1 U2 R A1 A2 Hw Hh Hs B E1. pose proof (image_of _ _ _ A1 Hw Hh) as G. destruct (erode_result g o G B) as (e & Ee & Ge & D).
  pose proof (args_same _ _ _ _ A2 Ge (proj1 D)) as A3. destruct (labels_theorem fuel2 st2 e lab2 U2 A3) as (st2' & lab2' & E2 & _).
  exists e, st2', lab2'. split; auto. split; auto. pose proof (proj1 D) as (S1 & S2). split.
  - destruct (holes_inverse _ _ _ _ _ _ U1 A1 E1 Hs) as (s1 & l1 & P1 & C1).
    assert (Hs2 : 4 * (g_width e + 4) * (g_height e + 4) < 4294967296) by now rewrite S1, S2.
    destruct (holes_inverse _ _ _ _ _ _ U2 A3 E2 Hs2) as (s2 & l2 & P2 & C2). rewrite <- R in P2.
    assert (X : blobs s2 <= blobs s1); [|lia]. pose proof (proj1 G) as Wg. pose proof (proj1 Ge) as We. destruct (eroded_inverse g e Wg We D) as (I1 & I2).
    assert (A4 : label_args (Z.to_nat (4 * (g_width g + 2) * (g_height g + 2))) (neg g) lab0) by (apply draw_args; lia).
    assert (A5 : label_args (Z.to_nat (4 * (g_width e + 2) * (g_height e + 2))) (neg e) lab0) by (apply draw_args; lia).
    assert (K : forall p, fg (neg e) p -> fg (neg g) (source (neg g) p) /\ near (fst p) (snd p) (fst (source (neg g) p)) (snd (source (neg g) p))).
    { intros (x, y) F. destruct (I2 x y F) as (u & v & N & S). apply (source_ok (neg g) x y u v); auto. now apply fg_set. }
    apply (reflected_le _ _ _ _ _ _ _ _ _ _ _ _ (used_new (dual (lb_rule st1))) (used_new (dual (lb_rule st1))) A5 A4 P2 P1 eq_refl (source (neg g))).
    + intros p F. now apply K.
    + intros p q Fp Fq C. destruct (K p Fp) as (Sp & Np). destruct (K q Fq) as (Sq & Nq). apply (@conn_trans _ _ _ (source (neg g) p)).
      * apply near_conn; auto.
      * apply (@conn_trans _ _ _ (source (neg g) q)); [revert C; apply conn_more; auto|]. apply near_conn; auto. now apply near_sym.
  - assert (K : forall p, fg e p -> fg g p).
    { intros (x, y) F. apply fg_set in F. apply (eroded_set g e _ _ D) in F as (_ & F). apply fg_set. apply F. apply near_self. }
    intros p q Fp Fq. split; auto. split; auto. intros T. apply (more_together fuel2 fuel1 st2 st1 e g lab2 lab1 st2' lab2' st1' lab1'); auto.
    destruct (lb_rule st1); auto.
Qed.

(** ** Examples *)
Definition zeros (w h : Z) : gray Z := pict w h (repeat 0 (Z.to_nat (w * h))).
Lemma zeros_blank w h d : 0 < w <= 1000 -> 0 < h <= 1000 -> blank_for (pict w h d) (zeros w h).
Proof.
  intros Hw Hh. assert (W : wf (zeros w h)).
  { unfold wf, zeros, pict. cbn. unfold zlen. rewrite repeat_length. repeat split; try lia; try nia; intros; discriminate. }
  split; auto. exists (zeros w h). split.
  - unfold gray_reshape, zeros. cbn [pict g_width g_height]. now rewrite !Z.eqb_refl.
  - intros x y (Hx & Hy) _. change (g_width (pict w h d)) with w in Hx. change (g_height (pict w h d)) with h in Hy. unfold pixel, pos, zeros, pict. cbn [g_width g_height g_offset g_stride g_data].
    replace ((0 <=? x) && (x <? w) && (0 <=? y) && (y <? h)) with true by (symmetry; rewrite !andb_true_iff; lia).
    apply znth_repeat. nia.
Qed.
(** Two crosses joined by a line; four pixels around one. *)
Definition dumbbell : gray Z := pict 8 5
  [0;0;0;0;0;0;0;0;
   0;0;1;0;0;1;0;0;
   0;1;1;1;1;1;1;0;
   0;0;1;0;0;1;0;0;
   0;0;0;0;0;0;0;0].
Definition four_around : gray Z := pict 7 7
  [0;0;0;0;0;0;0;
   0;0;0;1;0;0;0;
   0;0;0;0;0;0;0;
   0;1;0;0;0;1;0;
   0;0;0;0;0;0;0;
   0;0;0;1;0;0;0;
   0;0;0;0;0;0;0].
Lemma dumbbell_args : label_args 160 dumbbell lab0.
Proof. apply (args_pict 8 5); try lia; try reflexivity. apply wf_new; lia. Qed.
Lemma four_args : label_args 196 four_around lab0.
Proof. apply (args_pict 7 7); try lia; try reflexivity. apply wf_new; lia. Qed.
Lemma erode_more_blobs : exists fuel r g o lab e st st' lab' lab'', label_args fuel g lab /\ blank_for g o /\ framed g /\ erode4 g o = Ok e /\
  process fuel (lb_new r) g lab = Ok (st, lab') /\ process fuel (lb_new r) e lab = Ok (st', lab'') /\ blobs st < blobs st'.
Proof.
  exists 160%nat, Eight, dumbbell, (zeros 8 5), lab0. eexists _, _, _, _, _. split; [exact dumbbell_args|]. split; [apply zeros_blank; lia|]. split.
  { intros (x, y) F. pose proof (pixel_Some _ _ _ _ F) as N. unfold inside in N. cbn [fst snd] in *. change (g_width dumbbell) with 8 in *. change (g_height dumbbell) with 5 in *.
    assert (x = 0 \/ x = 7 \/ 1 <= x < 7) as [->|[->|X]] by lia.
    1,2: five y; vm_compute in F; congruence.
    assert (y = 0 \/ y = 4 \/ 1 <= y < 4) as [->|[->|Y]] by lia; [| |lia].
    1,2: assert (x = 1 \/ x = 2 \/ x = 3 \/ x = 4 \/ x = 5 \/ x = 6) as [->|[->|[->|[->|[->| ->]]]]] by lia; vm_compute in F; congruence. }
  split; [vm_compute; reflexivity|]. split; [vm_compute; reflexivity|]. split; [vm_compute; reflexivity|]. vm_compute. reflexivity.
Qed.
Lemma dilate_more_holes : exists fuel r g o lab d st st' lab' lab'', label_args fuel g lab /\ blank_for g o /\ dilate4 g o = Ok d /\
  process fuel (lb_new r) g lab = Ok (st, lab') /\ process fuel (lb_new r) d lab = Ok (st', lab'') /\ holes st = 0 /\ 0 < holes st' /\ blobs st = 4 /\ blobs st' = 1.
Proof.
  exists 196%nat, Eight, four_around, (zeros 7 7), lab0. eexists _, _, _, _, _. split; [exact four_args|]. split; [apply zeros_blank; lia|].
  split; [vm_compute; reflexivity|]. split; [vm_compute; reflexivity|]. split; [vm_compute; reflexivity|].
  split; [vm_compute; reflexivity|]. split; [vm_compute; reflexivity|]. split; vm_compute; reflexivity.
Qed.

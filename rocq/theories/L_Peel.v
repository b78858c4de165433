(** Lemmas about repeated erosion and dilation, and about erosion and contours. *)
From Coq Require Import Lia.
From Verif Require Import Base BaseFacts M_Image S_Image L_Image M_PackedSet M_Binary S_Binary L_Binary S_Symmetry S_Morph L_Morph M_Contour S_Contour S_Redraw L_Redraw L_ContourEx L_Blobs L_MorphBlobs S_Peel.
Open Scope Z_scope.

Lemma near_steps x y u v : near x y u v <-> steps x y u v <= 1.
Proof. unfold near, steps. lia. Qed.
(** A pixel one step closer. *)
Lemma closer x y u v n : 0 <= n -> steps x y u v <= n + 1 -> exists a b, steps x y a b <= n /\ near a b u v /\
  Z.min x u <= a <= Z.max x u /\ Z.min y v <= b <= Z.max y v /\ (steps x y u v <= n -> a = u /\ b = v).
Proof.
  unfold steps, near. intros N H. destruct (Z_le_gt_dec (Z.abs (x - u) + Z.abs (y - v)) n) as [L|G].
  - exists u, v. repeat split; lia.
  - destruct (Z.lt_trichotomy u x) as [C|[C|C]]; [exists (u + 1), v; lia| |exists (u - 1), v; lia].
    destruct (Z.lt_trichotomy v y) as [C'|[C'|C']]; [exists u, (v + 1); lia| |exists u, (v - 1); lia]. lia.
Qed.
Lemma near_inside g u v : (forall a b, near u v a b -> is_set g a b = true) -> interior g u v.
Proof.
  intros H. pose proof (set_inside g (u - 1) v (H (u - 1) v ltac:(unfold near; lia))) as X1. pose proof (set_inside g (u + 1) v (H (u + 1) v ltac:(unfold near; lia))) as X2.
  pose proof (set_inside g u (v - 1) (H u (v - 1) ltac:(unfold near; lia))) as X3. pose proof (set_inside g u (v + 1) (H u (v + 1) ltac:(unfold near; lia))) as X4.
  unfold inside, interior in *. lia.
Qed.
Lemma zlen_step {A} (a : A) l : zlen (a :: l) = zlen l + 1.
Proof. unfold zlen. cbn [length]. lia. Qed.
Lemma zlen_pos {A} (l : list A) : 0 <= zlen l.
Proof. unfold zlen. lia. Qed.

Lemma erode_times os : forall g, bin_image g -> (forall o, In o os -> blank_for g o) ->
  exists r, times erode4 os g = Ok r /\ bin_image r /\ forall x y, is_set r x y = true <-> forall u v, steps x y u v <= zlen os -> is_set g u v = true.
Proof.
  induction os as [|o os IH]; intros g G B; cbn [times].
  - exists g. split; auto. split; auto. intros x y. split.
    + intros S u v H. unfold steps, zlen in H. cbn in H. now replace u with x by lia; replace v with y by lia.
    + intros H. apply H. unfold steps, zlen. cbn. lia.
  - destruct (erode_result g o G) as (e & Ee & Ge & D); [apply B; now left|]. rewrite Ee. cbn [bind].
    destruct (IH e Ge) as (r & Er & Gr & R). { intros o' I. apply (blank_same g e); [apply D|]. apply B. now right. }
    exists r. split; auto. split; auto. intros x y. rewrite R, zlen_step. pose proof (zlen_pos os) as P. split.
    + intros H u v L. destruct (closer x y u v (zlen os) P L) as (a & b & L' & N & _). apply H in L'. apply (eroded_set g e _ _ D) in L' as (_ & L'). now apply L'.
    + intros H u v L. apply (eroded_set g e _ _ D).
      assert (K : forall a b, near u v a b -> is_set g a b = true). { intros a b N. apply H. unfold near, steps in *. lia. }
      split; auto. now apply near_inside.
Qed.
Lemma dilate_times os : forall g, bin_image g -> (forall x y, is_set g x y = true -> interior g x y) -> (forall o, In o os -> blank_for g o) ->
  exists r, times dilate4 os g = Ok r /\ bin_image r /\
    forall x y, is_set r x y = true <-> interior g x y /\ exists u v, steps x y u v <= zlen os /\ is_set g u v = true.
Proof.
  induction os as [|o os IH]; intros g G F B; cbn [times].
  - exists g. split; auto. split; auto. intros x y. split.
    + intros S. split; auto. exists x, y. split; auto. unfold steps, zlen. cbn. lia.
    + intros (_ & u & v & H & S). unfold steps, zlen in H. cbn in H. now replace x with u by lia; replace y with v by lia.
  - destruct (dilate_result g o G) as (e & Ee & Ge & D); [apply B; now left|]. rewrite Ee. cbn [bind].
    destruct (IH e Ge) as (r & Er & Gr & R).
    { intros x y S. apply (interior_same g e); [apply D|]. now apply (dilated_set g e _ _ D) in S. }
    { intros o' I. apply (blank_same g e); [apply D|]. apply B. now right. }
    exists r. split; auto. split; auto. intros x y. rewrite R, zlen_step, (interior_same g e) by apply D. pose proof (zlen_pos os) as P. split.
    + intros (I & u & v & L & S). apply (dilated_set g e _ _ D) in S as (I' & a & b & N & S). split; auto. exists a, b. split; auto. unfold near, steps in *. lia.
    + intros (I & u & v & L & S). split; auto. destruct (closer x y u v (zlen os) P L) as (a & b & L' & N & X & Y & _). exists a, b. split; auto.
      apply (dilated_set g e _ _ D). split; [|exists u, v; auto]. apply F in S. unfold interior in *. lia.
Qed.

(** ** Contours *)
Lemma forallb_false {A} (f : A -> bool) l : forallb f l = false -> exists a, In a l /\ f a = false.
Proof.
  induction l as [|a l IH]; cbn [forallb]; [discriminate|]. destruct (f a) eqn:E; cbn [andb].
  - intros H. destruct (IH H) as (b & I & F). exists b. split; [now right|auto].
  - intros _. exists a. split; [now left|auto].
Qed.
Lemma erode_contour fuel st g o lab st' lab' : used st -> unlimited st -> lb_rule st = Eight -> label_args fuel g lab -> 0 < g_width g -> 0 < g_height g ->
  blank_for g o -> process fuel st g lab = Ok (st', lab') ->
  exists e, erode4 g o = Ok e /\ forall p, fg g p -> (drawn st' p <-> bg e p).
Proof.
  intros U L R A Hw Hh B E. pose proof (image_of _ _ _ A Hw Hh) as G. destruct (erode_result g o G B) as (e & Ee & Ge & D). exists e. split; auto.
  intros (x, y) F. rewrite (redraw_edge fuel st g lab st' lab' U L A E), R. cbn [adj_bg]. assert (Q : bg e (x, y) <-> ~ (interior g x y /\ forall u v, near x y u v -> is_set g u v = true)).
  { unfold bg. now rewrite fg_set, (eroded_set g e _ _ D). }
  rewrite Q. split.
  - intros (_ & (u, v) & Bv & Ad) (_ & H). apply Bv. apply fg_set. apply H. unfold adj4, near in *. cbn [fst snd] in Ad. lia.
  - intros H. split; auto. destruct (all_set g (cross x y)) eqn:X.
    + exfalso. apply H. rewrite all_near in X. split; auto. now apply near_inside.
    + apply forallb_false in X as ((u, v) & I & X). exists (u, v). split; [intros F'; apply fg_set in F'; cbn in X; congruence|]. cbn [fst snd] in X.
      assert (N : near x y u v) by (unfold cross in I; cbn [In] in I; unfold near; repeat (destruct I as [[= <- <-]|I]; [lia|]); destruct I).
      destruct N as [(-> & ->)|N]; [apply fg_set in F; congruence|]. unfold adj4. cbn [fst snd]. lia.
Qed.

(** ** Examples *)
Lemma square_peel : exists fuel g o lab e st lab' p, label_args fuel g lab /\ blank_for g o /\ erode4 g o = Ok e /\
  process fuel (lb_new Four) g lab = Ok (st, lab') /\ drawn st p /\ fg e p.
Proof.
  exists 160%nat, dumbbell, (zeros 8 5), lab0. eexists _, _, _. exists (2, 2). split; [exact dumbbell_args|]. split; [apply zeros_blank; lia|].
  split; [vm_compute; reflexivity|]. split; [vm_compute; reflexivity|]. split; [|vm_compute; reflexivity].
  exists 0. eexists. split; [split; [vm_compute; split; congruence|vm_compute; reflexivity]|]. vm_compute. auto 40.
Qed.
Lemma dumbbell_interior x y : is_set dumbbell x y = true -> interior dumbbell x y.
Proof.
  intros F. pose proof (set_inside _ _ _ F) as N. unfold inside in N. unfold interior. change (g_width dumbbell) with 8 in *. change (g_height dumbbell) with 5 in *.
  assert (x = 0 \/ x = 7 \/ 1 <= x < 7) as [->|[->|X]] by lia.
  1,2: five y; vm_compute in F; congruence.
  assert (y = 0 \/ y = 4 \/ 1 <= y < 4) as [->|[->|Y]] by lia; [| |lia].
  1,2: assert (x = 1 \/ x = 2 \/ x = 3 \/ x = 4 \/ x = 5 \/ x = 6) as [->|[->|[->|[->|[->| ->]]]]] by lia; vm_compute in F; congruence.
Qed.

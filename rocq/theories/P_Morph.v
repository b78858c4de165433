(** Openings, closings and combinations of binary images: C135. *)
From Verif Require Import BaseFacts M_Image S_Image L_Image M_Binary S_Binary S_Symmetry S_Morph L_Morph.
Open Scope Z_scope.

Theorem C135_order : forall g h o1 o2 o3 o4, bin_image g -> bin_image h -> subset g h ->
  blank_for g o1 -> blank_for h o2 -> blank_for g o3 -> blank_for h o4 ->
  exists e f d k, erode4 g o1 = Ok e /\ erode4 h o2 = Ok f /\ dilate4 g o3 = Ok d /\ dilate4 h o4 = Ok k /\ subset e f /\ subset d k.
Proof. exact morph_mono. Qed.
Print Assumptions C135_order.

(** Erosion then dilation adds nothing; a second time changes nothing at distance 3 from the edge and never adds. *)
Theorem C135_open : forall g o1 o2 o3 o4, bin_image g -> blank_for g o1 -> blank_for g o2 -> blank_for g o3 -> blank_for g o4 ->
  exists e d e2 d2, erode4 g o1 = Ok e /\ dilate4 e o2 = Ok d /\ erode4 d o3 = Ok e2 /\ dilate4 e2 o4 = Ok d2 /\
    subset d g /\ subset d2 d /\ forall x y, deep 3 g x y -> is_set d2 x y = is_set d x y.
Proof. exact morph_open. Qed.
Print Assumptions C135_open.

(** Dilation then erosion removes nothing at distance 2 from the edge; a second time changes nothing. *)
Theorem C135_close : forall g o1 o2 o3 o4, bin_image g -> blank_for g o1 -> blank_for g o2 -> blank_for g o3 -> blank_for g o4 ->
  exists d e d2 e2, dilate4 g o1 = Ok d /\ erode4 d o2 = Ok e /\ dilate4 e o3 = Ok d2 /\ erode4 d2 o4 = Ok e2 /\
    (forall x y, deep 2 g x y -> is_set g x y = true -> is_set e x y = true) /\ (forall x y, is_set e2 x y = is_set e x y).
Proof. exact morph_close. Qed.
Print Assumptions C135_close.

Theorem C135_combine : forall a b c o1 o2 o3, bin_image a -> bin_image b -> bin_image c ->
  blank_for a o1 -> blank_for b o2 -> blank_for c o3 ->
  (union a b c -> exists r s t, dilate4 a o1 = Ok r /\ dilate4 b o2 = Ok s /\ dilate4 c o3 = Ok t /\ union r s t) /\
  (meet a b c -> exists r s t, erode4 a o1 = Ok r /\ erode4 b o2 = Ok s /\ erode4 c o3 = Ok t /\ meet r s t).
Proof. exact morph_combine. Qed.
Print Assumptions C135_combine.

(** Two images, what they have together and what they share. *)
Definition mo (l : list Z) : gray Z := mkGray 5 4 0 5 false l.
Definition mo_a := mo [0;1;1;1;0; 1;1;1;1;0; 0;1;1;1;1; 0;0;1;0;0].
Definition mo_b := mo [0;0;1;0;0; 0;1;1;1;1; 1;0;1;1;0; 0;0;0;1;0].
Definition mo_u := mo [0;1;1;1;0; 1;1;1;1;1; 1;1;1;1;1; 0;0;1;1;0].
Definition mo_m := mo [0;0;1;0;0; 0;1;1;1;0; 0;0;1;1;0; 0;0;0;0;0].
Definition mo_z := mo (repeat 0 20).
Ltac mo_cases x y := assert (x = 0 \/ x = 1 \/ x = 2 \/ x = 3 \/ x = 4) as [-> | [-> | [-> | [-> | ->]]]] by lia;
  assert (y = 0 \/ y = 1 \/ y = 2 \/ y = 3) as [-> | [-> | [-> | ->]]] by lia.
Lemma mo_wf l : zlen l = 20 -> wf (mo l).
Proof. intros H. unfold wf, mo. cbn [g_width g_height g_offset g_stride g_data g_sub]. rewrite H. repeat split; try lia; intros; try discriminate; auto. Qed.
Ltac mo_bin := split; [apply mo_wf; reflexivity|]; split; [|cbn; lia]; intros x y v E; pose proof (pixel_Some _ _ _ _ E) as [[? ?] [? ?]]; cbn in *;
  mo_cases x y; vm_compute in E; injection E as <-; auto.
Lemma mo_blank l : zlen l = 20 -> blank_for (mo l) mo_z.
Proof.
  intros H. split; [apply mo_wf; reflexivity|]. exists mo_z. split; [reflexivity|]. intros x y [[? ?] [? ?]] _. cbn in *. mo_cases x y; reflexivity.
Qed.
Lemma mo_none l x y : ~ inside (mo l) x y -> is_set (mo l) x y = false.
Proof. intros N. unfold is_set. now rewrite pixel_outside. Qed.
Ltac mo_sets := intros x y; assert (D : inside mo_z x y \/ ~ inside mo_z x y) by (unfold inside; lia); destruct D as [[[? ?] [? ?]]|N];
  [cbn in *; mo_cases x y; vm_compute; auto|unfold mo_a, mo_b, mo_u, mo_m; rewrite !mo_none by exact N; auto].
Example C135_hypotheses : bin_image mo_a /\ bin_image mo_b /\ bin_image mo_u /\ bin_image mo_m /\ subset mo_a mo_u /\ union mo_a mo_b mo_u /\
  meet mo_a mo_b mo_m /\ blank_for mo_a mo_z /\ blank_for mo_b mo_z /\ blank_for mo_u mo_z /\ blank_for mo_m mo_z /\
  erode4 mo_a mo_z = Ok (mo [0;0;0;0;0; 0;1;1;0;0; 0;0;1;0;0; 0;0;0;0;0]) /\
  dilate4 mo_m mo_z = Ok (mo [0;0;0;0;0; 0;1;1;1;0; 0;1;1;1;0; 0;0;0;0;0]).
Proof.
  do 4 (split; [mo_bin|]). split; [split; [split; reflexivity|]; mo_sets|]. do 2 (split; [split; [split; reflexivity|]; split; [split; reflexivity|]; mo_sets|]).
  do 4 (split; [apply mo_blank; reflexivity|]). split; vm_compute; reflexivity.
Qed.

(** Next to the edge: a second opening removes more. *)
Theorem C135_open_refuted : exists g o e d e2 d2 x y, bin_image g /\ blank_for g o /\
  erode4 g o = Ok e /\ dilate4 e o = Ok d /\ erode4 d o = Ok e2 /\ dilate4 e2 o = Ok d2 /\ deep 1 g x y /\ is_set d x y = true /\ is_set d2 x y = false.
Proof.
  exists mo_u, mo_z. do 4 eexists. exists 2, 2. split; [mo_bin|]. split; [apply mo_blank; reflexivity|]. do 4 (split; [vm_compute; reflexivity|]).
  split; [unfold deep; cbn; lia|]. split; reflexivity.
Qed.
Print Assumptions C135_open_refuted.

(** Next to the edge: a closing removes pixels. *)
Theorem C135_close_refuted : exists g o d e x y, bin_image g /\ blank_for g o /\
  dilate4 g o = Ok d /\ erode4 d o = Ok e /\ deep 1 g x y /\ is_set g x y = true /\ is_set e x y = false.
Proof.
  exists mo_u, mo_z. do 2 eexists. exists 2, 2. split; [mo_bin|]. split; [apply mo_blank; reflexivity|]. do 2 (split; [vm_compute; reflexivity|]).
  split; [unfold deep; cbn; lia|]. split; reflexivity.
Qed.
Print Assumptions C135_close_refuted.
(** Pixels on the edge of the output are left as they were, so a reused output can make an opening add pixels. *)
Theorem C135_reuse_refuted : exists g o e d x y, bin_image g /\ bin_image o /\ same_size g o /\
  erode4 g o = Ok e /\ dilate4 e o = Ok d /\ deep 1 g x y /\ is_set g x y = false /\ is_set d x y = true.
Proof.
  exists mo_z, mo_u. do 2 eexists. exists 1, 1. split; [mo_bin|]. split; [mo_bin|]. split; [split; reflexivity|]. do 2 (split; [vm_compute; reflexivity|]).
  split; [unfold deep; cbn; lia|]. split; reflexivity.
Qed.
Print Assumptions C135_reuse_refuted.

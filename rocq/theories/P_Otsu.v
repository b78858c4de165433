(** Theorems about Otsu thresholds (C35, C36). *)
From Coq Require Import QArith Floats.SpecFloat.
From Verif Require Import BaseFacts M_Image M_Convolve S_Image L_Image M_GrowArray S_Blur M_Stats S_Stats S_Convolve M_Float M_Otsu S_Otsu L_Otsu
  L_OtsuImage.
Open Scope Z_scope.

(** C35: the standard method yields the smallest split with the largest between-class variance. *)
Theorem C35_otsu : forall l h down, counts l -> holds_counts h l -> 0 < zlen l <= 2147483648 ->
  exists v t, otsu_compute exact false 0%Q down 1%Q h (zsum l) = Ok (v, inject_Z t) /\ best_split l t.
Proof. exact otsu_plain. Qed.
Print Assumptions C35_otsu.

(** [best_split] describes one number. *)
Theorem C35_unique : forall l t t', best_split l t -> best_split l t' -> t = t'.
Proof. exact best_split_unique. Qed.
Print Assumptions C35_unique.

(** With two occupied bins both classes are occupied; the classes' means lie on either side of the split. *)
Theorem C35_two_occupied : forall l t i j a b, counts l -> best_split l t ->
  znth l i = Some a -> znth l j = Some b -> 0 < a -> 0 < b -> i < j ->
  (0 < separation l t)%Q /\ 0 < zsum (below l t) /\ 0 < zsum (above l t).
Proof. exact best_two. Qed.
Print Assumptions C35_two_occupied.

(** With at most one occupied bin the threshold is 0. *)
Theorem C35_one_occupied : forall l t k, counts l -> best_split l t ->
  (forall i v, znth l i = Some v -> i <> k -> v = 0) -> t = 0.
Proof. exact best_one. Qed.
Print Assumptions C35_one_occupied.

(** The variant takes the middle between the class means of that split, rounded to the nearest integer. *)
Theorem C35_otsu2 : forall l h down, counts l -> holds_counts h l -> 0 < zlen l < 2147483648 ->
  exists v t s, otsu_compute exact true 0%Q down 1%Q h (zsum l) = Ok (v, inject_Z t) /\ best_split l s /\
    ((0 < separation l s)%Q -> nearest ((low_mean l s + high_mean l s) / 2) t) /\
    (~ (0 < separation l s)%Q -> t = 0).
Proof. exact otsu2_plain. Qed.
Print Assumptions C35_otsu2.

(** The penalty for low texture moves the threshold down when thresholding down and up otherwise, never below 0. *)
Theorem C35_tuning : forall l h (two down : bool) tu v0 r0 v r, counts l -> holds_counts h l -> 0 < zlen l < 2147483648 ->
  otsu_compute exact two 0%Q down 1%Q h (zsum l) = Ok (v0, r0) ->
  otsu_compute exact two tu down 1%Q h (zsum l) = Ok (v, r) ->
  if down then (0 <= r /\ r <= r0)%Q else (r0 <= r)%Q.
Proof. exact tuning_moves. Qed.
Print Assumptions C35_tuning.

(** Any arithmetic, IEEE doubles included, and any claimed number of pixels: the histogram is not left and the threshold
    is one of its bins. *)
Theorem C35_in_range : forall D (O : dops D) l h total, holds_counts h l -> 0 < zlen l ->
  exists v i, otsu_1 O h total = Ok (v, d_of O i) /\ 0 <= i < zlen l.
Proof. exact @otsu_1_in_range. Qed.
Print Assumptions C35_in_range.

Definition ocounts : list Z := [3;5;1;0;0;7;8;1].
Definition ohist : growarr Z := ga_of_list (int_mem U32) ocounts.
Example C35_hypotheses : counts ocounts /\ holds_counts ohist ocounts /\ 0 < zlen ocounts < 2147483648 /\ zsum ocounts = 25.
Proof.
  split; [|split; [|split]].
  - split; [|split; reflexivity]. repeat constructor; discriminate.
  - split; [reflexivity|]. intros i v E. apply znth_Some_range in E as R. change (zlen ocounts) with 8 in R.
    assert (i = 0 \/ i = 1 \/ i = 2 \/ i = 3 \/ i = 4 \/ i = 5 \/ i = 6 \/ i = 7) as [->|[->|[->|[->|[->|[->|[->| ->]]]]]]] by lia;
      cbn in E; injection E as <-; reflexivity.
  - split; reflexivity.
  - reflexivity.
Qed.
(** Both arithmetics give bin 2 on this histogram; the variant gives 3, in the middle of the gap. *)
Example C35_values : (exists v, otsu_compute exact false 0%Q true 1%Q ohist 25 = Ok (v, 2%Q)) /\
  (exists v, otsu_compute double false (d_of double 0) true (d_of double 1) ohist 25 = Ok (v, d_of double 2)) /\
  (exists v, otsu_compute exact true 0%Q true 1%Q ohist 25 = Ok (v, 3%Q)) /\
  (exists v, otsu_compute exact false (5 # 1)%Q true 1%Q ohist 25 = Ok (v, 0%Q)).
Proof. repeat split; eexists; vm_compute; reflexivity. Qed.

(** C35 with IEEE doubles: rounding decides between equally good splits, so the smallest is not always chosen. *)
Theorem C35_double_ties_refuted : exists l h v t,
  counts l /\ holds_counts h l /\ 0 < zlen l <= 2147483648 /\
  otsu_compute double false (d_of double 0) true (d_of double 1) h (zsum l) = Ok (v, d_of double t) /\ ~ best_split l t.
Proof. exact double_ties. Qed.
Print Assumptions C35_double_ties_refuted.

(** C36: the number returned for an image is the best split of its histogram, counted from the smallest value. *)
Theorem C36_index : forall t g mn mx, wf g -> (forall x y v, pixel g x y = Some v -> mn <= v <= mx) ->
  0 <= mx - mn < 2147483647 -> ity_min (promote t) <= mn -> mx < ity_max (promote t) -> mn < ity_max (promote t) ->
  exists th, image_otsu exact t g mn mx false = Ok th /\ best_split (value_counts g mn mx) th.
Proof. exact image_otsu_ok. Qed.
Print Assumptions C36_index.

(** C36: the filter applies the optimal split if the range starts at 0. *)
Theorem C36_zero_minimum : forall t g mx down out o, wf g -> wf out -> gray_reshape 0 out (g_width g) (g_height g) = Ok o ->
  (forall x y v, pixel g x y = Some v -> 0 <= v <= mx) -> 0 <= mx < 2147483647 -> mx <= ity_max t ->
  exists th out', global_otsu exact t g 0 mx down out = Ok out' /\ best_split (value_counts g 0 mx) th /\
    holds g o out' (fun x y => match pixel g x y with
      | Some v => Some (if (if down then v <=? th else v >? th) then 1 else 0) | None => None end).
Proof. exact global_otsu_ok. Qed.
Print Assumptions C36_zero_minimum.

Definition oimg : gray Z := mkGray 4 1 0 4 false [10;11;20;20].
Lemma oimg_pixel x y v : pixel oimg x y = Some v -> 10 <= v <= 20.
Proof.
  intros E. pose proof (pixel_Some _ _ _ _ E) as [[X1 X2] [Y1 Y2]]. cbn in X2, Y2. assert (y = 0) as -> by lia.
  assert (x = 0 \/ x = 1 \/ x = 2 \/ x = 3) as [->|[->|[->| ->]]] by lia; cbn in E; injection E as <-; lia.
Qed.
Example C36_hypotheses : wf oimg /\ (forall x y v, pixel oimg x y = Some v -> 0 <= v <= 20) /\
  gray_reshape 0 (gray_new 7 1 1) 4 1 = Ok (mkGray 4 1 0 4 false [0;0;0;0]) /\
  global_otsu exact U8 oimg 0 20 true (gray_new 7 1 1) = Ok (mkGray 4 1 0 4 false [1;1;0;0]).
Proof.
  split; [unfold wf; cbn; repeat split; try lia; intros; discriminate|]. split; [intros x y v E; apply oimg_pixel in E; lia|].
  split; vm_compute; reflexivity.
Qed.

(** C36: with a range that starts above 0 the index is compared with pixels: here the best split separates 10 and 11
    from 20, but no pixel is found below the threshold. *)
Theorem C36_refuted : exists (g : gray Z) mn mx th out x y v,
  wf g /\ (forall x y v, pixel g x y = Some v -> mn <= v <= mx) /\ 0 <= mn <= mx /\ mx <= ity_max U8 /\
  best_split (value_counts g mn mx) th /\
  global_otsu exact U8 g mn mx true (gray_new 7 1 1) = Ok out /\
  global_otsu double U8 g mn mx true (gray_new 7 1 1) = Ok out /\
  pixel g x y = Some v /\ v <= mn + th /\ pixel out x y = Some 0.
Proof. exact nonzero_minimum. Qed.
Print Assumptions C36_refuted.

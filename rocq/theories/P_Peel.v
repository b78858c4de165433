(** Theorems about repeated erosion and dilation, and about erosion and contours (C142). *)
From Verif Require Import Base BaseFacts M_Image S_Image L_Image M_PackedSet M_Binary S_Binary S_Morph M_Contour S_Contour S_Redraw L_ContourEx S_Blobs L_MorphBlobs S_Peel L_Peel.
Open Scope Z_scope.

(** C142: after n erosions the pixels remain around which everything within n steps is set. *)
Theorem C142_erode_times : forall os g, bin_image g -> (forall o, In o os -> blank_for g o) ->
  exists r, times erode4 os g = Ok r /\ bin_image r /\ forall x y, is_set r x y = true <-> forall u v, steps x y u v <= zlen os -> is_set g u v = true.
Proof. exact erode_times. Qed.
Print Assumptions C142_erode_times.

(** C142: after n dilations of an image with nothing on its edge, the pixels off the edge are set that are within n steps of one that was. *)
Theorem C142_dilate_times : forall os g, bin_image g -> (forall x y, is_set g x y = true -> interior g x y) -> (forall o, In o os -> blank_for g o) ->
  exists r, times dilate4 os g = Ok r /\ bin_image r /\
    forall x y, is_set r x y = true <-> interior g x y /\ exists u v, steps x y u v <= zlen os /\ is_set g u v = true.
Proof. exact dilate_times. Qed.
Print Assumptions C142_dilate_times.

(** C142: erosion removes the points of the contours found with eight neighbours, and nothing else. *)
Theorem C142_contour : forall fuel st g o lab st' lab', used st -> unlimited st -> lb_rule st = Eight -> label_args fuel g lab -> 0 < g_width g -> 0 < g_height g ->
  blank_for g o -> process fuel st g lab = Ok (st', lab') ->
  exists e, erode4 g o = Ok e /\ forall p, fg g p -> (drawn st' p <-> bg e p).
Proof. exact erode_contour. Qed.
Print Assumptions C142_contour.

(** Two crosses with a line between them: two erosions leave nothing, two dilations fill the image without its edge. *)
Example C142_case : bin_image dumbbell /\ (forall x y, is_set dumbbell x y = true -> interior dumbbell x y) /\ blank_for dumbbell (zeros 8 5) /\ used (lb_new Eight) /\
  unlimited (lb_new Eight) /\ label_args 160 dumbbell lab0 /\
  times erode4 [zeros 8 5; zeros 8 5] dumbbell = Ok (zeros 8 5) /\
  (exists r, times dilate4 [zeros 8 5; zeros 8 5] dumbbell = Ok r /\ is_set r 1 1 = true /\ is_set r 0 2 = false) /\
  exists st lab, process 160 (lb_new Eight) dumbbell lab0 = Ok (st, lab).
Proof.
  split; [exact (image_of _ _ _ dumbbell_args eq_refl eq_refl)|]. split; [exact dumbbell_interior|]. split; [apply zeros_blank; lia|]. split; [constructor|].
  split; [repeat split|]. split; [exact dumbbell_args|]. split; [vm_compute; reflexivity|]. split; [eexists; split; [vm_compute; reflexivity|split; vm_compute; reflexivity]|].
  eexists _, _. vm_compute. reflexivity.
Qed.

(** C142: with four neighbours the contours contain pixels that erosion keeps. *)
Theorem C142_four_refuted : exists fuel g o lab e st lab' p, label_args fuel g lab /\ blank_for g o /\ erode4 g o = Ok e /\
  process fuel (lb_new Four) g lab = Ok (st, lab') /\ drawn st p /\ fg e p.
Proof. exact square_peel. Qed.
Print Assumptions C142_four_refuted.

(** Theorems about blobs and holes of eroded and dilated images (C141). *)
From Verif Require Import Base BaseFacts M_Image S_Image L_Image M_PackedSet M_Binary S_Binary S_Morph M_Contour S_Contour L_ContourEx S_Blobs L_MorphBlobs.
Open Scope Z_scope.

(** C141: dilation never makes more blobs, and keeps together what was together. *)
Theorem C141_dilate : forall fuel1 fuel2 st1 st2 g o lab1 lab2 st1' lab1', used st1 -> used st2 -> lb_rule st1 = lb_rule st2 ->
  label_args fuel1 g lab1 -> label_args fuel2 g lab2 -> 0 < g_width g -> 0 < g_height g -> blank_for g o -> process fuel1 st1 g lab1 = Ok (st1', lab1') ->
  exists d st2' lab2', dilate4 g o = Ok d /\ process fuel2 st2 d lab2 = Ok (st2', lab2') /\ blobs st2' <= blobs st1' /\
    forall p q, fg g p -> fg g q -> interior g (fst p) (snd p) -> interior g (fst q) (snd q) -> fg d p /\ fg d q /\ (together lab1' p q -> together lab2' p q).
Proof. exact dilate_blobs. Qed.
Print Assumptions C141_dilate.

(** C141: erosion never makes more holes, and joins nothing. *)
Theorem C141_erode : forall fuel1 fuel2 st1 st2 g o lab1 lab2 st1' lab1', used st1 -> used st2 -> lb_rule st1 = lb_rule st2 ->
  label_args fuel1 g lab1 -> label_args fuel2 g lab2 -> 0 < g_width g -> 0 < g_height g -> 4 * (g_width g + 4) * (g_height g + 4) < 4294967296 ->
  blank_for g o -> process fuel1 st1 g lab1 = Ok (st1', lab1') ->
  exists e st2' lab2', erode4 g o = Ok e /\ process fuel2 st2 e lab2 = Ok (st2', lab2') /\ holes st2' <= holes st1' /\
    forall p q, fg e p -> fg e q -> fg g p /\ fg g q /\ (together lab2' p q -> together lab1' p q).
Proof. exact erode_holes. Qed.
Print Assumptions C141_erode.

(** Four pixels around one; dilation joins them. *)
Example C141_case : used (lb_new Four) /\ label_args 196 four_around lab0 /\ blank_for four_around (zeros 7 7) /\
  exists st lab, process 196 (lb_new Four) four_around lab0 = Ok (st, lab) /\ blobs st = 4.
Proof.
  split; [constructor|]. split; [exact four_args|]. split; [apply zeros_blank; lia|]. eexists _, _. split; vm_compute; reflexivity.
Qed.

(** C141: erosion may make more blobs, also away from the edge. *)
Theorem C141_erode_blobs_refuted : exists fuel r g o lab e st st' lab' lab'', label_args fuel g lab /\ blank_for g o /\ framed g /\ erode4 g o = Ok e /\
  process fuel (lb_new r) g lab = Ok (st, lab') /\ process fuel (lb_new r) e lab = Ok (st', lab'') /\ blobs st < blobs st'.
Proof. exact erode_more_blobs. Qed.
Print Assumptions C141_erode_blobs_refuted.

(** C141: dilation may make holes. *)
Theorem C141_dilate_holes_refuted : exists fuel r g o lab d st st' lab' lab'', label_args fuel g lab /\ blank_for g o /\ dilate4 g o = Ok d /\
  process fuel (lb_new r) g lab = Ok (st, lab') /\ process fuel (lb_new r) d lab = Ok (st', lab'') /\ holes st = 0 /\ 0 < holes st' /\ blobs st = 4 /\ blobs st' = 1.
Proof. exact dilate_more_holes. Qed.
Print Assumptions C141_dilate_holes_refuted.

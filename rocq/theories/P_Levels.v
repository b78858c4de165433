(** Theorems about blobs of pixels on one side of a threshold (C140). *)
From Verif Require Import Base BaseFacts M_Image S_Image L_Image M_PackedSet M_Binary M_Contour S_Contour L_ContourEx S_Blobs S_Levels L_Levels.
Open Scope Z_scope.

(** C140: a threshold followed by the search for contours always succeeds. *)
Theorem C140_runs : forall fuel st g t down out lab, used st -> level_args fuel g out lab -> exists st' lab', found fuel st g t down out lab st' lab'.
Proof. exact level_runs. Qed.
Print Assumptions C140_runs.

(** C140: blobs are nested.  A threshold further along, or an image whose pixels are further on the side of the threshold, contains the same
    pixels, and pixels of one blob stay in one blob. *)
Theorem C140_nested : forall fuel1 fuel2 st1 st2 g1 g2 t1 t2 (down : bool) out1 out2 lab1 lab2 st1' lab1' st2' lab2', used st1 -> used st2 -> lb_rule st1 = lb_rule st2 ->
  level_args fuel1 g1 out1 lab1 -> level_args fuel2 g2 out2 lab2 -> g_width g2 = g_width g1 -> g_height g2 = g_height g1 ->
  (forall x y u v, pixel g1 x y = Some u -> pixel g2 x y = Some v -> if down then v - t2 <= u - t1 else u - t1 <= v - t2) ->
  found fuel1 st1 g1 t1 down out1 lab1 st1' lab1' -> found fuel2 st2 g2 t2 down out2 lab2 st2' lab2' ->
  forall p, side_of g1 t1 down p -> side_of g2 t2 down p /\ forall q, side_of g1 t1 down q -> together lab1' p q -> together lab2' p q.
Proof. exact level_nested. Qed.
Print Assumptions C140_nested.

(** C140: an image and a threshold that are brighter by the same constant give the same labels, contours and points. *)
Theorem C140_same : forall fuel1 fuel2 st1 st2 g1 g2 t1 t2 down out1 out2 lab1 lab2 st1' lab1' st2' lab2', used st1 -> used st2 ->
  lb_rule st1 = lb_rule st2 -> lb_min st1 = lb_min st2 -> lb_max st1 = lb_max st2 -> lb_save st1 = lb_save st2 ->
  level_args fuel1 g1 out1 lab1 -> level_args fuel2 g2 out2 lab2 -> g_width g2 = g_width g1 -> g_height g2 = g_height g1 ->
  (forall x y u v, pixel g1 x y = Some u -> pixel g2 x y = Some v -> v - t2 = u - t1) ->
  found fuel1 st1 g1 t1 down out1 lab1 st1' lab1' -> found fuel2 st2 g2 t2 down out2 lab2 st2' lab2' ->
  lb_contours st2' = lb_contours st1' /\ (forall i l, has_points st1' i l <-> has_points st2' i l) /\
  forall p, inside g1 (fst p) (snd p) -> pixel lab2' (fst p) (snd p) = pixel lab1' (fst p) (snd p).
Proof. exact level_same. Qed.
Print Assumptions C140_same.

(** C140: the holes in the dark blobs are the bright blobs under the other rule, without the one at the edge, and the other way round. *)
Theorem C140_holes : forall fuel1 fuel2 st1 st2 g t down out1 out2 lab1 lab2 st1' lab1' st2' lab2', used st1 -> used st2 -> lb_rule st2 = dual (lb_rule st1) ->
  level_args fuel1 g out1 lab1 -> level_args fuel2 g out2 lab2 -> 0 < g_width g -> 0 < g_height g -> edge_apart g t down ->
  found fuel1 st1 g t down out1 lab1 st1' lab1' -> found fuel2 st2 g t (negb down) out2 lab2 st2' lab2' -> blobs st2' = 1 + holes st1'.
Proof. exact level_holes. Qed.
Print Assumptions C140_holes.

(** A dark ring around a bright pixel in a bright frame; at 20 only parts of the ring are dark. *)
Example C140_case : used (lb_new Four) /\ used (lb_new Eight) /\ level_args 100 hill (gray_new 0 1 1) lab0 /\ edge_apart hill 40 true /\
  (exists st lab, found 100 (lb_new Four) hill 20 true (gray_new 0 1 1) lab0 st lab /\ blobs st = 1 /\ holes st = 0) /\
  (exists st lab, found 100 (lb_new Four) hill 40 true (gray_new 0 1 1) lab0 st lab /\ blobs st = 1 /\ holes st = 1) /\
  (exists st lab, found 100 (lb_new Eight) hill 40 false (gray_new 0 1 1) lab0 st lab /\ blobs st = 2).
Proof.
  split; [constructor|]. split; [constructor|]. split; [exact hill_args|]. split; [exact hill_edge|].
  split; [eexists _, _; split; [eexists; split; [vm_compute; reflexivity|vm_compute; reflexivity]|split; vm_compute; reflexivity]|].
  split; [eexists _, _; split; [eexists; split; [vm_compute; reflexivity|vm_compute; reflexivity]|split; vm_compute; reflexivity]|].
  eexists _, _; split; [eexists; split; [vm_compute; reflexivity|vm_compute; reflexivity]|vm_compute; reflexivity].
Qed.

(** An image and the same image brighter by 100, with thresholds 20 and 120. *)
Example C140_same_case : used (lb_new Four) /\ level_args 12 three (gray_new 0 1 1) lab0 /\ level_args 12 three_up (gray_new 0 1 1) lab0 /\
  (forall x y u v, pixel three x y = Some u -> pixel three_up x y = Some v -> v - 120 = u - 20) /\
  exists st lab st' lab', found 12 (lb_new Four) three 20 true (gray_new 0 1 1) lab0 st lab /\
    found 12 (lb_new Four) three_up 120 true (gray_new 0 1 1) lab0 st' lab' /\ blobs st = 2.
Proof.
  split; [constructor|]. split; [exact three_args|]. split; [exact three_up_args|]. split; [exact three_up_pixels|]. eexists _, _, _, _.
  split; [eexists; split; [vm_compute; reflexivity|vm_compute; reflexivity]|].
  split; [eexists; split; [vm_compute; reflexivity|vm_compute; reflexivity]|]. vm_compute. reflexivity.
Qed.

(** C140: the number of blobs may rise and fall as the threshold rises. *)
Theorem C140_count_refuted : exists fuel st g t1 t2 t3 out lab s1 l1 s2 l2 s3 l3, used st /\ level_args fuel g out lab /\ t1 < t2 < t3 /\
  found fuel st g t1 true out lab s1 l1 /\ found fuel st g t2 true out lab s2 l2 /\ found fuel st g t3 true out lab s3 l3 /\ blobs s1 < blobs s2 /\ blobs s3 < blobs s2.
Proof. exact counts_vary. Qed.
Print Assumptions C140_count_refuted.

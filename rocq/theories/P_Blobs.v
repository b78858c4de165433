(** Theorems about blobs and holes of related images (C139). *)
From Verif Require Import Base BaseFacts M_Image S_Image L_Image M_PackedSet M_Contour S_Contour L_ContourEx L_Walk S_Blobs L_Blobs.
Open Scope Z_scope.

(** C139: more foreground, and the rule of eight neighbours instead of four, never separate pixels. *)
Theorem C139_more : forall fuel1 fuel2 st1 st2 g1 g2 lab1 lab2 st1' lab1' st2' lab2', used st1 -> used st2 -> label_args fuel1 g1 lab1 -> label_args fuel2 g2 lab2 ->
  process fuel1 st1 g1 lab1 = Ok (st1', lab1') -> process fuel2 st2 g2 lab2 = Ok (st2', lab2') ->
  lb_rule st1 = Four \/ lb_rule st2 = Eight -> (forall p, fg g1 p -> fg g2 p) ->
  forall p q, fg g1 p -> fg g1 q -> together lab1' p q -> together lab2' p q.
Proof. exact more_together. Qed.
Print Assumptions C139_more.

(** C139: with eight neighbours there are no more blobs than with four. *)
Theorem C139_rules : forall fuel1 fuel2 st1 st2 g lab1 lab2 st1' lab1' st2' lab2', used st1 -> used st2 -> label_args fuel1 g lab1 -> label_args fuel2 g lab2 ->
  process fuel1 st1 g lab1 = Ok (st1', lab1') -> process fuel2 st2 g lab2 = Ok (st2', lab2') -> lb_rule st1 = Four -> lb_rule st2 = Eight ->
  blobs st2' <= blobs st1'.
Proof. exact fewer_blobs. Qed.
Print Assumptions C139_rules.

(** Two pixels that touch at a corner are two blobs with four neighbours and one with eight; with a third pixel one with both. *)
Example C139_more_case : label_args 16 pair2 lab0 /\ label_args 16 (pict 2 2 [1;1;0;1]) lab0 /\ (forall p, fg pair2 p -> fg (pict 2 2 [1;1;0;1]) p) /\
  (exists st lab, process 16 (lb_new Four) pair2 lab0 = Ok (st, lab) /\ blobs st = 2) /\
  (exists st lab, process 16 (lb_new Eight) pair2 lab0 = Ok (st, lab) /\ blobs st = 1 /\ together lab (0, 0) (1, 1)) /\
  (exists st lab, process 16 (lb_new Four) (pict 2 2 [1;1;0;1]) lab0 = Ok (st, lab) /\ blobs st = 1).
Proof.
  split; [exact args_pair2|]. split; [apply (args_pict 2 2); try lia; try reflexivity; apply wf_new; lia|]. split.
  { intros (x, y) F. pose proof (pixel_Some _ _ _ _ F) as N. unfold inside in N. cbn in N.
    assert (x = 0 \/ x = 1) as [->| ->] by lia; assert (y = 0 \/ y = 1) as [->| ->] by lia; vm_compute in F |- *; congruence. }
  split; [eexists _, _; split; vm_compute; reflexivity|]. split; [eexists _, _; split; [vm_compute; reflexivity|split; vm_compute; reflexivity]|].
  eexists _, _; split; vm_compute; reflexivity.
Qed.

(** C139: exchanging left and right, top and bottom, or rows and columns leaves pixels together or apart. *)
Theorem C139_reflected : forall s fuel1 fuel2 st1 st2 g1 g2 lab1 lab2 st1' lab1' st2' lab2', used st1 -> used st2 -> label_args fuel1 g1 lab1 -> label_args fuel2 g2 lab2 ->
  process fuel1 st1 g1 lab1 = Ok (st1', lab1') -> process fuel2 st2 g2 lab2 = Ok (st2', lab2') -> lb_rule st1 = lb_rule st2 -> reflected s g1 g2 ->
  forall p q, fg g1 p -> fg g1 q -> (together lab2' (place s g1 p) (place s g1 q) <-> together lab1' p q).
Proof. exact reflected_together. Qed.
Print Assumptions C139_reflected.

(** C139: it keeps the number of blobs, *)
Theorem C139_reflected_blobs : forall s fuel1 fuel2 st1 st2 g1 g2 lab1 lab2 st1' lab1' st2' lab2', used st1 -> used st2 -> label_args fuel1 g1 lab1 -> label_args fuel2 g2 lab2 ->
  process fuel1 st1 g1 lab1 = Ok (st1', lab1') -> process fuel2 st2 g2 lab2 = Ok (st2', lab2') -> lb_rule st1 = lb_rule st2 -> reflected s g1 g2 ->
  blobs st2' = blobs st1'.
Proof. exact reflected_blobs. Qed.
Print Assumptions C139_reflected_blobs.

(** and the number of holes. *)
Theorem C139_reflected_holes : forall s fuel1 fuel2 st1 st2 g1 g2 lab1 lab2 st1' lab1' st2' lab2', used st1 -> used st2 -> label_args fuel1 g1 lab1 -> label_args fuel2 g2 lab2 ->
  process fuel1 st1 g1 lab1 = Ok (st1', lab1') -> process fuel2 st2 g2 lab2 = Ok (st2', lab2') -> lb_rule st1 = lb_rule st2 ->
  reflected_size s g1 g2 -> reflected s g1 g2 -> 4 * (g_width g1 + 4) * (g_height g1 + 4) < 4294967296 -> holes st2' = holes st1'.
Proof. exact reflected_holes. Qed.
Print Assumptions C139_reflected_holes.
Example C139_reflected_case : label_args 24 wide lab0 /\ label_args 24 wide' lab0 /\ reflected_size LeftRight wide wide' /\ reflected LeftRight wide wide'.
Proof. exact wide_reflected. Qed.

(** C139: the holes are the blobs of the inverse image under the other rule, without the one around everything. *)
Theorem C139_inverse : forall fuel1 fuel2 st1 st2 g h lab1 lab2 st1' lab1' st2' lab2', used st1 -> used st2 -> label_args fuel1 g lab1 -> label_args fuel2 h lab2 ->
  process fuel1 st1 g lab1 = Ok (st1', lab1') -> process fuel2 st2 h lab2 = Ok (st2', lab2') -> lb_rule st2 = dual (lb_rule st1) ->
  framed g -> 0 < g_width g -> 0 < g_height g -> inverted g h -> blobs st2' = 1 + holes st1'.
Proof. exact inverse_counts. Qed.
Print Assumptions C139_inverse.
(** A ring. *)
Example C139_inverse_case : label_args 100 ring5 lab0 /\ label_args 100 inv5 lab0 /\ framed ring5 /\ inverted ring5 inv5 /\
  (exists st lab, process 100 (lb_new Four) ring5 lab0 = Ok (st, lab) /\ blobs st = 1 /\ holes st = 1) /\
  (exists st lab, process 100 (lb_new Eight) inv5 lab0 = Ok (st, lab) /\ blobs st = 2).
Proof.
  split; [apply args5; reflexivity|]. split; [apply args5; reflexivity|]. destruct ring_inverted as (F & I). split; [exact F|]. split; [exact I|].
  split; [eexists _, _; split; [vm_compute; reflexivity|split; vm_compute; reflexivity]|]. eexists _, _; split; vm_compute; reflexivity.
Qed.

(** C139: this does not hold with the same rule for both images, *)
Theorem C139_same_rule_refuted : exists fuel r g h lab st st' lab' lab'', label_args fuel g lab /\ label_args fuel h lab /\ framed g /\ inverted g h /\
  0 < g_width g /\ 0 < g_height g /\
  process fuel (lb_new r) g lab = Ok (st, lab') /\ process fuel (lb_new r) h lab = Ok (st', lab'') /\ blobs st' <> 1 + holes st.
Proof. exact same_rule_differs. Qed.
Print Assumptions C139_same_rule_refuted.

(** nor if the foreground reaches the edge of the image. *)
Theorem C139_frame_refuted : exists fuel r g h lab st st' lab' lab'', label_args fuel g lab /\ label_args fuel h lab /\ inverted g h /\ 0 < g_width g /\ 0 < g_height g /\
  process fuel (lb_new r) g lab = Ok (st, lab') /\ process fuel (lb_new (dual r)) h lab = Ok (st', lab'') /\ blobs st' <> 1 + holes st.
Proof. exact no_frame_differs. Qed.
Print Assumptions C139_frame_refuted.

(** C139: a reflected blob may have another number. *)
Theorem C139_numbers_refuted : exists fuel r s g h lab st st' lab' lab'' p, label_args fuel g lab /\ label_args fuel h lab /\ reflected_size s g h /\ reflected s g h /\
  process fuel (lb_new r) g lab = Ok (st, lab') /\ process fuel (lb_new r) h lab = Ok (st', lab'') /\ fg g p /\
  pixel lab'' (fst (place s g p)) (snd (place s g p)) <> pixel lab' (fst p) (snd p).
Proof. exact numbers_differ. Qed.
Print Assumptions C139_numbers_refuted.

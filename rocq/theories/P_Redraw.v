(** C118: the contours determine the image. *)
From Verif Require Import Base M_Image S_Image M_PackedSet S_PackedSet M_Contour S_Contour S_Redraw L_ContourEx L_Redraw.

(** The points of all contours are the foreground pixels that have a background neighbour. *)
Theorem C118_edge fuel st g lab st' lab' : used st -> unlimited st -> label_args fuel g lab -> process fuel st g lab = Ok (st', lab') ->
  forall u, drawn st' u <-> fg g u /\ exists v, bg g v /\ adj_bg (lb_rule st) u v.
Proof. exact (redraw_edge fuel st g lab st' lab'). Qed.
Print Assumptions C118_edge.
Example C118_edge_ex : used (lb_new Eight) /\ unlimited (lb_new Eight) /\ label_args 36 ring3 lab0 /\
  exists st lab, process 36 (lb_new Eight) ring3 lab0 = Ok (st, lab) /\ drawn st (1, 0) /\ bg ring3 (1, 1) /\ adj_bg Eight (1, 0) (1, 1).
Proof. exact redraw_example. Qed.

(** Images of any two sizes with the same blobs and contours have the same foreground. *)
Theorem C118_determined fuel1 fuel2 st1 st2 g1 g2 lab1 lab2 st1' lab1' st2' lab2' :
  used st1 -> used st2 -> unlimited st1 -> unlimited st2 -> lb_rule st1 = lb_rule st2 ->
  label_args fuel1 g1 lab1 -> label_args fuel2 g2 lab2 ->
  process fuel1 st1 g1 lab1 = Ok (st1', lab1') -> process fuel2 st2 g2 lab2 = Ok (st2', lab2') ->
  same_report st1' st2' -> forall p, fg g1 p <-> fg g2 p.
Proof. exact (redraw_same fuel1 fuel2 st1 st2 g1 g2 lab1 lab2 st1' lab1' st2' lab2'). Qed.
Print Assumptions C118_determined.
Example C118_determined_ex : exists st1 lab1 st2 lab2, label_args 36 ring3 lab0 /\ label_args 80 ring4 lab0 /\
  process 36 (lb_new Eight) ring3 lab0 = Ok (st1, lab1) /\ process 80 (lb_new Eight) ring4 lab0 = Ok (st2, lab2) /\ same_report st1 st2.
Proof. exact same_example. Qed.

(** The points alone, without the division into outer and inner contours, do not determine the image. *)
Theorem C118_points_refuted : exists fuel st g1 g2 lab st1' lab1' st2' lab2' p,
  used st /\ unlimited st /\ label_args fuel g1 lab /\ label_args fuel g2 lab /\
  process fuel st g1 lab = Ok (st1', lab1') /\ process fuel st g2 lab = Ok (st2', lab2') /\
  (forall q, drawn st1' q <-> drawn st2' q) /\ fg g1 p /\ bg g2 p.
Proof. exact points_only. Qed.
Print Assumptions C118_points_refuted.

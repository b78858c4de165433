(** Specification vocabulary for reading an image back from its contours. *)
From Verif Require Import Base M_Image S_Image M_PackedSet S_PackedSet M_Contour S_Contour.

(** No contour is left out because of its length, and inner contours are saved: the settings of a new labeller. *)
Definition unlimited (st : labeler) : Prop := lb_min st = 0 /\ lb_max st = 4294967295 /\ lb_save st = true.

(** The pixel is a point of one of the contours. *)
Definition drawn (st : labeler) (p : point) : Prop := exists i l, has_points st i l /\ In p l.

(** The two labellers report the same blobs and the same contours. *)
Definition same_report (s t : labeler) : Prop :=
  lb_contours s = lb_contours t /\ forall i l, has_points s i l <-> has_points t i l.

(** What comparing two images has to mean. *)
From Verif Require Import Base M_Image S_Image.

(** Same size, and [P] holds for the two pixels at every place for which [R] holds. *)
Definition agree {A} (R : Z -> Z -> Prop) (P : A -> A -> Prop) (a b : gray A) : Prop :=
  g_width a = g_width b /\ g_height a = g_height b /\
  forall x y u v, R x y -> pixel a x y = Some u -> pixel b x y = Some v -> P u v.

(** Places within [x0] columns of the left side, [x1] of the right, [y0] rows of the upper and [y1] of the lower one. *)
Definition near_side (w h x0 x1 y0 y1 x y : Z) : Prop := x < x0 \/ y < y0 \/ w - x1 <= x \/ h - y1 <= y.

(** A border wider than the image counts as none: the subtraction of unsigned numbers wraps around. *)
Definition effective (size border : Z) : Z := if size <? border then 0 else border.

(** Differences of pixels that the comparison can compute. *)
Definition comparable (t : ity) (a b : gray Z) : Prop :=
  forall x y u v, pixel a x y = Some u -> pixel b x y = Some v -> Z.abs (u - v) <= ity_max (signed_type t).

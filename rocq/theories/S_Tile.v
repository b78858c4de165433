(** Parts of an image processed on their own. *)
From Verif Require Import Base M_Image S_Image.
Open Scope Z_scope.

(** [s] shows the part of [g] whose first pixel is at (x0,y0): a sub-image or a copy. *)
Definition tile {E} (x0 y0 : Z) (g s : gray E) : Prop :=
  0 <= x0 /\ 0 <= y0 /\ x0 + g_width s <= g_width g /\ y0 + g_height s <= g_height g /\
  forall x y, inside s x y -> pixel s x y = pixel g (x + x0) (y + y0).

(** The pixels of [g] at distance at most [r] from the pixel shown at (x,y) in [s] are all in [s]. *)
Definition sees {E} (r x0 y0 : Z) (g s : gray E) (x y : Z) : Prop :=
  inside s x y /\
  (forall u, x - r <= u <= x + r -> 0 <= u + x0 < g_width g -> 0 <= u < g_width s) /\
  (forall v, y - r <= v <= y + r -> 0 <= v + y0 < g_height g -> 0 <= v < g_height s).

(** [p] agrees at (x,y) with [o] at the same place of the whole image. *)
Definition agrees {R} (x0 y0 : Z) (o p : gray R) (x y : Z) : Prop := pixel p x y = pixel o (x + x0) (y + y0).

(** What a convolution asks of its images; [F] are the values to compute. *)
Definition conv_ready {E R} (g : gray E) (out : gray R) (F : Z -> Z -> option R) : Prop :=
  wf g /\ wf out /\ g_width g <= 1073741824 /\ g_height g <= 1073741824 /\
  (g_sub out = false \/ (g_width out = g_width g /\ g_height out = g_height g)) /\
  forall x y, inside g x y -> exists r, F x y = Some r.

(** Specification vocabulary for combining binary images with logic. *)
From Verif Require Import Base M_Image S_Image M_Heap S_Heap.
Open Scope Z_scope.

(** The inputs have the same shape.  The output has it too and shares memory with them at most pixel on pixel, or it owns other memory. *)
Definition may_combine (a b out : himg) : Prop :=
  h_width b = h_width a /\ h_height b = h_height a /\
  ((h_width out = h_width a /\ h_height out = h_height a /\ aligned a out /\ aligned b out) \/
   (h_sub out = false /\ h_block a <> h_block out /\ h_block b <> h_block out)).

(** [m] has the shape of [g] and is one where [P] holds of the pixel of [g], else zero. *)
Definition mask_of (g m : gray Z) (P : Z -> Prop) : Prop :=
  g_width m = g_width g /\ g_height m = g_height g /\
  forall x y v, pixel g x y = Some v -> (P v /\ pixel m x y = Some 1) \/ (~ P v /\ pixel m x y = Some 0).

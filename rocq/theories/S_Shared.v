(** Specification vocabulary for functions whose output image may share memory with the input. *)
From Verif Require Import Base M_Image S_Image M_Heap S_Heap.

(** [out] as it is after [reshape] to the shape of [a] in the memory that it has: unchanged if it has this shape. *)
Definition target (a out : himg) : himg :=
  if (h_width out =? h_width a) && (h_height out =? h_height a) then out
  else mkHimg (h_width a) (h_height a) (h_offset out) (h_width a) (h_sub out) (h_block out) (h_len out).

(** Row by row and column by column, (x,y) comes before (x',y'). *)
Definition before (x y x' y' : Z) : Prop := y < y' \/ y = y' /\ x < x'.

(** No pixel of [b] lies in the place of a pixel of [a] that comes later. *)
Definition behind (a b : himg) : Prop := forall x y x' y',
  0 <= x < h_width a -> 0 <= y < h_height a -> 0 <= x' < h_width b -> 0 <= y' < h_height b ->
  h_offset a + y * h_stride a + x = h_offset b + y' * h_stride b + x' -> ~ before x' y' x y.

(** [out] can take the shape of [a], and if they share memory then [a] is not overtaken. *)
Definition may_take (a out : himg) : Prop :=
  (h_width out = h_width a /\ h_height out = h_height a \/ h_sub out = false) /\
  (h_block a = h_block out -> behind a (target a out)).

(** No place belongs to both images. *)
Definition apart (a b : himg) : Prop :=
  h_block a = h_block b -> forall x y x' y',
  0 <= x < h_width a -> 0 <= y < h_height a -> 0 <= x' < h_width b -> 0 <= y' < h_height b ->
  h_offset a + y * h_stride a + x <> h_offset b + y' * h_stride b + x'.

(** A call on objects in heap [H] with output [out] has the result of the same call on separate copies of the images:
    the same outcome, the output object shows the same image, other memory is as before. *)
Definition as_copies {Px X} (H : heap Px) (out : himg) (copies : outcome (gray Px * X)) (shared : outcome (heap Px * himg * X))
  : Prop :=
  match copies, shared with
  | Ok (g, x), Ok (H', o, x') => x' = x /\ view H' o = Some g /\
      forall k, k <> h_block out -> (k < length H)%nat -> nth_error H' k = nth_error H k
  | Throw, Throw => True
  | Undef, Undef => True
  | OutOfFuel, OutOfFuel => True
  | _, _ => False
  end.

(** Pairs an outcome with nothing more. *)
Definition only {Y} (r : outcome Y) : outcome (Y * unit) := let* y := r in Ok (y, tt).

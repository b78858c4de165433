(** Model of Point2D (geometry_types.h:12-40) for float and double coordinates.  No proofs. *)
From Coq Require Import Floats.SpecFloat.
From Verif Require Import Base M_Float.

(** geometry_types.h:31-35 [distanceSq(x,y)] of a point [p]; base_types.h:50-59 makes [signed_type] and [sum_type] the
    type of the coordinates, so the conversions change nothing. *)
Definition fdistanceSq (f : fty) (p : spec_float * spec_float) (x y : spec_float) : spec_float :=
  let dx := fsub f x (fst p) in
  let dy := fsub f y (snd p) in
  fadd f (fmul f dx dx) (fmul f dy dy).

(** geometry_types.h:37-39 [distanceSq(p)]. *)
Definition fdistanceSq_point (f : fty) (p q : spec_float * spec_float) : spec_float := fdistanceSq f p (fst q) (snd q).

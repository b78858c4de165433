(** Model of Point2D (geometry_types.h:12-40) for integer coordinates.  No proofs. *)
From Verif Require Import Base M_Image M_Convolve M_Stats.

(** geometry_types.h:31-35 [distanceSq(x,y)] of a point [p]: the differences are computed in the promoted type and
    stored in [signed_type]; the sum of squares is converted to [sum_type]. *)
Definition distanceSq (t : ity) (p : Z * Z) (x y : Z) : outcome Z :=
  let* dx := arith_result (promote t) (x - fst p) in
  let dx := cast (signed_type t) dx in
  let* dy := arith_result (promote t) (y - snd p) in
  let dy := cast (signed_type t) dy in
  let* a := arith_result (signed_type t) (dx * dx) in
  let* b := arith_result (signed_type t) (dy * dy) in
  let* s := arith_result (signed_type t) (a + b) in
  Ok (cast (sum_type t) s).

(** geometry_types.h:37-39 [distanceSq(p)]. *)
Definition distanceSq_point (t : ity) (p q : Z * Z) : outcome Z := distanceSq t p (fst q) (snd q).

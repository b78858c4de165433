(** Squared distance of two points of the plane. *)
From Verif Require Import Base.

Definition sq_dist (p q : Z * Z) : Z := (fst q - fst p) ^ 2 + (snd q - snd p) ^ 2.

(** Points with coordinates of type [t]. *)
Definition point_of (t : ity) (p : Z * Z) : Prop :=
  ity_min t <= fst p <= ity_max t /\ ity_min t <= snd p <= ity_max t.

(** Squared distance in the plane. *)
From Coq Require Import Reals.
From Coq Require Import Floats.SpecFloat.
From Verif Require Import Base M_Float S_Ieee.

(** Both coordinates are numbers; the exact squared distance of the points they stand for. *)
Definition finite_point (f : fty) (p : spec_float * spec_float) : Prop := finite f (fst p) /\ finite f (snd p).
Definition rdist (p q : spec_float * spec_float) : R :=
  ((val (fst q) - val (fst p)) * (val (fst q) - val (fst p)) +
   (val (snd q) - val (snd p)) * (val (snd q) - val (snd p)))%R.

(** The point has the integer coordinates [a]. *)
Definition at_integers (f : fty) (p : spec_float * spec_float) (a : Z * Z) : Prop :=
  finite_point f p /\ val (fst p) = IZR (fst a) /\ val (snd p) = IZR (snd a).
Definition zdist (a b : Z * Z) : Z := (fst b - fst a) * (fst b - fst a) + (snd b - snd a) * (snd b - snd a).

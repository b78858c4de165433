(** What Otsu's method should see of an image of floats. *)
From Coq Require Import Reals Floats.SpecFloat.
From Flocq Require Import Core.
From Verif Require Import Base S_Blur S_Stats S_Image M_Image M_Float S_Ieee.
Open Scope Z_scope.

(** Number of pixels in each interval [i, i+1), for i below [n]. *)
Definition unit_counts (g : gray spec_float) (n : Z) : list Z :=
  map (fun i => zcount i (map (fun v => Zfloor (val v)) (all_pixels g))) (zrange n).

(** All pixels are numbers between 0 and [mx]. *)
Definition within (f : fty) (g : gray spec_float) (mx : R) : Prop :=
  forall x y v, pixel g x y = Some v -> finite f v /\ (0 <= val v <= mx)%R.

(** All pixels are whole numbers. *)
Definition whole (g : gray spec_float) : Prop := forall x y v, pixel g x y = Some v -> exists z, val v = IZR z.

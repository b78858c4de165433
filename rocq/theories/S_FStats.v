(** Statistics of float and double images over the real numbers. *)
From Coq Require Import Reals.
From Coq Require Import Floats.SpecFloat.
From Flocq Require Import Core.
From Verif Require Import Base M_Image S_Image M_Float S_Ieee S_Stats.
Local Open Scope R_scope.

(** Sum of the pixels and of their magnitudes. *)
Definition exact_sum (g : gray spec_float) : R := fold_right Rplus 0 (map val (all_pixels g)).
Definition magnitude (g : gray spec_float) : R := fold_right Rplus 0 (map (fun v => Rabs (val v)) (all_pixels g)).

(** Number of pixels. *)
Definition count (g : gray spec_float) : Z := (g_width g * g_height g)%Z.

(** Every pixel is a number. *)
Definition numbers (f : fty) (g : gray spec_float) : Prop := forall x y p, pixel g x y = Some p -> finite f p.

(** The smallest positive number of full precision, 2^-126 and 2^-1022. *)
Definition smallest_normal (f : fty) : R := bpow radix2 (2 - f_emax f).

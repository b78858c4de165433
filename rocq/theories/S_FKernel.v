(** What is expected of kernels of floating point type computed in IEEE arithmetic. *)
From Coq Require Import Reals.
From Coq Require Import Floats.SpecFloat.
From Verif Require Import Base M_Float M_Otsu M_Block S_Ieee S_Kernel.

(** The operations of [float] and of [double]. *)
Definition ops_of (f : fty) (O : dops spec_float) : Prop := f = F32 /\ O = single \/ f = F64 /\ O = double.

(** [x] is a number of the type as near to [r] as any other. *)
Definition nearest_float (f : fty) (r : R) (x : spec_float) : Prop :=
  finite f x /\ forall y, finite f y -> (Rabs (val x - r) <= Rabs (val y - r))%R.

(** The sum of the coefficients and of their magnitudes. *)
Definition total (l : list spec_float) : R := rsum (map val l).
Definition weight (l : list spec_float) : R := rsum (map (fun v => Rabs (val v)) l).

(** Coefficients of a smoothing kernel: numbers, none negative, with a positive sum that is not close to overflow. *)
Definition smoothing (f : fty) (l : list spec_float) : Prop :=
  (forall v, In v l -> finite f v /\ (0 <= val v)%R) /\ (0 < total l)%R /\ (2 * total l < huge f)%R.

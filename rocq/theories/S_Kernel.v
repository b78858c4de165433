(** What the kernel factory is meant to compute, over the real numbers. *)
From Coq Require Import Reals.
From Flocq Require Import Core.
From Verif Require Import Base S_Stats.
Open Scope Z_scope.

(** The list [f 0; f 1; ...; f (n-1)]. *)
Definition table {A} (n : Z) (f : Z -> A) : list A := map f (zrange n).

Definition rsum (l : list R) : R := fold_right Rplus 0%R l.

(** The bell curve without its constant factor. *)
Definition bell (sigma x : R) : R := exp (- (x * x) / (2 * (sigma * sigma))).

(** Distance of element [i] from the middle of a kernel with [w] elements. *)
Definition place (w i : Z) : R := (IZR i - (IZR w - 1) / 2)%R.

(** The bell curve sampled at the elements, scaled to sum one. *)
Definition gauss_coef (sigma : R) (w i : Z) : R :=
  (bell sigma (place w i) / rsum (table w (fun j => bell sigma (place w j))))%R.

(** The sigma and width used for the requested ones: a width that is not positive is derived from sigma, a sigma that is
    not positive is derived from the width. *)
Definition chosen (sigma : R) (width : Z) (s : R) (w : Z) : Prop :=
  (0 < sigma)%R /\ s = sigma /\ (0 < width /\ w = width \/ width <= 0 /\ w = 2 * Zceil ((5 * sigma - 1) / 2) + 1) \/
  (sigma <= 0)%R /\ 1 < width /\ w = width /\ s = ((2 * IZR (width / 2) + 1) / 5)%R.

(** The integer kernel: the coefficients counted in units of the smallest one, but at most one hundred units. *)
Definition gauss_unit (sigma : R) (w : Z) : R := Rmax (gauss_coef sigma w 0) (gauss_coef sigma w (w / 2) / 100).
Definition gauss_int (sigma : R) (w i : Z) : Z := Zfloor (gauss_coef sigma w i / gauss_unit sigma w).

(** Product of two one-dimensional kernels, in row order. *)
Definition square_table (w : Z) (f : Z -> R) : list R := table (w * w) (fun p => (f (p mod w)%Z * f (p / w)%Z)%R).

(** The integer version of the product: units of the smallest coefficient, but at most one hundred units. *)
Definition square_unit (sigma : R) (w : Z) : R :=
  Rmax (gauss_coef sigma w 0 * gauss_coef sigma w 0) (gauss_coef sigma w (w / 2) * gauss_coef sigma w (w / 2) / 100).
Definition square_int (sigma : R) (w : Z) : list Z :=
  table (w * w) (fun p => Zfloor (gauss_coef sigma w (p mod w) * gauss_coef sigma w (p / w)%Z / square_unit sigma w)).

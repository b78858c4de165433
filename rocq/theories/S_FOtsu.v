(** What Otsu's method should compute when it works with [double], over the real numbers. *)
From Coq Require Import QArith Reals Qreals.
From Coq Require Import Floats.SpecFloat.
From Verif Require Import Base S_Blur M_Float S_Ieee S_Otsu.
Local Open Scope R_scope.

(** Error of a sum over [n] bins, relative to the number of pixels. *)
Definition bins_error (n : Z) : R := IZR (2 * n + 4) * unit_error F64.

(** Separation that may be lost by rounding, for [n] bins and [N] pixels. *)
Definition separation_loss (n N : Z) : R :=
  IZR n * IZR n * (IZR N * IZR N * (12 * bins_error n + 32 * (bins_error n * bins_error n) * IZR N)).

(** No split separates much better than [t]. *)
Definition near_best (h : list Z) (t : Z) : Prop :=
  (0 <= t < zlen h)%Z /\
  forall i, (0 <= i < zlen h)%Z -> Q2R (separation h i) <= Q2R (separation h t) + separation_loss (zlen h) (zsum h).

(** Error of the middle between the means of classes of [a] and [b] pixels. *)
Definition middle_loss (n N a b : Z) : R := 2 * (IZR n * (bins_error n * IZR N * (/ IZR a + / IZR b))).

(** [t] is the middle between the means of the classes of a split that separates nearly best, rounded to an integer; 0 if no
    split separates much. *)
Definition near_middle (h : list Z) (t : Z) : Prop :=
  (t = 0%Z /\ forall i, (0 <= i < zlen h)%Z -> Q2R (separation h i) <= separation_loss (zlen h) (zsum h)) \/
  exists s, near_best h s /\ (0 < zsum (below h s))%Z /\ (0 < zsum (above h s))%Z /\
    Rabs (IZR t - Q2R ((low_mean h s + high_mean h s) / 2)) <=
      / 2 + middle_loss (zlen h) (zsum h) (zsum (below h s)) (zsum (above h s)).

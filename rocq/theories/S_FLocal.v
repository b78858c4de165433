(** What thresholding of float and double images by local means should compute. *)
From Coq Require Import Reals.
From Coq Require Import Floats.SpecFloat.
From Verif Require Import Base M_Image S_Image M_Float S_Ieee S_FNorm S_FBlur.
Local Open Scope R_scope.

(** The pixels at distance at most [r] from (x,y) in both directions, row by row. *)
Fixpoint square_rows (g : gray spec_float) (r x j : Z) (n : nat) : list R :=
  match n with
  | O => []
  | S m => rpresent (fun i => rpixel g i j) (x - r)%Z (Z.to_nat (2 * r + 1)) ++ square_rows g r x (j + 1)%Z m
  end.
Definition square (g : gray spec_float) (r x y : Z) : list R := square_rows g r x (y - r)%Z (Z.to_nat (2 * r + 1)).

(** The pixel [v] is set where the mean of the square is [m]; how far the decision is from tipping over. *)
Definition is_set (down : bool) (scale v m : R) : Prop := if down then v <= m * scale else m < v * scale.
Definition clearance (down : bool) (scale v m : R) : R := if down then Rabs (v - m * scale) else Rabs (v * scale - m).

(** Error of the computed mean for pixels of magnitude at most [M]. *)
Definition blur_error (f : fty) (r : Z) (M : R) (g : gray spec_float) : R :=
  longest_error f r M (g_width g) + longest_error f r (M + longest_error f r M (g_width g)) (g_height g).
(** Error of the comparison, where the computed mean is [m] up to [e]. *)
Definition tipping (f : fty) (down : bool) (scale v m e : R) : R :=
  if down then Rabs scale * e + unit_error f * (Rabs scale * (Rabs m + e)) + tiny_error f
  else e + unit_error f * Rabs (v * scale) + tiny_error f.

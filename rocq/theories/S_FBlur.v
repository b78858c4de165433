(** Accuracy of the mean filter on float and double images. *)
From Coq Require Import Reals.
From Coq Require Import Floats.SpecFloat.
From Verif Require Import Base M_Image S_Image M_Float S_Ieee S_FNorm.
Local Open Scope R_scope.

(** The values among [px i, ..., px (i+n-1)] that exist, and their arithmetic mean. *)
Fixpoint rpresent (px : Z -> option R) (i : Z) (n : nat) : list R :=
  match n with
  | O => []
  | S m => match px i with Some v => v :: rpresent px (i + 1)%Z m | None => rpresent px (i + 1)%Z m end
  end.
Definition average (l : list R) : R := fold_right Rplus 0 l / INR (length l).

(** Mean of the pixels at distance at most [r] in the same row, in the same column, and along the column of the means
    along the rows. *)
Definition box_row (g : gray spec_float) (r x y : Z) : R :=
  average (rpresent (fun i => rpixel g i y) (x - r)%Z (Z.to_nat (2 * r + 1))).
Definition box_col (g : gray spec_float) (r x y : Z) : R :=
  average (rpresent (fun i => rpixel g x i) (y - r)%Z (Z.to_nat (2 * r + 1))).
Definition box_both (g : gray spec_float) (r x y : Z) : R :=
  average (rpresent (fun i => if ((0 <=? i) && (i <? g_height g))%Z then Some (box_row g r x i) else None)
    (y - r)%Z (Z.to_nat (2 * r + 1))).

(** Error of the running total in position [x] of a line: it has been through 2x+2 roundings. *)
Definition slide_error (f : fty) (M : R) (x : Z) : R :=
  ((1 + unit_error f) ^ Z.to_nat (2 * x + 2) - 1) * M + tiny_error f.
(** Error of the means at the ends of a line. *)
Definition end_error (f : fty) (r : Z) (M : R) : R :=
  let w := IZR (2 * r + 1) in (6 * w + 4) * unit_error f * M + (4 * w * w + 1) * tiny_error f.
(** Error in position [x] of a line of [n] pixels. *)
Definition line_error (f : fty) (r : Z) (M : R) (n x : Z) : R :=
  if ((r <=? x) && (x <? n - r))%Z then slide_error f M x else end_error f r M.
(** The largest of them. *)
Definition longest_error (f : fty) (r : Z) (M : R) (n : Z) : R := Rmax (slide_error f M n) (end_error f r M).

(** No overflow along a line of [n] pixels; few enough pixels in the window. *)
Definition safe_line (f : fty) (r : Z) (M : R) (n : Z) : Prop :=
  few f (Z.to_nat (2 * r + 1)) /\ 4 * M + 1 < huge f /\
  IZR (2 * r + 1) * M * (1 + unit_error f) ^ Z.to_nat (2 * n) < huge f.
(** The vertical filter runs the sliding window only if the kernel fits into the width. *)
Definition column_error (f : fty) (r : Z) (M : R) (width height y : Z) : R :=
  if (width <? 2 * r + 1)%Z then end_error f r M else line_error f r M height y.

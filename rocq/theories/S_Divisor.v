(** What convolutions with a divisor and convolutions without border handling should compute. *)
From Coq Require Import Reals.
From Coq Require Import Floats.SpecFloat.
From Verif Require Import Base M_Image S_Image M_Convolve S_Convolve M_Float S_Ieee S_FConv.

(** Sample [i] of a kernel at (x,y), for a horizontal, a vertical and a square kernel. *)
Definition samples_h {S V} (K : kernel S) (P : Z -> Z -> V) (x y i : Z) : V := P (x - k_offset K + i) y.
Definition samples_v {S V} (K : kernel S) (P : Z -> Z -> V) (x y i : Z) : V := P x (y - k_offset K + i).
Definition samples_2 {S V} (K : kernel S) (P : Z -> Z -> V) (x y i : Z) : V :=
  P (x - k_offset K + i mod k_width K) (y - k_offset K + i / k_width K).

(** The weighted sum without a border: defined when all samples are pixels of the image. *)
Definition plain_h {E S R} (A : arith E S R) (K : kernel S) (g : gray E) (x y : Z) : option R :=
  filtered A (k_data K) (samples_h K (pixel g) x y).
Definition plain_v {E S R} (A : arith E S R) (K : kernel S) (g : gray E) (x y : Z) : option R :=
  filtered A (k_data K) (samples_v K (pixel g) x y).
Definition plain_2 {E S R} (A : arith E S R) (K : kernel S) (g : gray E) (x y : Z) : option R :=
  filtered A (k_data K) (samples_2 K (pixel g) x y).

(** The whole kernel lies inside a side of length [n] at position [x]. *)
Definition whole {S} (K : kernel S) (n x : Z) : Prop := k_offset K <= x < n - (k_width K - k_offset K - 1).

(** [out] has [F] at the pixels selected by [P] and is [o] everywhere else, in the same memory. *)
Definition fills {R} (o out : gray R) (P : Z -> Z -> Prop) (F : Z -> Z -> option R) : Prop :=
  same_layout o out /\
  (forall x y, inside o x y -> P x y -> pixel out x y = F x y) /\
  (forall x y, inside o x y -> ~ P x y -> pixel out x y = pixel o x y) /\
  (forall j, outside_window o j -> znth (g_data out) j = znth (g_data o) j).

(** Integers: sum plus half the divisor, divided by the divisor towards zero, reduced to the pixel type. *)
Definition divided (t : ity) (d : Z) (ks : list Z) (f : Z -> Z) : Z :=
  cast t (Z.quot (zdot ks f 0 + Z.quot d 2) d).

(** Floating point: error of a sum divided by [d]. *)
Definition quotient_error (f : fty) (n : nat) (mag sum d : R) : R :=
  ((sum_error f n mag * (1 + unit_error f) + unit_error f * Rabs sum) / Rabs d + tiny_error f)%R.
(** Neither the sum nor the quotient overflows. *)
Definition safe_quotient (f : fty) (n : nat) (mag d : R) : Prop :=
  safe_magnitude f n mag /\ ((mag + sum_error f n mag) / Rabs d * (1 + unit_error f) + tiny_error f < huge f)%R.
(** [out] has a number within [e] of [D] at the pixels selected by [P] and is [o] everywhere else. *)
Definition fills_near (f : fty) (o out : gray spec_float) (P : Z -> Z -> Prop) (D e : Z -> Z -> R) : Prop :=
  same_layout o out /\
  (forall x y, inside o x y -> P x y ->
     exists v, pixel out x y = Some v /\ finite f v /\ (Rabs (val v - D x y) <= e x y)%R) /\
  (forall x y, inside o x y -> ~ P x y -> pixel out x y = pixel o x y) /\
  (forall j, outside_window o j -> znth (g_data out) j = znth (g_data o) j).
(** The exact quotient at (x,y), its error bound and the absence of overflow, for one of the three kinds of samples. *)
Definition fquot (K : kernel spec_float) (d : spec_float) (smp : (Z -> Z -> R) -> Z -> Z -> Z -> R) (P : Z -> Z -> R) (x y : Z) : R :=
  (rdot (k_data K) (smp P x y) 0 / val d)%R.
Definition fquot_error (f : fty) (K : kernel spec_float) (d : spec_float) (smp : (Z -> Z -> R) -> Z -> Z -> Z -> R)
    (P : Z -> Z -> R) (x y : Z) : R :=
  quotient_error f (length (k_data K)) (rmag (k_data K) (smp P x y) 0) (rdot (k_data K) (smp P x y) 0) (val d).
Definition fquot_safe (f : fty) (K : kernel spec_float) (d : spec_float) (smp : (Z -> Z -> R) -> Z -> Z -> Z -> R)
    (P : Z -> Z -> R) (x y : Z) : Prop :=
  safe_quotient f (length (k_data K)) (rmag (k_data K) (smp P x y) 0) (val d).

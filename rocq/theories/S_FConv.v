(** Accuracy of filters on float and double images. *)
From Coq Require Import Reals.
From Coq Require Import Floats.SpecFloat.
From Verif Require Import Base M_Image S_Image M_Border S_Border M_Convolve S_Convolve M_Float S_Ieee.
Local Open Scope R_scope.

(** Exact sum of coefficient times sample, and the sum of the magnitudes of the terms. *)
Fixpoint rdot (ks : list spec_float) (p : Z -> R) (i : Z) : R :=
  match ks with [] => 0 | c :: r => val c * p i + rdot r p (i + 1)%Z end.
Fixpoint rmag (ks : list spec_float) (p : Z -> R) (i : Z) : R :=
  match ks with [] => 0 | c :: r => Rabs (val c * p i) + rmag r p (i + 1)%Z end.

(** Every sample the filter can look at is a number, and [P] gives its value. *)
Definition shows (f : fty) (b : border spec_float) (g : gray spec_float) (P : Z -> Z -> R) : Prop :=
  forall x y, exists p, extended b g x y = Some p /\ finite f p /\ val p = P x y.

(** All pixels, and the value beyond the border, are numbers; the extended image as real numbers. *)
Definition numbers (f : fty) (b : border spec_float) (g : gray spec_float) : Prop :=
  (forall x y p, inside g x y -> pixel g x y = Some p -> finite f p) /\ (forall v, b = BValue v -> finite f v).
Definition rextended (b : border spec_float) (g : gray spec_float) (x y : Z) : R :=
  match extended b g x y with Some p => val p | None => 0 end.

(** Error of a sum of [n] products of total magnitude [A]: each term takes part in at most n+1 roundings. *)
Definition sum_error (f : fty) (n : nat) (A : R) : R :=
  ((1 + unit_error f) ^ (n + 1) - 1) * A + INR n * tiny_error f * (1 + unit_error f) ^ n.

(** No intermediate result can overflow. *)
Definition safe_magnitude (f : fty) (n : nat) (A : R) : Prop :=
  (A + INR n * tiny_error f) * (1 + unit_error f) ^ (n + 1) < huge f.

(** [out] is [o] with other pixels: it has the same layout and the memory outside of its window is that of [o]. *)
Definition leaves (o out : gray spec_float) : Prop :=
  same_layout o out /\ forall j, outside_window o j -> znth (g_data out) j = znth (g_data o) j.

(** The pixels of [out] are [D] up to an error of [e]; [out] has the size of [g] and is [o] otherwise. *)
Definition approximates (f : fty) (g o out : gray spec_float) (D e : Z -> Z -> R) : Prop :=
  g_width out = g_width g /\ g_height out = g_height g /\ leaves o out /\
  forall x y, inside g x y -> exists v, pixel out x y = Some v /\ finite f v /\ Rabs (val v - D x y) <= e x y.

(** The coefficients are the integers [cs]; the pixels of [out] are exactly the integers [D]. *)
Definition integer_kernel (f : fty) (K : kernel spec_float) (cs : list Z) : Prop :=
  Forall2 (fun c z => finite f c /\ val c = IZR z) (k_data K) cs.
Definition exactly (f : fty) (g o out : gray spec_float) (D : Z -> Z -> Z) : Prop :=
  g_width out = g_width g /\ g_height out = g_height g /\ leaves o out /\
  forall x y, inside g x y -> exists v, pixel out x y = Some v /\ finite f v /\ val v = IZR (D x y).

(** The sum in IEEE arithmetic, left to right, one rounding after each product and each addition, starting from [s]. *)
Fixpoint ieee_sum (f : fty) (s : spec_float) (ks : list spec_float) (px : Z -> option spec_float) (i : Z) : option spec_float :=
  match ks with
  | [] => Some s
  | c :: r =>
      match px i with
      | None => None
      | Some p => ieee_sum f (SFadd (f_prec f) (f_emax f) s (SFmul (f_prec f) (f_emax f) c p)) r px (i + 1)%Z
      end
  end.

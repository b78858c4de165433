(** Accuracy of normalized filters on float and double images. *)
From Coq Require Import Reals.
From Coq Require Import Floats.SpecFloat.
From Verif Require Import Base M_Image S_Image M_Convolve M_Float S_Ieee.
Local Open Scope R_scope.

(** Exact sums over the samples that exist: coefficient times sample, and the coefficients alone. *)
Fixpoint rtotal (ks : list spec_float) (px : Z -> option R) (i : Z) : R :=
  match ks with
  | [] => 0
  | c :: r => match px i with Some p => val c * p | None => 0 end + rtotal r px (i + 1)%Z
  end.
Fixpoint rweight (ks : list spec_float) (px : Z -> option R) (i : Z) : R :=
  match ks with
  | [] => 0
  | c :: r => match px i with Some _ => val c | None => 0 end + rweight r px (i + 1)%Z
  end.
(** The weighted mean. *)
Definition rmean (ks : list spec_float) (px : Z -> option R) : R := rtotal ks px 0 / rweight ks px 0.

(** Pixels as real numbers; exact means along the row and along the column of those. *)
Definition rpixel (g : gray spec_float) (x y : Z) : option R := option_map val (pixel g x y).
Definition row_mean (K : kernel spec_float) (g : gray spec_float) (x y : Z) : R :=
  rmean (k_data K) (fun i => rpixel g (x - k_offset K + i)%Z y).
Definition col_mean (K : kernel spec_float) (g : gray spec_float) (x y : Z) : R :=
  rmean (k_data K) (fun i => rpixel g x (y - k_offset K + i)%Z).
Definition both_mean (K : kernel spec_float) (g : gray spec_float) (x y : Z) : R :=
  rmean (k_data K) (fun i => let y' := (y - k_offset K + i)%Z in
    if ((0 <=? y') && (y' <? g_height g))%Z then Some (row_mean K g x y') else None).
(** Total weight of the coefficients that meet a pixel in position [x] of a line of [n] pixels. *)
Definition line_weight (K : kernel spec_float) (n x : Z) : R :=
  rweight (k_data K) (fun i => let x' := (x - k_offset K + i)%Z in if ((0 <=? x') && (x' <? n))%Z then Some 0 else None) 0.

(** Bound on the error of a mean of [n] samples of magnitude at most [M] with total weight [w]. *)
Definition mean_error (f : fty) (n : nat) (M w : R) : R :=
  (6 * INR n + 4) * unit_error f * M + (2 * INR n / w + 1) * tiny_error f.

(** No intermediate result can overflow, and the weight is positive. *)
Definition safe_mean (f : fty) (n : nat) (M w : R) : Prop :=
  0 < w /\ 2 * w < huge f /\ 2 * (M * w + INR n * tiny_error f) < huge f /\
  2 * M + (2 * INR n / w + 1) * tiny_error f < huge f.

(** Few enough samples: at most 2^21 - 1 for float. *)
Definition few (f : fty) (n : nat) : Prop := 8 * (INR n + 1) * unit_error f <= 1.

(** Non-negative coefficients; pixels of magnitude at most [M]. *)
Definition nonneg_numbers (f : fty) (ks : list spec_float) : Prop := forall c, In c ks -> finite f c /\ 0 <= val c.
Definition bounded_numbers (f : fty) (g : gray spec_float) (M : R) : Prop :=
  forall x y p, inside g x y -> pixel g x y = Some p -> finite f p /\ Rabs (val p) <= M.

(** Bounds for two passes in a row: every line weight lies between [w0] and [w1]. *)
Definition line_weights (K : kernel spec_float) (n : Z) (w0 w1 : R) : Prop :=
  forall x, (0 <= x < n)%Z -> w0 <= line_weight K n x <= w1.
Definition two_pass_error (f : fty) (n : nat) (M w : R) : R :=
  mean_error f n M w + mean_error f n (M + mean_error f n M w) w.
Definition safe_passes (f : fty) (n : nat) (M w0 w1 : R) : Prop :=
  let M' := M + mean_error f n M w0 in
  0 < w0 /\ 2 * w1 < huge f /\ 2 * (M' * w1 + INR n * tiny_error f) < huge f /\
  2 * M' + (2 * INR n / w0 + 1) * tiny_error f < huge f.

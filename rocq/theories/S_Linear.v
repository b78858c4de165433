(** Convolution as a linear map. *)
From Verif Require Import Base M_Image S_Image M_Border S_Border M_Convolve S_Convolve S_Symmetry.
Open Scope Z_scope.

(** The three convolutions: with a row, with a column, with a square (convolve.h: [ConvolveImage::horizontal], [vertical], [convolve]). *)
Inductive shape := Row | Column | Square.
Definition convolve {E S R} (s : shape) (A : arith E S R) (zero : R) (K : kernel S) (b : border E) (g : gray E) (out : gray R) : outcome (gray R) :=
  match s with Row => convolve_h A zero K b g out | Column => convolve_v A zero K b g out | Square => convolve_2 A zero K b g out end.
Definition kernel_for {S} (s : shape) (K : kernel S) (b : border Z) (g : gray Z) : Prop :=
  match s with
  | Row => kernel1_ok K /\ fits b (g_width g) K
  | Column => kernel1_ok K /\ fits b (g_height g) K
  | Square => kernel2_ok K /\ fits b (g_width g) K /\ fits b (g_height g) K
  end.

(** Where coefficient [i] sits, relative to the pixel that is computed. *)
Definition place_x {S} (s : shape) (K : kernel S) (i : Z) : Z :=
  match s with Row => i - k_offset K | Column => 0 | Square => i mod k_width K - k_offset K end.
Definition place_y {S} (s : shape) (K : kernel S) (i : Z) : Z :=
  match s with Row => 0 | Column => i - k_offset K | Square => i / k_width K - k_offset K end.

(** Sums of coefficients times samples of absolute value at most [M] do not overflow; the output can take the size of the input. *)
Definition sum_ready (t : ity) (K : kernel Z) (b : border Z) (M : Z) (g out : gray Z) : Prop :=
  wf g /\ wf out /\ 0 < g_width g <= 1073741824 /\ 0 < g_height g <= 1073741824 /\
  (forall x y v, pixel g x y = Some v -> Z.abs v <= M) /\ (forall v, b = BValue v -> Z.abs v <= M) /\
  zabs_sum (k_data K) * M <= ity_max (signed_type t) /\
  (g_sub out = false \/ (g_width out = g_width g /\ g_height out = g_height g)).

(** [c] is [p] times [g] plus [q] times [h], for images, borders and kernels. *)
Definition image_sum (p q : Z) (g h c : gray Z) : Prop :=
  same_size g h /\ same_size g c /\ forall x y u v, pixel g x y = Some u -> pixel h x y = Some v -> pixel c x y = Some (p * u + q * v).
Definition border_sum (p q : Z) (b1 b2 b3 : border Z) : Prop :=
  match b1, b2, b3 with
  | BValue u, BValue v, BValue w => w = p * u + q * v
  | BExtend, BExtend, BExtend | BReflect, BReflect, BReflect | BWrap, BWrap, BWrap => True
  | _, _, _ => False
  end.
Definition kernel_sum (p q : Z) (K L C : kernel Z) : Prop :=
  k_width L = k_width K /\ k_offset L = k_offset K /\ k_width C = k_width K /\ k_offset C = k_offset K /\
  zlen (k_data L) = zlen (k_data K) /\ zlen (k_data C) = zlen (k_data K) /\
  forall i u v, znth (k_data K) i = Some u -> znth (k_data L) i = Some v -> znth (k_data C) i = Some (p * u + q * v).

(** The result [oc] is the same combination of [og] and [oh], reduced to the output type. *)
Definition output_sum (r : ity) (p q : Z) (og oh oc : gray Z) : Prop :=
  same_size og oh /\ same_size og oc /\
  forall x y u v, pixel og x y = Some u -> pixel oh x y = Some v -> pixel oc x y = Some (cast r (p * u + q * v)).

(** Coefficient [n] is one and the others are zero. *)
Definition unit_at (n : Z) (ks : list Z) : Prop := znth ks n = Some 1 /\ forall i c, i <> n -> znth ks i = Some c -> c = 0.

(** Image and kernel turned around. *)
Definition turned (s : shape) (g h : gray Z) : Prop :=
  match s with
  | Row => mirrored_x g h
  | Column => mirrored_y g h
  | Square => same_size g h /\ forall x y, inside g x y -> pixel h x y = pixel g (g_width g - 1 - x) (g_height g - 1 - y)
  end.
Definition turned_kernel (K L : kernel Z) : Prop :=
  k_width L = k_width K /\ k_offset L = k_width K - 1 - k_offset K /\ k_data L = rev (k_data K).

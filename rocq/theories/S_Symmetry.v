(** Relations between two images that a blur is expected to keep. *)
From Coq Require Import Reals.
From Verif Require Import Base M_Image S_Image S_Kernel.
Open Scope Z_scope.

Definition same_size (g h : gray Z) : Prop := g_width h = g_width g /\ g_height h = g_height g.

(** No pixel of [g] is brighter than that of [h]. *)
Definition not_above (g h : gray Z) : Prop :=
  same_size g h /\ forall x y u v, pixel g x y = Some u -> pixel h x y = Some v -> u <= v.

(** [h] is [g] with [c] added to each pixel. *)
Definition shifted (c : Z) (g h : gray Z) : Prop :=
  same_size g h /\ forall x y u, pixel g x y = Some u -> pixel h x y = Some (u + c).

(** [h] is [g] with left and right exchanged, with top and bottom exchanged, with rows and columns exchanged. *)
Definition mirrored_x (g h : gray Z) : Prop :=
  same_size g h /\ forall x y, inside g x y -> pixel h x y = pixel g (g_width g - 1 - x) y.
Definition mirrored_y (g h : gray Z) : Prop :=
  same_size g h /\ forall x y, inside g x y -> pixel h x y = pixel g x (g_height g - 1 - y).
Definition transposed (g h : gray Z) : Prop :=
  g_width h = g_height g /\ g_height h = g_width g /\ forall x y, inside g x y -> pixel h y x = pixel g x y.

(** Images for which the mean of radius [r] is computed without overflow: pixels in the range of type [t] with absolute value
    at most [M]; output and storage can take the size of the input. *)
Definition mean_ready (t : ity) (r M : Z) (g out work : gray Z) : Prop :=
  0 < r /\ 2 * r + 1 <= 1073741824 /\ wf g /\ wf out /\ wf work /\
  0 < g_width g <= 1073741824 /\ 0 < g_height g <= 1073741824 /\ 0 <= M /\
  (forall x y v, pixel g x y = Some v -> ity_min t <= v <= ity_max t /\ Z.abs v <= M) /\
  (2 * r + 1) * (M + 1) <= ity_max (signed_type t) /\
  (g_sub out = false \/ (g_width out = g_width g /\ g_height out = g_height g)) /\
  ((g_sub work = false /\ g_width g * (g_height g + 1) <= 4294967296) \/
   (g_width work = g_width g /\ g_height work = g_height g /\
    g_offset work + g_width work + g_height work * g_stride work <= 4294967296)) /\
  (g_width g < 2 * r + 1 \/ 2 * r + 1 <= g_height g).

(** The same for the Gaussian blur of images of unsigned integers; [s] and [w] are the sigma and width that are used. *)
Definition gauss_ready (t : ity) (sigma : R) (width : Z) (s : R) (w : Z) (g out work : gray Z) : Prop :=
  (t = U8 \/ t = U16) /\ chosen sigma width s w /\ 100 * w * (ity_max t + 1) <= 2147483647 /\
  wf g /\ wf out /\ wf work /\ 0 < g_width g <= 1073741824 /\ 0 < g_height g <= 1073741824 /\
  (forall x y v, pixel g x y = Some v -> 0 <= v <= ity_max t) /\
  (g_sub out = false \/ (g_width out = g_width g /\ g_height out = g_height g)) /\
  (g_sub work = false \/ (g_width work = g_width g /\ g_height work = g_height g)).

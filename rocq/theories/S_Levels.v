(** Specification vocabulary for blobs of pixels on one side of a threshold. *)
From Verif Require Import Base M_Image S_Image M_PackedSet M_Contour S_Contour M_Binary S_Blobs.
Open Scope Z_scope.

(** Pixels that are not above the threshold ([down]), or above it. *)
Definition side_of (g : gray Z) (t : Z) (down : bool) (p : point) : Prop :=
  exists v, pixel g (fst p) (snd p) = Some v /\ if down then v <= t else t < v.

(** Images for a threshold followed by the search for contours: the binary image and the labels can take the size of [g]. *)
Record level_args (fuel : nat) (g out lab : gray Z) : Prop := {
  le_in : wf g;
  le_out : wf out;
  le_out_sub : g_sub out = true -> g_width out = g_width g /\ g_height out = g_height g;
  le_size : 4 * (g_width g + 2) * (g_height g + 2) < 4294967296;
  le_lab : wf lab;
  le_lab_sub : g_sub lab = true -> g_width lab = g_width g /\ g_height lab = g_height g /\ g_stride lab < 2147483647;
  le_fuel : 4 * g_width g * g_height g <= Z.of_nat fuel }.

(** [g] is compared with [t] into [out] and the contours of the result are searched, with the labels in [lab]. *)
Definition found (fuel : nat) (st : labeler) (g : gray Z) (t : Z) (down : bool) (out lab : gray Z) (st' : labeler) (lab' : gray Z) : Prop :=
  exists r, threshold Z.leb Z.gtb g t down out = Ok r /\ process fuel st r lab = Ok (st', lab').

(** All pixels at the edge of the image are on the other side. *)
Definition edge_apart (g : gray Z) (t : Z) (down : bool) : Prop :=
  forall p, side_of g t down p -> 1 <= fst p < g_width g - 1 /\ 1 <= snd p < g_height g - 1.

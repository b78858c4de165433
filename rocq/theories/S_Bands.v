(** Specification vocabulary for averages of bands. *)
From Verif Require Import Base M_Image S_Image.
Open Scope Z_scope.

(** Arguments of the average of bands: values of the type that are not negative, sums that fit, an output that can take the size. *)
Record band_args (t : ity) (M : Z) (g : inter Z) (out : gray Z) : Prop := {
  ba_in : i_wf g;
  ba_out : wf out;
  ba_bands : 0 < i_bands g;
  ba_max : 0 <= M;
  ba_values : forall x y b v, i_pixel g x y b = Some v -> ity_min t <= v <= ity_max t /\ 0 <= v <= M;
  ba_sum : i_bands g * M <= ity_max (sum_type t);
  ba_sub : g_sub out = false \/ (g_width out = i_width g /\ g_height out = i_height g) }.

Definition in_frame (g : inter Z) (x y : Z) : Prop := 0 <= x < i_width g /\ 0 <= y < i_height g.
Definition same_frame (g h : inter Z) : Prop := i_width h = i_width g /\ i_height h = i_height g /\ i_bands h = i_bands g.

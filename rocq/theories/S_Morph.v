(** Relations between binary images, for erosion and dilation. *)
From Verif Require Import Base M_Image S_Image S_Binary S_Symmetry.
Open Scope Z_scope.

(** Every pixel that is set in [a] is set in [b]. *)
Definition subset (a b : gray Z) : Prop := same_size a b /\ forall x y, is_set a x y = true -> is_set b x y = true.

(** Pixels at distance at least [n] from the edge. *)
Definition deep (n : Z) (g : gray Z) (x y : Z) : Prop := n <= x < g_width g - n /\ n <= y < g_height g - n.

(** [c] is set where [a] or [b] is; where both are. *)
Definition union (a b c : gray Z) : Prop :=
  same_size a b /\ same_size a c /\ forall x y, is_set c x y = is_set a x y || is_set b x y.
Definition meet (a b c : gray Z) : Prop :=
  same_size a b /\ same_size a c /\ forall x y, is_set c x y = is_set a x y && is_set b x y.

(** Binary images the operations accept. *)
Definition bin_image (g : gray Z) : Prop :=
  wf g /\ binary g /\ 0 < g_width g <= 2147483648 /\ 0 < g_height g <= 2147483648.

(** [o] can take the result for [g] and has no pixel set on the edge then; a new image of that size is one. *)
Definition blank_for (g o : gray Z) : Prop :=
  wf o /\ exists o', gray_reshape 0 o (g_width g) (g_height g) = Ok o' /\
    forall x y, inside g x y -> ~ interior g x y -> pixel o' x y = Some 0.

(** When thresholds should give the same binary image. *)
From Verif Require Import Base M_Image S_Image S_Stats S_Symmetry.
Open Scope Z_scope.

(** The same pixels. *)
Definition alike (o p : gray Z) : Prop := same_size o p /\ forall x y, pixel p x y = pixel o x y.

(** Not all pixels are equal. *)
Definition two_values (g : gray Z) : Prop :=
  exists x y x' y' u v, pixel g x y = Some u /\ pixel g x' y' = Some v /\ u < v.

(** Value [v + k] is as frequent in [h] as [v] is in [g]. *)
Definition same_counts (k : Z) (g h : gray Z) : Prop :=
  forall v, zcount (v + k) (all_pixels h) = zcount v (all_pixels g).

(** Thresholding by blocks and brightness. *)
From Verif Require Import Base M_Image S_Image S_Block.
Open Scope Z_scope.

(** The blocks around each block have pixels of two different values. *)
Definition varied (g : gray Z) (req : Z) (local : bool) : Prop :=
  forall b, is_block g req b -> exists u v, In u (near_pixels g req local b) /\ In v (near_pixels g req local b) /\ u < v.

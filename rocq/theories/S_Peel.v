(** Specification vocabulary for repeated erosion and dilation. *)
From Verif Require Import Base M_Image S_Image S_Binary.
Open Scope Z_scope.

(** The operation is applied once for each output image of the list, each time to the last result. *)
Fixpoint times (op : gray Z -> gray Z -> outcome (gray Z)) (os : list (gray Z)) (g : gray Z) : outcome (gray Z) :=
  match os with
  | [] => Ok g
  | o :: os => let* r := op g o in times op os r
  end.

(** Number of steps between two pixels, over sides. *)
Definition steps (x y u v : Z) : Z := Z.abs (x - u) + Z.abs (y - v).

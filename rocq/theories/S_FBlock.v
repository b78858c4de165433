(** What thresholding of float and double images by blocks should compute, over the real numbers. *)
From Coq Require Import Reals.
From Coq Require Import Floats.SpecFloat.
From Verif Require Import Base M_Image S_Image M_Float S_Ieee S_FBlur S_Block.
Local Open Scope R_scope.

(** The threshold of block [b]: the scaled means of the blocks around it, averaged. *)
Definition level (scale : R) (g : gray spec_float) (req : Z) (local : bool) (b : Z * Z) : R :=
  average (map (fun c => scale * average (map val (block_pixels g req c))) (near_blocks g req local b)).

(** Its error, for blocks of at most [n] pixels of magnitude at most [M]. *)
Definition level_error (f : fty) (n : Z) (scale M : R) : R :=
  ((1 + unit_error f) ^ Z.to_nat (n + 16) - 1) * (Rabs scale * M) + 5 * tiny_error f.

(** [lo] and [hi] are the smallest and the largest of the numbers [l]. *)
Definition spans (l : list spec_float) (lo hi : R) : Prop :=
  (exists v, In v l /\ val v = lo) /\ (exists v, In v l /\ val v = hi) /\ forall v, In v l -> lo <= val v <= hi.

(** The middle of a range, and the error of its scaled value. *)
Definition middle (lo hi : R) : R := (lo + hi) / 2.
Definition middle_error (f : fty) (scale lo hi : R) : R :=
  Rabs scale * (((1 + unit_error f) ^ 3 - 1) * Rabs (middle lo hi) + 2 * tiny_error f) + tiny_error f.

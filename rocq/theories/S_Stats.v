(** Specification vocabulary for whole images. *)
From Verif Require Import Base M_Image S_Image S_Blur.

(** 0, 1, ..., n-1. *)
Definition zrange (n : Z) : list Z := map Z.of_nat (seq 0 (Z.to_nat n)).

Definition opt_list {A} (o : option A) : list A := match o with Some v => [v] | None => [] end.

(** The pixels in reading order. *)
Definition all_pixels {A} (g : gray A) : list A :=
  flat_map (fun y => flat_map (fun x => opt_list (pixel g x y)) (zrange (g_width g))) (zrange (g_height g)).

(** The bands of one pixel of an interleaved image. *)
Definition bands_of {A} (g : inter A) (x y : Z) : list A :=
  flat_map (fun b => opt_list (i_pixel g x y b)) (zrange (i_bands g)).

(** Number of elements equal to [v]. *)
Fixpoint zcount (v : Z) (l : list Z) : Z :=
  match l with [] => 0 | a :: r => (if a =? v then 1 else 0) + zcount v r end.

(** Distance to the edge of the image below [r]. *)
Definition near_edge {A} (g : gray A) (r x y : Z) : bool :=
  (x <? r) || (g_width g - r <=? x) || (y <? r) || (g_height g - r <=? y).

(** A loop over the elements of a list. *)
Fixpoint mfold {A S} (f : A -> S -> outcome S) (l : list A) (s : S) : outcome S :=
  match l with [] => Ok s | a :: r => let* s := f a s in mfold f r s end.

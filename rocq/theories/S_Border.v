(** Mathematical extension of a finite line of [n] samples, and of an image, to all integer coordinates. *)
From Verif Require Import Base M_Image S_Image M_Border.

(** Nearest index of 0..n-1. *)
Definition nearest (n x : Z) : Z := Z.max 0 (Z.min x (n - 1)).

(** Mirror at the first and the last sample (neither is repeated): the even function of period 2(n-1) that is the
    identity on 0..n-1.  A line with a single sample is constant. *)
Definition mirrored (n x : Z) : Z :=
  if n =? 1 then 0 else let r := x mod (2 * (n - 1)) in if r <? n then r else 2 * (n - 1) - r.

(** Periodic repetition. *)
Definition periodic (n x : Z) : Z := x mod n.

(** The extended image as a function on the whole plane. *)
Definition extended {A} (b : border A) (g : gray A) (x y : Z) : option A :=
  match b with
  | BValue v =>
      if (0 <=? x) && (x <? g_width g) && (0 <=? y) && (y <? g_height g) then pixel g x y else Some v
  | BExtend => pixel g (nearest (g_width g) x) (nearest (g_height g) y)
  | BReflect => pixel g (mirrored (g_width g) x) (mirrored (g_height g) y)
  | BWrap => pixel g (periodic (g_width g) x) (periodic (g_height g) y)
  end.

(** Coordinates for which the border classes promise the extension: any for value and extend, up to one image size
    away for reflect and wrap. *)
Definition near {A} (b : border A) (n x : Z) : Prop :=
  match b with
  | BValue _ | BExtend => True
  | BReflect => - n < x < 2 * n - 1
  | BWrap => - n <= x < 2 * n
  end.

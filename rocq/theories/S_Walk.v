(** Specification vocabulary for the order of the points of a contour: following the boundary with the hand on the wall. *)
From Verif Require Import Base M_Image S_Image M_Contour S_Contour.

(** The steps to the neighbours of a pixel, clockwise on the screen (y grows downwards), from the right on. *)
Definition steps (r : crule) : list point :=
  match r with
  | Four => [(1, 0); (0, 1); (-1, 0); (0, -1)]
  | Eight => [(1, 0); (1, 1); (0, 1); (-1, 1); (-1, 0); (-1, -1); (0, -1); (1, -1)]
  end.
Definition moved (v p : point) : point := (fst p + fst v, snd p + snd v).
Definition ahead (r : crule) (p : point) (d : Z) : point :=
  match znth (steps r) d with Some v => moved v p | None => p end.
(** Number of directions in a full turn; a right angle; straight up and straight down. *)
Definition turn_n (r : crule) : Z := zlen (steps r).
Definition right_angle (r : crule) : Z := turn_n r / 4.
Definition downwards (r : crule) : Z := right_angle r.
Definition upwards (r : crule) : Z := 3 * right_angle r.

(** Looking around at [p], clockwise from direction [s], the first pixel of [S] is seen in direction [d]. *)
Definition sees (r : crule) (S : point -> Prop) (p : point) (s d : Z) : Prop :=
  exists k, 0 <= k < turn_n r /\ d = (s + k) mod turn_n r /\ S (ahead r p d) /\
    forall i, 0 <= i < k -> ~ S (ahead r p ((s + i) mod turn_n r)).
(** From [p] in direction [d] one comes to [p'] and goes on in direction [d'], which is found by looking around from the left. *)
Definition goes (r : crule) (S : point -> Prop) (p : point) (d : Z) (p' : point) (d' : Z) : Prop :=
  p' = ahead r p d /\ sees r S p' (d - right_angle r) d'.
(** The pixels from [p] on, until one is about to leave [p0] in direction [d0] again. *)
Inductive tour (r : crule) (S : point -> Prop) (p0 : point) (d0 : Z) : point -> Z -> list point -> Prop :=
| tour_last p d : goes r S p d p0 d0 -> tour r S p0 d0 p d [p]
| tour_more p d p' d' l : goes r S p d p' d' -> (p', d') <> (p0, d0) -> tour r S p0 d0 p' d' l -> tour r S p0 d0 p d (p :: l).

(** Round from [p], where one begins by looking in direction [s]. *)
Definition round (r : crule) (S : point -> Prop) (p : point) (s : Z) (l : list point) : Prop :=
  (l = [p] /\ forall d, 0 <= d < turn_n r -> ~ S (ahead r p d)) \/
  exists d, sees r S p s d /\ tour r S p d p d l.

(** Where contours begin: external ones ([true]) at the first pixel of a blob, internal ones ([false]) at the foreground pixel
    above the first pixel of a connected set of background. *)
Definition begins (r : crule) (g : gray Z) (s : point * bool) : Prop :=
  let (p, ext) := s in
  if ext then first_of (adj r) (fg g) p else fg g p /\ first_of (adj_bg r) (bg g) (fst p, snd p + 1).
(** Order of the beginnings: raster order; the external contour comes first. *)
Definition sooner (s s' : point * bool) : Prop := before (fst s) (fst s') \/ (fst s = fst s' /\ snd s = true /\ snd s' = false).
(** Direction of the background pixel from which one begins to look around. *)
Definition first_look (r : crule) (ext : bool) : Z := if ext then upwards r else downwards r.

(** Specification vocabulary for binary images. *)
From Verif Require Import Base M_Image S_Image.

Definition binary (g : gray Z) : Prop := forall x y v, pixel g x y = Some v -> v = 0 \/ v = 1.

(** Pixel-wise "and" and "or" of two images, non-zero means true. *)
Definition both (a b : gray Z) (x y : Z) : option Z :=
  match pixel a x y, pixel b x y with
  | Some u, Some v => Some (if negb (u =? 0) && negb (v =? 0) then 1 else 0)
  | _, _ => None
  end.
Definition either (a b : gray Z) (x y : Z) : option Z :=
  match pixel a x y, pixel b x y with
  | Some u, Some v => Some (if negb (u =? 0) || negb (v =? 0) then 1 else 0)
  | _, _ => None
  end.

(** Pixels not on the edge of the image. *)
Definition interior (g : gray Z) (x y : Z) : Prop := 1 <= x < g_width g - 1 /\ 1 <= y < g_height g - 1.

(** A pixel and its four neighbours. *)
Definition cross (x y : Z) : list (Z * Z) := [(x, y); (x - 1, y); (x + 1, y); (x, y - 1); (x, y + 1)].

Definition is_set (g : gray Z) (x y : Z) : bool := match pixel g x y with Some 1 => true | _ => false end.
Definition all_set (g : gray Z) (l : list (Z * Z)) : bool := forallb (fun p => is_set g (fst p) (snd p)) l.
Definition some_set (g : gray Z) (l : list (Z * Z)) : bool := existsb (fun p => is_set g (fst p) (snd p)) l.

(** Sum over the cross. *)
Definition neighbour_sum (g : gray Z) (x y : Z) : option Z :=
  match pixel g x y, pixel g (x - 1) y, pixel g (x + 1) y, pixel g x (y - 1), pixel g x (y + 1) with
  | Some c, Some l, Some r, Some u, Some b => Some (c + l + r + u + b)
  | _, _, _, _, _ => None
  end.

(** [g'] is the complement of [g]. *)
Definition complement (g g' : gray Z) : Prop :=
  g_width g' = g_width g /\ g_height g' = g_height g /\
  forall x y, inside g x y -> pixel g' x y = match pixel g x y with Some v => Some (1 - v) | None => None end.

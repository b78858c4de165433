(** Specification vocabulary for blobs and holes of related images. *)
From Verif Require Import Base M_Image S_Image M_PackedSet M_Contour S_Contour.
Open Scope Z_scope.

(** Blobs and holes that the detector reports. *)
Definition blobs (st : labeler) : Z := zlen (lb_contours st).
Definition holes (st : labeler) : Z := ps_count (lb_pts st) - zlen (lb_contours st).

(** Two foreground pixels have the same label. *)
Definition together (lab : gray Z) (p q : point) : Prop := pixel lab (fst p) (snd p) = pixel lab (fst q) (snd q).

(** The other rule. *)
Definition dual (r : crule) : crule := match r with Four => Eight | Eight => Four end.

(** [h] shows the background of [g] as foreground. *)
Definition inverted (g h : gray Z) : Prop :=
  g_width h = g_width g /\ g_height h = g_height g /\ forall p, inside g (fst p) (snd p) -> (fg h p <-> bg g p).

(** Left and right, top and bottom, rows and columns exchanged: where a pixel of [g] goes. *)
Inductive symmetry := LeftRight | TopBottom | RowsColumns.
Definition place (s : symmetry) (g : gray Z) (p : point) : point :=
  match s with
  | LeftRight => (g_width g - 1 - fst p, snd p)
  | TopBottom => (fst p, g_height g - 1 - snd p)
  | RowsColumns => (snd p, fst p)
  end.
Definition reflected (s : symmetry) (g h : gray Z) : Prop := forall p, fg h (place s g p) <-> fg g p.
Definition reflected_size (s : symmetry) (g h : gray Z) : Prop :=
  match s with
  | RowsColumns => g_width h = g_height g /\ g_height h = g_width g
  | _ => g_width h = g_width g /\ g_height h = g_height g
  end.

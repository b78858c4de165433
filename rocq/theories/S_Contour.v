(** Specification vocabulary for contours and labels: neighbours, connected sets, raster order. *)
From Verif Require Import Base M_Image S_Image M_PackedSet S_PackedSet M_Contour.

Notation point := (Z * Z)%type.

Definition adj4 (p q : point) : Prop := Z.abs (fst p - fst q) + Z.abs (snd p - snd q) = 1.
Definition adj8 (p q : point) : Prop := Z.max (Z.abs (fst p - fst q)) (Z.abs (snd p - snd q)) = 1.

(** Neighbours of foreground pixels under the rule, and of background pixels: 8 against 4 and 4 against 8. *)
Definition adj (r : crule) : point -> point -> Prop := match r with Four => adj4 | Eight => adj8 end.
Definition adj_bg (r : crule) : point -> point -> Prop := match r with Four => adj8 | Eight => adj4 end.

(** [q] is reached from [p] by steps between neighbours that stay in [S]. *)
Inductive conn (a : point -> point -> Prop) (S : point -> Prop) (p : point) : point -> Prop :=
| conn_refl : S p -> conn a S p p
| conn_step q q' : conn a S p q -> a q q' -> S q' -> conn a S p q'.

(** Raster order: row by row, left to right. *)
Definition before (p q : point) : Prop := snd p < snd q \/ (snd p = snd q /\ fst p < fst q).

(** [p] is the first pixel, in raster order, of its connected set in [S]. *)
Definition first_of (a : point -> point -> Prop) (S : point -> Prop) (p : point) : Prop :=
  S p /\ forall q, conn a S p q -> ~ before q p.

(** Each element is a neighbour of the one before it. *)
Fixpoint chained (a : point -> point -> Prop) (l : list point) : Prop :=
  match l with
  | p :: ((q :: _) as t) => a p q /\ chained a t
  | _ => True
  end.
(** A closed walk from [p]: each point is a neighbour of the one before it and the first of the last. *)
Definition closed_walk (a : point -> point -> Prop) (l : list point) (p : point) : Prop :=
  exists t, l = p :: t /\ (t = [] \/ chained a (l ++ [p])).

(** Pixels with value 1.  Everything else, also outside of the picture, is background. *)
Definition fg (g : gray Z) (p : point) : Prop := pixel g (fst p) (snd p) = Some 1.
Definition bg (g : gray Z) (p : point) : Prop := ~ fg g p.

(** Same blob; same connected set of background. *)
Definition blob (r : crule) (g : gray Z) : point -> point -> Prop := conn (adj r) (fg g).
Definition space (r : crule) (g : gray Z) : point -> point -> Prop := conn (adj_bg r) (bg g).

(** From [q] one gets out of the picture without stepping on the blob of [p]. *)
Definition escapes (r : crule) (g : gray Z) (p q : point) : Prop :=
  exists s, conn (adj_bg r) (fun u => ~ blob r g p u) q s /\ ~ inside g (fst s) (snd s).
(** [q] lies in a hole of the blob of [p]: in a connected set of background that has a side in common with the blob
    and that the blob encloses. *)
Definition hole (r : crule) (g : gray Z) (p q : point) : Prop :=
  bg g q /\ (exists u v, blob r g p u /\ space r g q v /\ adj4 u v) /\ ~ escapes r g p q.
(** Pixels of the blob of [p] on its outer edge. *)
Definition outer_edge (r : crule) (g : gray Z) (p u : point) : Prop :=
  blob r g p u /\ exists v, bg g v /\ adj_bg r u v /\ escapes r g p v.
(** Pixels of the blob of [p] around the hole of [q]. *)
Definition hole_edge (r : crule) (g : gray Z) (p q u : point) : Prop :=
  blob r g p u /\ exists v, space r g q v /\ adj_bg r u v.

(** Inputs of [process]: a 0/1 image; a label image that can get the size of the input. *)
Definition binary (g : gray Z) : Prop := forall x y v, pixel g x y = Some v -> v = 0 \/ v = 1.
Record label_args (fuel : nat) (g lab : gray Z) : Prop := {
  la_in : wf g;
  la_binary : binary g;
  la_size : 4 * (g_width g + 2) * (g_height g + 2) < 4294967296;
  la_out : wf lab;
  la_sub : g_sub lab = true -> g_width lab = g_width g /\ g_height lab = g_height g /\ g_stride lab < 2147483647;
  la_fuel : 4 * g_width g * g_height g <= Z.of_nat fuel }.

(** Labellers that a program can hold: new ones, with any settings, after any number of calls. *)
Inductive used : labeler -> Prop :=
| used_new r : used (lb_new r)
| used_set st r mn mx save : used st -> 0 <= mn < 4294967296 -> 0 <= mx < 4294967296 -> used (lb_set st r mn mx save)
| used_process fuel st g lab st' lab' : used st -> label_args fuel g lab -> process fuel st g lab = Ok (st', lab') -> used st'.

(** What is stored of a contour [l] under the limits; [wanted] is false for inner contours that are not to be saved. *)
Definition limited (wanted : bool) (mn mx : Z) (l : list point) : list point :=
  if negb wanted || (mx <=? zlen l) || (zlen l <? mn) then [] else l.

(** The set of points with index [i] in the detector is [l]. *)
Definition has_points (st : labeler) (i : Z) (l : list point) : Prop :=
  0 <= i < ps_count (lb_pts st) /\ ps_load (lb_pts st) i [] = Ok l.

(** The contour [l] starts at [p], is a closed walk and visits exactly the pixels in [E]. *)
Definition traces (r : crule) (l : list point) (p : point) (E : point -> Prop) : Prop :=
  closed_walk (adj r) l p /\ forall u, In u l <-> E u.

(** Image with a frame, one pixel wide, without foreground. *)
Definition framed (g : gray Z) : Prop := forall p, fg g p -> 1 <= fst p < g_width g - 1 /\ 1 <= snd p < g_height g - 1.

(** Arguments of a single [trace]: [bin] has a frame and is two pixels larger than [lab]; the tables of offsets are those
    computed from the strides; the point storage came about by the calls [hist] and holds the sets [s0] and an empty one at
    its end; the start is a foreground pixel with background above (external) or below (internal). *)
Record trace_args (fuel : nat) (cf : tconf) (bin lab : gray Z) (s0 : list (list point)) (pts : pset point)
    (x y : Z) (external : bool) : Prop := {
  ta_bin : wf bin;
  ta_lab : wf lab;
  ta_size : g_width bin = g_width lab + 2 /\ g_height bin = g_height lab + 2;
  ta_frame : framed bin;
  ta_stride : g_stride bin < 2147483647 /\ g_stride lab < 2147483647;
  ta_ob : set_offsets (tc_rule cf) (g_stride bin) = Ok (tc_ob cf);
  ta_ol : set_offsets (tc_rule cf) (g_stride lab) = Ok (tc_ol cf);
  ta_max : 0 <= tc_max cf;
  ta_pts : exists (bs : Z) (hist : list (ps_op point)), 1 <= bs < 4294967296 /\ Forall ps_op_ok hist /\ ll_fits [] hist /\
    ll_run [] hist = s0 ++ [[]] /\ ps_run (ps_new bs) hist = Ok pts;
  ta_total : ll_total s0 + 4 * g_width lab * g_height lab + 1 < 4294967296;
  ta_fuel : 4 * g_width lab * g_height lab <= Z.of_nat fuel;
  ta_fg : fg bin (x, y);
  ta_bg : bg bin (x, if external then y - 1 else y + 1) }.

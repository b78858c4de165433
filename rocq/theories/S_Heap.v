(** Specification vocabulary for objects that share memory. *)
From Verif Require Import Base M_Image S_Image M_Heap.

(** What object [o] shows: an image with the present contents of its block; [None] if the block has been freed. *)
Definition view {A} (H : heap A) (o : himg) : option (gray A) :=
  match nth_error H (h_block o) with
  | Some (Some d) => Some (mkGray (h_width o) (h_height o) (h_offset o) (h_stride o) (h_sub o) d)
  | _ => None
  end.

(** [o] is usable: its memory exists and its rows lie inside it. *)
Definition good {A} (H : heap A) (o : himg) (g : gray A) : Prop :=
  view H o = Some g /\ wf g /\ h_len o = zlen (g_data g).

(** If the two objects share memory at all then a place belongs to the same pixel of both.  Holds for an object and
    itself, for objects in different blocks and for disjoint windows. *)
Definition aligned (a b : himg) : Prop :=
  h_block a = h_block b -> forall x y x' y',
  0 <= x < h_width a -> 0 <= y < h_height a -> 0 <= x' < h_width b -> 0 <= y' < h_height b ->
  h_offset a + y * h_stride a + x = h_offset b + y' * h_stride b + x' -> x = x' /\ y = y'.

(** ** Ownership *)

(** Object [i] is alive and responsible for freeing block [b]. *)
Definition owns {A} (W : world A) (i b : nat) : Prop :=
  exists o, nth_error (w_objs W) i = Some (Some o) /\ h_sub o = false /\ h_block o = b.

(** Block [b] has not been freed. *)
Definition live {A} (H : heap A) (b : nat) : Prop := exists d, nth_error H b = Some (Some d).

Definition is32 (z : Z) : Prop := 0 <= z < 4294967296.

Definition exists_obj {A} (W : world A) (i : nat) : Prop := exists o, nth_error (w_objs W) i = Some (Some o).

(** The memory seen through object [i] still exists.  Owners always have it; a sub-image loses it when its parent is
    destroyed or enlarged. *)
Definition usable {A} (W : world A) (i : nat) : Prop :=
  exists o, nth_error (w_objs W) i = Some (Some o) /\ live (w_heap W) (h_block o).

Definition different_memory {A} (W : world A) (i j : nat) : Prop :=
  forall o s, nth_error (w_objs W) i = Some (Some o) -> nth_error (w_objs W) j = Some (Some s) -> h_block o <> h_block s.

(** Statements that stay within the rules: sizes fit in 32 bits, objects exist, no copy construction, no assignment
    from a sub-image, copies between different buffers, and no access through a sub-image that has outlived its memory. *)
Definition allowed {A} (W : world A) (c : cmd A) : Prop :=
  match c with
  | CNew w h => is32 w /\ is32 h /\ w * h < 4294967296
  | CSub i x0 y0 x1 y1 => exists_obj W i /\ is32 x0 /\ is32 y0 /\ is32 x1 /\ is32 y1
  | CReshape i w h => exists_obj W i /\ is32 w /\ is32 h /\ w * h < 4294967296
  | CCopy i j => usable W i /\ usable W j /\ different_memory W i j
  | CAssign i j => i = j /\ exists_obj W i \/
      (usable W i /\ usable W j /\ different_memory W i j /\
       exists s, nth_error (w_objs W) j = Some (Some s) /\ h_sub s = false)
  | CCopyCtor _ => False
  | CSet i x y _ => usable W i /\ is32 x /\ is32 y
  | CGet i x y => usable W i /\ is32 x /\ is32 y
  | CDestroy i => exists_obj W i
  end.

(** Every statement of the program stays within the rules in the state in which it is executed. *)
Fixpoint disciplined {A} (zero : A) (W : world A) (cs : list (cmd A)) : Prop :=
  match cs with
  | [] => True
  | c :: r =>
      allowed W c /\
      match step zero W c with
      | Ok W' => disciplined zero W' r
      | _ => disciplined zero W r
      end
  end.

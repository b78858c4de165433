(** Model of [Gray] objects that share memory: a heap of numbered blocks which can be freed, objects that point into
    it.  Used where aliasing or ownership matters.  No proofs. *)
From Verif Require Import Base M_Image.

(** ** Heap *)

(** Block [b] is [nth b]; [None] means that it has been freed.  Blocks are never reused: a pointer to a freed block
    stays invalid. *)
Definition heap (A : Type) := list (option (list A)).

(** [new T[n]()] (image_types.h:90, 160). *)
Definition halloc {A} (H : heap A) (d : list A) : heap A * nat := (H ++ [Some d], length H).

(** [delete []] (image_types.h:140, 159).  Freeing twice is undefined. *)
Definition hfree {A} (H : heap A) (b : nat) : outcome (heap A) :=
  match nth_error H b with Some (Some _) => Ok (upd H b None) | _ => Undef end.

(** [data[i]] as a value (image_types.h:168-176). *)
Definition hread {A} (H : heap A) (b : nat) (i : Z) : outcome A :=
  match nth_error H b with Some (Some d) => bget d i | _ => Undef end.

(** [data[i] = v] (image_types.h:168-176). *)
Definition hwrite {A} (H : heap A) (b : nat) (i : Z) (v : A) : outcome (heap A) :=
  match nth_error H b with
  | Some (Some d) => let* d' := bset d i v in Ok (upd H b (Some d'))
  | _ => Undef
  end.

(** ** Objects *)

(** image_types.h:20-33, 76-85: the fields of [Gray]; [h_block] stands for the pointer. *)
Record himg := mkHimg {
  h_width : Z;
  h_height : Z;
  h_offset : Z;
  h_stride : Z;
  h_sub : bool;
  h_block : nat;
  h_len : Z
}.

(** image_types.h:87-95 [Gray(width,height)]. *)
Definition h_new {A} (zero : A) (H : heap A) (w h : Z) : heap A * himg :=
  let n := u32 (w * h) in
  let '(H', b) := halloc H (repeat zero (Z.to_nat n)) in
  (H', mkHimg w h 0 w false b n).

(** image_types.h:138-148 [~Gray]. *)
Definition h_destroy {A} (H : heap A) (o : himg) : outcome (heap A) :=
  if h_sub o then Ok H else hfree H (h_block o).

(** image_types.h:150-166 [Gray::reshape]. *)
Definition h_reshape {A} (zero : A) (H : heap A) (o : himg) (w h : Z) : outcome (heap A * himg) :=
  if (h_width o =? w) && (h_height o =? h) then Ok (H, o)
  else if h_sub o then Throw
  else
    let desired := u32 (w * h) in
    if h_len o <? desired then
      let* H1 := hfree H (h_block o) in
      let '(H2, b) := halloc H1 (repeat zero (Z.to_nat desired)) in
      Ok (H2, mkHimg w h (h_offset o) w false b desired)
    else Ok (H, mkHimg w h (h_offset o) w false (h_block o) (h_len o)).

(** Index expression of at/unsafe_at (image_types.h:171, 175, 197). *)
Definition h_index (o : himg) (x y : Z) : Z := u32 (h_offset o + y * h_stride o + x).

(** image_types.h:168-172 [Gray::at] as a value and as the target of an assignment. *)
Definition h_get {A} (H : heap A) (o : himg) (x y : Z) : outcome A :=
  if (h_width o <=? x) || (h_height o <=? y) then Throw else hread H (h_block o) (h_index o x y).
Definition h_set {A} (H : heap A) (o : himg) (x y : Z) (v : A) : outcome (heap A) :=
  if (h_width o <=? x) || (h_height o <=? y) then Throw else hwrite H (h_block o) (h_index o x y) v.

(** image_types.h:190-194 [Gray::makeSubimage]: the result shares the block. *)
Definition h_subimage (o : himg) (x0 y0 x1 y1 : Z) : outcome himg :=
  if (h_width o <? x1) || (h_height o <? y1) || (x1 <? x0) || (y1 <? y0) then Throw
  else Ok (mkHimg (u32 (x1 - x0)) (u32 (y1 - y0)) (u32 (h_offset o + y0 * h_stride o + x0)) (h_stride o) true
             (h_block o) (h_len o)).

(** image_types.h:186 [std::memcpy] of [n] elements; overlapping ranges are undefined. *)
Definition h_memcpy {A} (H : heap A) (db : nat) (di : Z) (sb : nat) (si n : Z) : outcome (heap A) :=
  if Nat.eqb db sb && (0 <? n) && (di <? si + n) && (si <? di + n) then Undef
  else for_range 0 n (fun i H => let* v := hread H sb (si + i) in hwrite H db (di + i) v) H.

(** image_types.h:178-188 [Gray::copy]. *)
Definition h_copy {A} (zero : A) (H : heap A) (o src : himg) : outcome (heap A * himg) :=
  if h_sub o && (negb (h_width o =? h_width src) || negb (h_height o =? h_height src)) then Throw
  else
    let* '(H1, o1) := h_reshape zero H o (h_width src) (h_height src) in
    let* H2 := for_range 0 (h_height o1)
                 (fun y H => h_memcpy H (h_block o1) (u32 (h_offset o1 + y * h_stride o1))
                               (h_block src) (u32 (h_offset src + y * h_stride src)) (h_width src)) H1 in
    Ok (H2, o1).

(** image_types.h:200-216 [Gray::operator=] for two different objects: assigning a sub-image copies the pointer and
    forgets the old buffer. *)
Definition h_assign {A} (zero : A) (H : heap A) (o other : himg) : outcome (heap A * himg) :=
  if h_sub other then
    Ok (H, mkHimg (h_width other) (h_height other) (h_offset other) (h_stride other) true (h_block other) (h_len other))
  else h_copy zero H o other.

(** The implicit copy constructor of [Gray] (image_types.h:75-217 declares none): all fields are copied, the new object
    believes that it owns the buffer. *)
Definition h_copy_construct (o : himg) : himg := o.

(** ** Programs *)

(** What a program can do with its objects; objects are numbered in order of creation. *)
Inductive cmd (A : Type) :=
| CNew (w h : Z)                     (* image_types.h:87-95 *)
| CSub (i : nat) (x0 y0 x1 y1 : Z)   (* image_types.h:190-194 *)
| CReshape (i : nat) (w h : Z)       (* image_types.h:150-166 *)
| CCopy (i j : nat)                  (* image_types.h:178-188 *)
| CAssign (i j : nat)                (* image_types.h:200-216 *)
| CCopyCtor (i : nat)                (* implicit copy constructor *)
| CSet (i : nat) (x y : Z) (v : A)   (* image_types.h:168-172 *)
| CGet (i : nat) (x y : Z)           (* image_types.h:168-172 *)
| CDestroy (i : nat).                (* image_types.h:138-148 *)
Arguments CNew {A} _ _.
Arguments CSub {A} _ _ _ _ _.
Arguments CReshape {A} _ _ _.
Arguments CCopy {A} _ _.
Arguments CAssign {A} _ _.
Arguments CCopyCtor {A} _.
Arguments CSet {A} _ _ _ _.
Arguments CGet {A} _ _ _.
Arguments CDestroy {A} _.

(** The heap and the objects; [None] is an object whose lifetime has ended (image_types.h:138-148). *)
Record world (A : Type) := mkWorld { w_heap : heap A; w_objs : list (option himg) }.
Arguments mkWorld {A} _ _.
Arguments w_heap {A} _.
Arguments w_objs {A} _.

(** Object [i] of the program; naming an object that does not exist is not a program (reported as undefined). *)
Definition obj {A} (W : world A) (i : nat) : outcome himg :=
  match nth_error (w_objs W) i with Some (Some o) => Ok o | _ => Undef end.

(** One statement of a program, see the constructors of [cmd] for the lines. *)
Definition step {A} (zero : A) (W : world A) (c : cmd A) : outcome (world A) :=
  match c with
  | CNew w h => let '(H, o) := h_new zero (w_heap W) w h in Ok (mkWorld H (w_objs W ++ [Some o]))
  | CSub i x0 y0 x1 y1 =>
      let* o := obj W i in
      let* s := h_subimage o x0 y0 x1 y1 in Ok (mkWorld (w_heap W) (w_objs W ++ [Some s]))
  | CReshape i w h =>
      let* o := obj W i in
      let* '(H, o') := h_reshape zero (w_heap W) o w h in Ok (mkWorld H (upd (w_objs W) i (Some o')))
  | CCopy i j =>
      let* o := obj W i in let* s := obj W j in
      let* '(H, o') := h_copy zero (w_heap W) o s in Ok (mkWorld H (upd (w_objs W) i (Some o')))
  | CAssign i j =>
      let* o := obj W i in let* s := obj W j in
      if Nat.eqb i j then Ok W
      else let* '(H, o') := h_assign zero (w_heap W) o s in Ok (mkWorld H (upd (w_objs W) i (Some o')))
  | CCopyCtor i =>
      let* o := obj W i in Ok (mkWorld (w_heap W) (w_objs W ++ [Some (h_copy_construct o)]))
  | CSet i x y v =>
      let* o := obj W i in let* H := h_set (w_heap W) o x y v in Ok (mkWorld H (w_objs W))
  | CGet i x y => let* o := obj W i in let* v := h_get (w_heap W) o x y in Ok W
  | CDestroy i =>
      let* o := obj W i in let* H := h_destroy (w_heap W) o in Ok (mkWorld H (upd (w_objs W) i None))
  end.

(** A program; an exception is caught by the caller, the statement has had no effect (every [throw] of
    image_types.h:150-194 precedes the first change). *)
Fixpoint run {A} (zero : A) (W : world A) (cs : list (cmd A)) : outcome (world A) :=
  match cs with
  | [] => Ok W
  | c :: r =>
      match step zero W c with
      | Ok W' => run zero W' r
      | Throw => run zero W r
      | Undef => Undef
      | OutOfFuel => OutOfFuel
      end
  end.

(** Model of [GrowArray] objects (base_types.h:65-193) on a heap: who owns and frees the elements.  The contents are those
    of M_GrowArray.v.  Wrapping foreign memory (base_types.h:81-86) is left out here.  No proofs. *)
From Verif Require Import Base M_Heap M_GrowArray.

(** base_types.h:69-78: the fields of an object; [go_block] stands for the pointer [data]. *)
Record gobj (A : Type) := mkGobj { go_block : nat; go_size : Z; go_len : Z; go_default : A; go_own : bool }.
Arguments mkGobj {A} _ _ _ _ _.
Arguments go_block {A} _. Arguments go_size {A} _. Arguments go_len {A} _. Arguments go_default {A} _. Arguments go_own {A} _.

(** The object with the elements it points to; every member function below uses the pointer, so an object whose memory
    has been freed is reported as undefined (base_types.h:111-192). *)
Definition gload {A} (H : heap (option A)) (o : gobj A) : outcome (growarr A) :=
  match nth_error H (go_block o) with
  | Some (Some d) => Ok (mkGA d (go_size o) (go_len o) (go_default o) (go_own o))
  | _ => Undef
  end.

(** base_types.h:88-109: the constructors allocate. *)
Definition gh_create {A} (H : heap (option A)) (g : growarr A) : heap (option A) * gobj A :=
  let '(H', b) := halloc H (ga_data g) in (H', mkGobj b (ga_size g) (ga_len g) (ga_default g) (ga_own g)).

(** base_types.h:111-117 [~GrowArray]. *)
Definition gh_destroy {A} (H : heap (option A)) (o : gobj A) : outcome (heap (option A)) :=
  if go_own o then hfree H (go_block o) else Ok H.

(** A member function that asks for [n] elements: a new block replaces the old one exactly if the array may be resized and
    [n > array_length] (base_types.h:126-131, 143-150). *)
Definition gh_call {A} (H : heap (option A)) (o : gobj A) (n : Z) (f : growarr A -> outcome (growarr A))
  : outcome (heap (option A) * gobj A) :=
  let* g := gload H o in
  let* g' := f g in
  if go_own o && (go_len o <? n) then
    let* H1 := hfree H (go_block o) in
    Ok (gh_create H1 g')
  else Ok (upd H (go_block o) (Some (ga_data g')), mkGobj (go_block o) (ga_size g') (ga_len g') (ga_default g') (ga_own g')).

(** base_types.h:168-177 [operator=] between two objects.  If both point to the same elements, memcpy reads freed or
    overlapping memory. *)
Definition gh_assign {A} (m : memtype A) (H : heap (option A)) (o s : gobj A) : outcome (heap (option A) * gobj A) :=
  let* src := gload H s in
  if Nat.eqb (go_block o) (go_block s) && (0 <? go_size s) then Undef
  else gh_call H o (go_size s) (fun g => ga_assign m g src).

(** ** Programs *)

(** What a program can do with its arrays; objects are numbered in order of creation. *)
Inductive gcmd (A : Type) :=
| GNew (n : Z)                     (* base_types.h:88-94 *)
| GDefault                         (* base_types.h:96-98 *)
| GList (l : list A)               (* base_types.h:100-109 *)
| GGrow (i : nat) (n : Z)          (* base_types.h:123-133 *)
| GResize (i : nat) (n : Z)        (* base_types.h:139-152 *)
| GFill (i : nat) (v : A)          (* base_types.h:154-156 *)
| GPut (i : nat) (k : Z) (v : A)   (* base_types.h:158-162 *)
| GSetDefault (i : nat) (v : A)    (* base_types.h:73 *)
| GAssign (i j : nat)              (* base_types.h:168-177 *)
| GSetTo (i : nat) (l : list A)    (* base_types.h:179-186 *)
| GSet (i : nat) (l : list A)      (* base_types.h:188-192 *)
| GCopyCtor (i : nat)              (* implicit copy constructor: none is declared in base_types.h:65-193 *)
| GDestroy (i : nat).              (* base_types.h:111-117 *)
Arguments GNew {A} _. Arguments GDefault {A}. Arguments GList {A} _. Arguments GGrow {A} _ _. Arguments GResize {A} _ _.
Arguments GFill {A} _ _. Arguments GPut {A} _ _ _. Arguments GSetDefault {A} _ _. Arguments GAssign {A} _ _.
Arguments GSetTo {A} _ _. Arguments GSet {A} _ _. Arguments GCopyCtor {A} _. Arguments GDestroy {A} _.

(** The heap and the objects; [None] is an object whose lifetime has ended (base_types.h:111-117). *)
Record gworld (A : Type) := mkGworld { gw_heap : heap (option A); gw_objs : list (option (gobj A)) }.
Arguments mkGworld {A} _ _. Arguments gw_heap {A} _. Arguments gw_objs {A} _.

(** Object [i] of the program; naming an object that does not exist is not a program (reported as undefined). *)
Definition gobject {A} (W : gworld A) (i : nat) : outcome (gobj A) :=
  match nth_error (gw_objs W) i with Some (Some o) => Ok o | _ => Undef end.

(** A constructor call as a statement (base_types.h:88-109). *)
Definition gcreate {A} (W : gworld A) (g : growarr A) : outcome (gworld A) :=
  let '(H, o) := gh_create (gw_heap W) g in Ok (mkGworld H (gw_objs W ++ [Some o])).

(** A member call as a statement (base_types.h:123-192). *)
Definition gcall {A} (W : gworld A) (i : nat) (n : Z) (f : growarr A -> outcome (growarr A)) : outcome (gworld A) :=
  let* o := gobject W i in
  let* '(H, o') := gh_call (gw_heap W) o n f in
  Ok (mkGworld H (upd (gw_objs W) i (Some o'))).

(** One statement of a program, see the constructors of [gcmd] for the lines. *)
Definition gstep {A} (m : memtype A) (W : gworld A) (c : gcmd A) : outcome (gworld A) :=
  match c with
  | GNew n => gcreate W (ga_new m n)
  | GDefault => gcreate W (ga_new_default m)
  | GList l => gcreate W (ga_of_list m l)
  | GGrow i n => gcall W i n (fun g => ga_grow m g n)
  | GResize i n => gcall W i n (fun g => ga_resize m g n)
  | GFill i v => gcall W i 0 (fun g => ga_fill m g v)
  | GPut i k v => gcall W i 0 (fun g => ga_at_set g k v)
  | GSetDefault i v => gcall W i 0 (fun g => Ok (ga_set_default g v))
  | GAssign i j =>
      let* o := gobject W i in
      let* s := gobject W j in
      if Nat.eqb i j then Ok W
      else let* '(H, o') := gh_assign m (gw_heap W) o s in Ok (mkGworld H (upd (gw_objs W) i (Some o')))
  | GSetTo i l => gcall W i (u32 (zlen l)) (fun g => ga_setTo m g l)
  | GSet i l => gcall W i (zlen l) (fun g => ga_set m g (map Some l) (zlen l))
  | GCopyCtor i => let* o := gobject W i in Ok (mkGworld (gw_heap W) (gw_objs W ++ [Some o]))
  | GDestroy i =>
      let* o := gobject W i in
      let* H := gh_destroy (gw_heap W) o in Ok (mkGworld H (upd (gw_objs W) i None))
  end.

(** A program: exceptions are caught and the program goes on. *)
Fixpoint grun {A} (m : memtype A) (W : gworld A) (cs : list (gcmd A)) : outcome (gworld A) :=
  match cs with
  | [] => Ok W
  | c :: r =>
      match gstep m W c with
      | Ok W' => grun m W' r
      | Throw => grun m W r
      | Undef => Undef
      | OutOfFuel => OutOfFuel
      end
  end.

(** base_types.h:158-162 [at] as a value. *)
Definition gread {A} (W : gworld A) (i : nat) (k : Z) : outcome A :=
  let* o := gobject W i in
  let* g := gload (gw_heap W) o in
  ga_at g k.

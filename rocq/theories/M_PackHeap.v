(** Model of [PackedSet] objects (packed_sets.h) on a heap: who owns and frees the blocks.  Two heaps, one for the arrays
    of pointers ([T**]) and one for the blocks of elements ([T*]); [set_info] is a [std::vector] and copied by value.  No
    proofs. *)
From Verif Require Import Base M_Heap M_PackedSet S_PackedSet.

(** packed_sets.h:41-49: the fields; [po_tab] stands for the pointer [blocks]. *)
Record pobj := mkPobj { po_tab : nat; po_num : Z; po_bs : Z; po_total : Z; po_info : list pinfo }.

(** Memory: arrays of pointers ([None]: a pointer never written, packed_sets.h:54,121) and blocks of elements ([None]: an
    element never written, packed_sets.h:56,125). *)
Record pmem (A : Type) := mkPmem { pm_tabs : heap (option nat); pm_blks : heap (option A) }.
Arguments mkPmem {A} _ _. Arguments pm_tabs {A} _. Arguments pm_blks {A} _.

(** [blocks[i]] as a value (packed_sets.h:64,123,130,162,171,184). *)
Definition ph_ptr {A} (M : pmem A) (o : pobj) (i : Z) : outcome nat :=
  let* c := hread (pm_tabs M) (po_tab o) i in
  match c with Some b => Ok b | None => Undef end.

(** [blocks[b][i]] as a value (packed_sets.h:162,171). *)
Definition ph_cell {A} (M : pmem A) (o : pobj) (b i : Z) : outcome A :=
  let* q := ph_ptr M o b in
  let* c := hread (pm_blks M) q i in
  match c with Some v => Ok v | None => Undef end.

(** [blocks[b][i] = v] (packed_sets.h:130,162,184). *)
Definition ph_put {A} (M : pmem A) (o : pobj) (b i : Z) (v : A) : outcome (pmem A) :=
  let* q := ph_ptr M o b in
  let* B := hwrite (pm_blks M) q i (Some v) in
  Ok (mkPmem (pm_tabs M) B).

(** packed_sets.h:51-58: the constructor. *)
Definition ph_new {A} (M : pmem A) (bs : Z) : outcome (pmem A * pobj) :=
  let n := 1 in
  let '(T, t) := halloc (pm_tabs M) (repeat None (Z.to_nat n)) in
  let* M' := for_range 0 n (fun i M =>
               let '(B, q) := halloc (pm_blks M) (repeat None (Z.to_nat bs)) in
               let* T := hwrite (pm_tabs M) t i (Some q) in
               Ok (mkPmem T B)) (mkPmem T (pm_blks M)) in
  Ok (M', mkPobj t n bs 0 []).

(** packed_sets.h:62-72: the destructor. *)
Definition ph_destroy {A} (M : pmem A) (o : pobj) : outcome (pmem A) :=
  let* M := for_range 0 (po_num o) (fun i M =>
              let* q := ph_ptr M o i in
              let* B := hfree (pm_blks M) q in
              Ok (mkPmem (pm_tabs M) B)) M in
  let* T := hfree (pm_tabs M) (po_tab o) in
  Ok (mkPmem T (pm_blks M)).

(** packed_sets.h:74-77 [clear]. *)
Definition ph_clear (o : pobj) : pobj := mkPobj (po_tab o) (po_num o) (po_bs o) 0 [].

(** packed_sets.h:82-90 [start_new_set]. *)
Definition ph_start (o : pobj) : outcome pobj :=
  let* b := udiv (po_total o) (po_bs o) in
  let* i := umod (po_total o) (po_bs o) in
  Ok (mkPobj (po_tab o) (po_num o) (po_bs o) (po_total o) (po_info o ++ [mkInfo b i 0])).

(** packed_sets.h:120-129: one more block, a longer array of pointers takes the place of the old one. *)
Definition ph_more {A} (M : pmem A) (o : pobj) (block : Z) : outcome (pmem A * pobj) :=
  let '(T, t) := halloc (pm_tabs M) (repeat None (Z.to_nat (u32 (block + 1)))) in
  let* T := for_range 0 (po_num o) (fun i T =>
              let* q := ph_ptr (mkPmem T (pm_blks M)) o i in
              hwrite T t i (Some q)) T in
  let '(B, q) := halloc (pm_blks M) (repeat None (Z.to_nat (po_bs o))) in
  let* T := hwrite T t (po_num o) (Some q) in
  let* T := hfree T (po_tab o) in
  Ok (mkPmem T B, mkPobj t (u32 (po_num o + 1)) (po_bs o) (po_total o) (po_info o)).

(** packed_sets.h:118-132 [_add_element]. *)
Definition ph_add {A} (M : pmem A) (o : pobj) (v : A) : outcome (pmem A * pobj) :=
  let* block := udiv (po_total o) (po_bs o) in
  let* '(M, o) := (if block =? po_num o then ph_more M o block else Ok (M, o)) in
  let* i := umod (po_total o) (po_bs o) in
  let* M := ph_put M o block i v in
  Ok (M, mkPobj (po_tab o) (po_num o) (po_bs o) (u32 (po_total o + 1)) (po_info o)).

(** packed_sets.h:104-113 [push_tail]. *)
Definition ph_push {A} (M : pmem A) (o : pobj) (v : A) : outcome (pmem A * pobj) :=
  let* o := (match po_info o with [] => ph_start o | _ => Ok o end) in
  let* '(M, o) := ph_add M o v in
  Ok (M, mkPobj (po_tab o) (po_num o) (po_bs o) (po_total o) (inc_tail (po_info o))).

(** packed_sets.h:137-142 [remove_tail]. *)
Definition ph_remove_tail (o : pobj) : pobj :=
  match po_info o with
  | [] => o
  | _ => mkPobj (po_tab o) (po_num o) (po_bs o) (u32 (po_total o - pi_size (last (po_info o) (mkInfo 0 0 0))))
           (removelast (po_info o))
  end.

(** [set.block*_size_of_block + set.offset + i] (packed_sets.h:160,170,183). *)
Definition ph_flat (o : pobj) (s : pinfo) (i : Z) : Z := u32 (pi_block s * po_bs o + pi_offset s + i).

(** packed_sets.h:150-163 [at] as a value. *)
Definition ph_at {A} (M : pmem A) (o : pobj) (k i : Z) : outcome A :=
  if zlen (po_info o) <=? k then Throw else
  match znth (po_info o) k with
  | None => Throw
  | Some s =>
      if pi_size s <=? i then Throw else
      let* b := udiv (ph_flat o s i) (po_bs o) in
      let* j := umod (ph_flat o s i) (po_bs o) in
      ph_cell M o b j
  end.

(** packed_sets.h:150-163 [at] as the target of an assignment. *)
Definition ph_at_set {A} (M : pmem A) (o : pobj) (k i : Z) (v : A) : outcome (pmem A * pobj) :=
  if zlen (po_info o) <=? k then Throw else
  match znth (po_info o) k with
  | None => Throw
  | Some s =>
      if pi_size s <=? i then Throw else
      let* b := udiv (ph_flat o s i) (po_bs o) in
      let* j := umod (ph_flat o s i) (po_bs o) in
      let* M := ph_put M o b j v in
      Ok (M, o)
  end.

(** packed_sets.h:165-173 [load_set]. *)
Definition ph_load {A} (M : pmem A) (o : pobj) (k : Z) (out : list A) : outcome (list A) :=
  match znth (po_info o) k with
  | None => Throw
  | Some s =>
      for_range 0 (pi_size s) (fun i out =>
        let* b := udiv (ph_flat o s i) (po_bs o) in
        let* j := umod (ph_flat o s i) (po_bs o) in
        let* v := ph_cell M o b j in
        Ok (out ++ [v])) out
  end.

(** packed_sets.h:175-186 [write_set]. *)
Definition ph_write {A} (M : pmem A) (o : pobj) (k : Z) (input : list A) : outcome (pmem A * pobj) :=
  match znth (po_info o) k with
  | None => Throw
  | Some s =>
      if negb (zlen input =? pi_size s) then Throw else
      let* M := for_range 0 (pi_size s) (fun i M =>
        let* b := udiv (ph_flat o s i) (po_bs o) in
        let* j := umod (ph_flat o s i) (po_bs o) in
        let* v := bget input i in
        ph_put M o b j v) M in
      Ok (M, o)
  end.

(** A member call that changes the object, see the functions above (packed_sets.h:74-186). *)
Definition ph_exec {A} (M : pmem A) (o : pobj) (c : ps_op A) : outcome (pmem A * pobj) :=
  match c with
  | P_clear => Ok (M, ph_clear o)
  | P_start => let* o := ph_start o in Ok (M, o)
  | P_push v => ph_push M o v
  | P_remove => Ok (M, ph_remove_tail o)
  | P_at_set k i v => ph_at_set M o k i v
  | P_write k l => ph_write M o k l
  end.

(** ** Programs *)

(** What a program can do with its packed sets; objects are numbered in order of creation. *)
Inductive pcmd (A : Type) :=
| PNew (bs : Z)                  (* packed_sets.h:51-58; packed_sets.h:60 is [PNew 2000] *)
| PCall (i : nat) (c : ps_op A)  (* packed_sets.h:74-186 *)
| PCopyCtor (i : nat)            (* implicit copy constructor: none is declared in packed_sets.h:37-191 *)
| PAssign (i j : nat)            (* implicit assignment: none is declared in packed_sets.h:37-191 *)
| PDestroy (i : nat).            (* packed_sets.h:62-72 *)
Arguments PNew {A} _. Arguments PCall {A} _ _. Arguments PCopyCtor {A} _. Arguments PAssign {A} _ _. Arguments PDestroy {A} _.

(** Memory and objects; [None] is an object whose lifetime has ended (packed_sets.h:62-72). *)
Record pworld (A : Type) := mkPworld { pw_mem : pmem A; pw_objs : list (option pobj) }.
Arguments mkPworld {A} _ _. Arguments pw_mem {A} _. Arguments pw_objs {A} _.

(** Object [i]; naming an object that does not exist is not a program (reported as undefined; packed_sets.h:37-191). *)
Definition pobject {A} (W : pworld A) (i : nat) : outcome pobj :=
  match nth_error (pw_objs W) i with Some (Some o) => Ok o | _ => Undef end.

(** One statement of a program, see the constructors of [pcmd] for the lines. *)
Definition pstep {A} (W : pworld A) (c : pcmd A) : outcome (pworld A) :=
  match c with
  | PNew bs => let* '(M, o) := ph_new (pw_mem W) bs in Ok (mkPworld M (pw_objs W ++ [Some o]))
  | PCall i c =>
      let* o := pobject W i in
      let* '(M, o') := ph_exec (pw_mem W) o c in Ok (mkPworld M (upd (pw_objs W) i (Some o')))
  | PCopyCtor i => let* o := pobject W i in Ok (mkPworld (pw_mem W) (pw_objs W ++ [Some o]))
  | PAssign i j =>
      let* o := pobject W i in
      let* s := pobject W j in Ok (mkPworld (pw_mem W) (upd (pw_objs W) i (Some s)))
  | PDestroy i =>
      let* o := pobject W i in
      let* M := ph_destroy (pw_mem W) o in Ok (mkPworld M (upd (pw_objs W) i None))
  end.

(** A program: exceptions are caught and the program goes on (every [throw] of packed_sets.h:150-179 precedes the first
    change). *)
Fixpoint prun {A} (W : pworld A) (cs : list (pcmd A)) : outcome (pworld A) :=
  match cs with
  | [] => Ok W
  | c :: r =>
      match pstep W c with
      | Ok W' => prun W' r
      | Throw => prun W r
      | Undef => Undef
      | OutOfFuel => OutOfFuel
      end
  end.

(** The observers on object [i]: packed_sets.h:150-163 [at], 165-173 [load_set], 188-190 [number_of_sets], 95-99
    [size_of_tail]. *)
Definition pread {A} (W : pworld A) (i : nat) (k e : Z) : outcome A := let* o := pobject W i in ph_at (pw_mem W) o k e.
Definition pload {A} (W : pworld A) (i : nat) (k : Z) (out : list A) : outcome (list A) :=
  let* o := pobject W i in ph_load (pw_mem W) o k out.
Definition pcount {A} (W : pworld A) (i : nat) : outcome Z := let* o := pobject W i in Ok (u32 (zlen (po_info o))).
Definition ptail {A} (W : pworld A) (i : nat) : outcome Z :=
  let* o := pobject W i in
  Ok (match po_info o with [] => 0 | _ => pi_size (last (po_info o) (mkInfo 0 0 0)) end).

(** The empty memory at the start of a program. *)
Definition pstart {A} : pworld A := mkPworld (mkPmem [] []) [].

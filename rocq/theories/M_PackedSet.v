(** Model of PackedSet (packed_sets.h).  No proofs. *)
From Verif Require Import Base.

(** packed_sets.h:14-24 [PackedSetInfo]. *)
Record pinfo := mkInfo { pi_block : Z; pi_offset : Z; pi_size : Z }.

(** packed_sets.h:41-49: fields of PackedSet; _number_of_blocks is the length of [ps_blocks].  [None] is an element of
    a block that was never written (new T[n]). *)
Record pset (A : Type) := mkPS {
  ps_blocks : list (list (option A));
  ps_bs : Z;             (* _size_of_block *)
  ps_total : Z;          (* _total_element *)
  ps_info : list pinfo   (* set_info *)
}.
Arguments mkPS {A} _ _ _ _. Arguments ps_blocks {A} _. Arguments ps_bs {A} _.
Arguments ps_total {A} _. Arguments ps_info {A} _.

(** new T[_size_of_block] (packed_sets.h:56,125). *)
Definition ps_block {A} (bs : Z) : list (option A) := repeat None (Z.to_nat bs).

(** packed_sets.h:51-58: constructor. *)
Definition ps_new {A} (bs : Z) : pset A := mkPS [ps_block bs] bs 0 [].

(** packed_sets.h:74-77 [clear]. *)
Definition ps_clear {A} (p : pset A) : pset A := mkPS (ps_blocks p) (ps_bs p) 0 [].

(** Unsigned division, undefined for a zero divisor (packed_sets.h:86-87,119,130,162). *)
Definition udiv (a b : Z) : outcome Z := if b =? 0 then Undef else Ok (a / b).
Definition umod (a b : Z) : outcome Z := if b =? 0 then Undef else Ok (a mod b).

(** packed_sets.h:82-90 [start_new_set]. *)
Definition ps_start {A} (p : pset A) : outcome (pset A) :=
  let* b := udiv (ps_total p) (ps_bs p) in
  let* o := umod (ps_total p) (ps_bs p) in
  Ok (mkPS (ps_blocks p) (ps_bs p) (ps_total p) (ps_info p ++ [mkInfo b o 0])).

(** packed_sets.h:95-99 [size_of_tail]. *)
Definition ps_tail_size {A} (p : pset A) : Z :=
  match ps_info p with [] => 0 | _ => pi_size (last (ps_info p) (mkInfo 0 0 0)) end.

(** [blocks[b][o]] read and written (packed_sets.h:130,162,171,184). *)
Definition cell_get {A} (bl : list (list (option A))) (b o : Z) : outcome A :=
  let* blk := bget bl b in
  let* c := bget blk o in
  match c with Some v => Ok v | None => Undef end.
Definition cell_set {A} (bl : list (list (option A))) (b o : Z) (v : A) : outcome (list (list (option A))) :=
  let* blk := bget bl b in
  let* blk' := bset blk o (Some v) in
  bset bl b blk'.

(** packed_sets.h:118-132 [_add_element]. *)
Definition ps_add {A} (p : pset A) (v : A) : outcome (pset A) :=
  let* block := udiv (ps_total p) (ps_bs p) in
  let bl := if block =? zlen (ps_blocks p) then ps_blocks p ++ [ps_block (ps_bs p)] else ps_blocks p in
  let* o := umod (ps_total p) (ps_bs p) in
  let* bl' := cell_set bl block o v in
  Ok (mkPS bl' (ps_bs p) (u32 (ps_total p + 1)) (ps_info p)).

(** [set_info.back().size++] (packed_sets.h:112). *)
Definition inc_tail (l : list pinfo) : list pinfo :=
  match l with
  | [] => []
  | _ => let i := last l (mkInfo 0 0 0) in
         removelast l ++ [mkInfo (pi_block i) (pi_offset i) (u32 (pi_size i + 1))]
  end.

(** packed_sets.h:104-113 [push_tail]. *)
Definition ps_push {A} (p : pset A) (v : A) : outcome (pset A) :=
  let* p1 := (match ps_info p with [] => ps_start p | _ => Ok p end) in
  let* p2 := ps_add p1 v in
  Ok (mkPS (ps_blocks p2) (ps_bs p2) (ps_total p2) (inc_tail (ps_info p2))).

(** packed_sets.h:137-142 [remove_tail]. *)
Definition ps_remove_tail {A} (p : pset A) : pset A :=
  match ps_info p with
  | [] => p
  | _ => mkPS (ps_blocks p) (ps_bs p) (u32 (ps_total p - pi_size (last (ps_info p) (mkInfo 0 0 0))))
           (removelast (ps_info p))
  end.

(** [set.block*_size_of_block + set.offset + i] (packed_sets.h:160,170,183). *)
Definition ps_flat {A} (p : pset A) (s : pinfo) (i : Z) : Z := u32 (pi_block s * ps_bs p + pi_offset s + i).

(** packed_sets.h:150-163 [at] used as a value. *)
Definition ps_at {A} (p : pset A) (k i : Z) : outcome A :=
  if zlen (ps_info p) <=? k then Throw else
  match znth (ps_info p) k with
  | None => Throw
  | Some s =>
      if pi_size s <=? i then Throw else
      let* b := udiv (ps_flat p s i) (ps_bs p) in
      let* o := umod (ps_flat p s i) (ps_bs p) in
      cell_get (ps_blocks p) b o
  end.

(** packed_sets.h:150-163 [at] as the target of an assignment. *)
Definition ps_at_set {A} (p : pset A) (k i : Z) (v : A) : outcome (pset A) :=
  if zlen (ps_info p) <=? k then Throw else
  match znth (ps_info p) k with
  | None => Throw
  | Some s =>
      if pi_size s <=? i then Throw else
      let* b := udiv (ps_flat p s i) (ps_bs p) in
      let* o := umod (ps_flat p s i) (ps_bs p) in
      let* bl := cell_set (ps_blocks p) b o v in
      Ok (mkPS bl (ps_bs p) (ps_total p) (ps_info p))
  end.

(** packed_sets.h:165-173 [load_set]: appends to [out]; vector::at throws for an unknown set. *)
Definition ps_load {A} (p : pset A) (k : Z) (out : list A) : outcome (list A) :=
  match znth (ps_info p) k with
  | None => Throw
  | Some s =>
      for_range 0 (pi_size s) (fun i out =>
        let* b := udiv (ps_flat p s i) (ps_bs p) in
        let* o := umod (ps_flat p s i) (ps_bs p) in
        let* v := cell_get (ps_blocks p) b o in
        Ok (out ++ [v])) out
  end.

(** packed_sets.h:175-186 [write_set]. *)
Definition ps_write {A} (p : pset A) (k : Z) (input : list A) : outcome (pset A) :=
  match znth (ps_info p) k with
  | None => Throw
  | Some s =>
      if negb (zlen input =? pi_size s) then Throw else
      let* bl := for_range 0 (pi_size s) (fun i bl =>
        let* b := udiv (ps_flat p s i) (ps_bs p) in
        let* o := umod (ps_flat p s i) (ps_bs p) in
        let* v := bget input i in
        cell_set bl b o v) (ps_blocks p) in
      Ok (mkPS bl (ps_bs p) (ps_total p) (ps_info p))
  end.

(** packed_sets.h:188-190 [number_of_sets]. *)
Definition ps_count {A} (p : pset A) : Z := u32 (zlen (ps_info p)).

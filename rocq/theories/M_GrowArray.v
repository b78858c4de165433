(** Model of GrowArray (base_types.h:65-193).  No proofs. *)
From Verif Require Import Base.

(** What the code uses of an element type T: the value 0 (base_types.h:73), sizeof(T) (base_types.h:145,155,174,191)
    and the value of an element after all its bytes were set by memset(.., v, ..) (base_types.h:130,146,155). *)
Record memtype (A : Type) := mkMem { mt_zero : A; mt_size : Z; mt_set : A -> A }.
Arguments mkMem {A} _ _ _. Arguments mt_zero {A} _. Arguments mt_size {A} _. Arguments mt_set {A} _ _.

(** memset converts the value to unsigned char and stores it in each byte of an element of integer type [t]
    (base_types.h:130,146,155). *)
Definition memset_elem (t : ity) (v : Z) : Z :=
  let b := u8 v in
  cast t (match t with
          | U8 => b
          | U16 => b * 257 | S16 => b * 257
          | U32 => b * 16843009 | S32 => b * 16843009
          | S64 => b * 72340172838076673
          end).

(** The instance for integer element types. *)
Definition int_mem (t : ity) : memtype Z := mkMem 0 (ity_size t) (memset_elem t).

(** base_types.h:69-78: fields of GrowArray.  [ga_data] is the allocation; [None] is an element that was never
    written (new T[n] leaves it indeterminate) or only partially written. *)
Record growarr (A : Type) := mkGA {
  ga_data : list (option A);
  ga_size : Z;
  ga_len : Z;          (* array_length *)
  ga_default : A;      (* default_value *)
  ga_own : bool        (* can_resize *)
}.
Arguments mkGA {A} _ _ _ _ _.
Arguments ga_data {A} _. Arguments ga_size {A} _. Arguments ga_len {A} _.
Arguments ga_default {A} _. Arguments ga_own {A} _.

(** base_types.h:81-86: wraps foreign memory, which holds at least [len] elements. *)
Definition ga_wrap {A} (m : memtype A) (data : list (option A)) (len size : Z) : growarr A :=
  mkGA data size len (mt_zero m) false.

(** base_types.h:88-94: constructor with a size; fills with default_value = 0. *)
Definition ga_new {A} (m : memtype A) (n : Z) : growarr A :=
  mkGA (repeat (Some (mt_set m (mt_zero m))) (Z.to_nat n)) n n (mt_zero m) true.

(** base_types.h:96-98: default constructor. *)
Definition ga_new_default {A} (m : memtype A) : growarr A := ga_new m 10.

(** base_types.h:100-109: constructor from an initializer list (at most 2^32-1 elements). *)
Definition ga_of_list {A} (m : memtype A) (l : list A) : growarr A :=
  mkGA (map Some l) (u32 (zlen l)) (u32 (zlen l)) (mt_zero m) true.

(** base_types.h:123-133 [grow_array].  The memset at line 130 covers [new_size] bytes, i.e. new_size / sizeof(T)
    whole elements; the others stay indeterminate.  An exception leaves the object as it was. *)
Definition ga_grow {A} (m : memtype A) (g : growarr A) (n : Z) : outcome (growarr A) :=
  if ga_own g then
    if ga_len g <? n then
      Ok (mkGA (repeat (Some (mt_set m (ga_default g))) (Z.to_nat (n / mt_size m))
                ++ repeat None (Z.to_nat (n - n / mt_size m))) 0 n (ga_default g) true)
    else Ok (mkGA (ga_data g) 0 (ga_len g) (ga_default g) true)
  else Throw.

(** memmove / memcpy of [n] elements from [src] to the start of [dst] (base_types.h:145,174,191): every element read
    and written has to exist; indeterminate elements are copied as such. *)
Definition move_elems {A} (dst src : list (option A)) (n : Z) : outcome (list (option A)) :=
  if (n <=? zlen dst) && (n <=? zlen src) then
    Ok (firstn (Z.to_nat n) src ++ skipn (Z.to_nat n) dst)
  else Undef.

(** base_types.h:139-152 [resize].  (tmp is a fresh array of [n] elements.) *)
Definition ga_resize {A} (m : memtype A) (g : growarr A) (n : Z) : outcome (growarr A) :=
  if ga_own g then
    if ga_len g <? n then
      let* tmp := move_elems (repeat None (Z.to_nat n)) (ga_data g) (ga_size g) in
      Ok (mkGA (firstn (Z.to_nat (ga_size g)) tmp
                ++ repeat (Some (mt_set m (ga_default g))) (Z.to_nat (n - ga_size g))) n n (ga_default g) true)
    else Ok (mkGA (ga_data g) n (ga_len g) (ga_default g) true)
  else Throw.

(** base_types.h:154-156 [fill]. *)
Definition ga_fill {A} (m : memtype A) (g : growarr A) (v : A) : outcome (growarr A) :=
  if ga_size g <=? zlen (ga_data g) then
    Ok (mkGA (repeat (Some (mt_set m v)) (Z.to_nat (ga_size g)) ++ skipn (Z.to_nat (ga_size g)) (ga_data g))
          (ga_size g) (ga_len g) (ga_default g) (ga_own g))
  else Undef.

(** base_types.h:158-162 [at] used as a value; reading an indeterminate element is undefined. *)
Definition ga_at {A} (g : growarr A) (i : Z) : outcome A :=
  if ga_size g <=? i then Throw
  else match znth (ga_data g) i with Some (Some v) => Ok v | _ => Undef end.

(** base_types.h:158-162 [at] as the target of an assignment. *)
Definition ga_at_set {A} (g : growarr A) (i : Z) (v : A) : outcome (growarr A) :=
  if ga_size g <=? i then Throw
  else let* d := bset (ga_data g) i (Some v) in
       Ok (mkGA d (ga_size g) (ga_len g) (ga_default g) (ga_own g)).

(** base_types.h:164-166 [operator[]] used as a value: no check. *)
Definition ga_idx {A} (g : growarr A) (i : Z) : outcome A :=
  match znth (ga_data g) i with Some (Some v) => Ok v | _ => Undef end.

(** base_types.h:73: assignment to the public field default_value. *)
Definition ga_set_default {A} (g : growarr A) (v : A) : growarr A :=
  mkGA (ga_data g) (ga_size g) (ga_len g) v (ga_own g).

(** base_types.h:168-177 [operator=] from another object with its own memory.  (When it throws, default_value has
    already been replaced; the model drops the object in that case.) *)
Definition ga_assign {A} (m : memtype A) (g other : growarr A) : outcome (growarr A) :=
  let* g1 := ga_grow m (ga_set_default g (ga_default other)) (ga_size other) in
  let* d := move_elems (ga_data g1) (ga_data other) (ga_size other) in
  Ok (mkGA d (ga_size other) (ga_len g1) (ga_default g1) (ga_own g1)).

(** base_types.h:179-186 [setTo]. *)
Definition ga_setTo {A} (m : memtype A) (g : growarr A) (l : list A) : outcome (growarr A) :=
  let* g1 := ga_resize m g (u32 (zlen l)) in
  let* d := move_elems (ga_data g1) (map Some l) (zlen l) in
  Ok (mkGA d (ga_size g1) (ga_len g1) (ga_default g1) (ga_own g1)).

(** base_types.h:188-192 [set] from [n] elements of foreign memory [src]. *)
Definition ga_set {A} (m : memtype A) (g : growarr A) (src : list (option A)) (n : Z) : outcome (growarr A) :=
  let* g1 := ga_grow m g n in
  let* d := move_elems (ga_data g1) src n in
  Ok (mkGA d n (ga_len g1) (ga_default g1) (ga_own g1)).

(** Specification vocabulary for GrowArray: the object as a finite sequence. *)
From Verif Require Import Base M_GrowArray.

(** The elements 0 .. size-1; [None] stands for an element with unspecified value. *)
Definition ga_seq {A} (g : growarr A) : list (option A) := firstn (Z.to_nat (ga_size g)) (ga_data g).

(** Element of a sequence. *)
Definition elem {A} (s : list (option A)) (i : Z) : option (option A) := znth s i.

(** One call on an owning array. *)
Inductive ga_op (A : Type) :=
| Op_grow (n : Z)
| Op_resize (n : Z)
| Op_fill (v : A)
| Op_put (i : Z) (v : A)
| Op_default (v : A)
| Op_assign (other : growarr A)
| Op_setTo (l : list A)
| Op_set (src : list A).
Arguments Op_grow {A} n. Arguments Op_resize {A} n. Arguments Op_fill {A} v. Arguments Op_put {A} i v.
Arguments Op_default {A} v. Arguments Op_assign {A} other. Arguments Op_setTo {A} l. Arguments Op_set {A} src.

(** The call in the model. *)
Definition ga_exec {A} (m : memtype A) (g : growarr A) (o : ga_op A) : outcome (growarr A) :=
  match o with
  | Op_grow n => ga_grow m g n
  | Op_resize n => ga_resize m g n
  | Op_fill v => ga_fill m g v
  | Op_put i v => ga_at_set g i v
  | Op_default v => Ok (ga_set_default g v)
  | Op_assign other => ga_assign m g other
  | Op_setTo l => ga_setTo m g l
  | Op_set src => ga_set m g (map Some src) (zlen src)
  end.

(** A history of calls; a call that throws leaves the array as it was and the history goes on. *)
Fixpoint ga_run {A} (m : memtype A) (g : growarr A) (l : list (ga_op A)) : outcome (growarr A) :=
  match l with
  | [] => Ok g
  | o :: r => match ga_exec m g o with
              | Ok g' => ga_run m g' r
              | Throw => ga_run m g r
              | Undef => Undef
              | OutOfFuel => OutOfFuel
              end
  end.

(** Arguments the C++ types allow; an array assigned from is itself consistent. *)
Definition ga_op_ok {A} (o : ga_op A) : Prop :=
  match o with
  | Op_grow n | Op_resize n => 0 <= n < 4294967296
  | Op_put i _ => 0 <= i < 4294967296
  | Op_assign other => 0 <= ga_size other <= ga_len other /\ ga_len other <= zlen (ga_data other) /\ ga_len other < 4294967296
  | Op_setTo l => zlen l < 4294967296
  | Op_set l => zlen l < 4294967296
  | _ => True
  end.

(** What the call has to do to the sequence [s], giving [s']. *)
Definition seq_step {A} (s : list (option A)) (o : ga_op A) (s' : list (option A)) : Prop :=
  match o with
  | Op_grow _ => s' = []
  | Op_resize n => zlen s' = n /\ forall i, i < zlen s -> i < n -> znth s' i = znth s i
  | Op_fill _ => zlen s' = zlen s
  | Op_put i v => zlen s' = zlen s /\ forall j, znth s' j = if j =? i then Some (Some v) else znth s j
  | Op_default _ => s' = s
  | Op_assign other => s' = ga_seq other
  | Op_setTo l => s' = map Some l
  | Op_set l => s' = map Some l
  end.

(** When the call has to throw. *)
Definition seq_throws {A} (s : list (option A)) (o : ga_op A) : Prop :=
  match o with
  | Op_put i _ => zlen s <= i
  | _ => False
  end.

(** All [ity_size t] bytes of the two's complement representation of [v] are equal. *)
Definition bytes_equal (t : ity) (v : Z) : Prop :=
  forall k, 0 <= k < ity_size t -> (v / 256 ^ k) mod 256 = v mod 256.

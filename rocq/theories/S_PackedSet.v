(** Specification of PackedSet: a list of lists whose last member is the tail. *)
From Verif Require Import Base M_PackedSet.

Inductive ps_op (A : Type) :=
| P_clear | P_start | P_push (v : A) | P_remove | P_at_set (k i : Z) (v : A) | P_write (k : Z) (l : list A).
Arguments P_clear {A}. Arguments P_start {A}. Arguments P_push {A} v. Arguments P_remove {A}.
Arguments P_at_set {A} k i v. Arguments P_write {A} k l.

(** The call in the model. *)
Definition ps_exec {A} (p : pset A) (o : ps_op A) : outcome (pset A) :=
  match o with
  | P_clear => Ok (ps_clear p)
  | P_start => ps_start p
  | P_push v => ps_push p v
  | P_remove => Ok (ps_remove_tail p)
  | P_at_set k i v => ps_at_set p k i v
  | P_write k l => ps_write p k l
  end.

(** The call on a list of lists; [None] means it throws. *)
Definition ll_exec {A} (s : list (list A)) (o : ps_op A) : option (list (list A)) :=
  match o with
  | P_clear => Some []
  | P_start => Some (s ++ [[]])
  | P_push v => Some (match s with [] => [[v]] | _ => removelast s ++ [last s [] ++ [v]] end)
  | P_remove => Some (removelast s)
  | P_at_set k i v =>
      match znth s k with
      | None => None
      | Some l => if i <? zlen l then Some (upd s (Z.to_nat k) (upd l (Z.to_nat i) v)) else None
      end
  | P_write k l' =>
      match znth s k with
      | None => None
      | Some l => if zlen l' =? zlen l then Some (upd s (Z.to_nat k) l') else None
      end
  end.

(** Number of elements in all sets. *)
Definition ll_total {A} (s : list (list A)) : Z := zlen (concat s).

(** Histories; a call that throws has no effect and the history goes on. *)
Fixpoint ps_run {A} (p : pset A) (l : list (ps_op A)) : outcome (pset A) :=
  match l with
  | [] => Ok p
  | o :: r => match ps_exec p o with
              | Ok p' => ps_run p' r
              | Throw => ps_run p r
              | Undef => Undef
              | OutOfFuel => OutOfFuel
              end
  end.
Fixpoint ll_run {A} (s : list (list A)) (l : list (ps_op A)) : list (list A) :=
  match l with
  | [] => s
  | o :: r => ll_run (match ll_exec s o with Some s' => s' | None => s end) r
  end.

(** No intermediate state holds 2^32 elements or more, or 2^32 sets or more. *)
Fixpoint ll_fits {A} (s : list (list A)) (l : list (ps_op A)) : Prop :=
  ll_total s < 4294967296 /\ zlen s < 4294967296 /\
  match l with
  | [] => True
  | o :: r => ll_fits (match ll_exec s o with Some s' => s' | None => s end) r
  end.

(** Indices the C++ types allow. *)
Definition ps_op_ok {A} (o : ps_op A) : Prop :=
  match o with
  | P_at_set k i _ => 0 <= k < 4294967296 /\ 0 <= i < 4294967296
  | P_write k _ => 0 <= k < 4294967296
  | _ => True
  end.

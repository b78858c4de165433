(** Packed sets as independent lists of lists, and the memory they need. *)
From Verif Require Import Base M_PackedSet S_PackedSet M_PackHeap.

(** What a packed set is to its user: the lists, the block size it was created with and the largest number of elements it
    has held so far. *)
Record lists (A : Type) := mkLists { l_sets : list (list A); l_bs : Z; l_peak : Z }.
Arguments mkLists {A} _ _ _. Arguments l_sets {A} _. Arguments l_bs {A} _. Arguments l_peak {A} _.

(** A member call. *)
Definition lists_call {A} (x : lists A) (c : ps_op A) : option (lists A) :=
  match ll_exec (l_sets x) c with
  | Some s => Some (mkLists s (l_bs x) (Z.max (l_peak x) (ll_total s)))
  | None => None
  end.

(** A statement; [None]: it throws. *)
Definition lists_step {A} (V : list (option (lists A))) (c : pcmd A) : option (list (option (lists A))) :=
  match c with
  | PNew bs => Some (V ++ [Some (mkLists [] bs 0)])
  | PCall i c =>
      match nth_error V i with
      | Some (Some x) => match lists_call x c with Some x' => Some (upd V i (Some x')) | None => None end
      | _ => None
      end
  | PDestroy i => Some (upd V i None)
  | PCopyCtor _ | PAssign _ _ => None
  end.
Fixpoint lists_run {A} (V : list (option (lists A))) (cs : list (pcmd A)) : list (option (lists A)) :=
  match cs with
  | [] => V
  | c :: r => lists_run (match lists_step V c with Some V' => V' | None => V end) r
  end.

(** Statements on existing objects with arguments the C++ types allow and no copies; the sets hold fewer than 2^32
    elements and there are fewer than 2^32 of them. *)
Definition pallowed {A} (V : list (option (lists A))) (c : pcmd A) : Prop :=
  match c with
  | PNew bs => 1 <= bs < 4294967296
  | PCall i c => exists x, nth_error V i = Some (Some x) /\ ps_op_ok c /\
      forall s, ll_exec (l_sets x) c = Some s -> ll_total s < 4294967296 /\ zlen s < 4294967296
  | PDestroy i => exists x, nth_error V i = Some (Some x)
  | PCopyCtor _ | PAssign _ _ => False
  end.
Fixpoint pdisciplined {A} (V : list (option (lists A))) (cs : list (pcmd A)) : Prop :=
  match cs with
  | [] => True
  | c :: r => pallowed V c /\ pdisciplined (match lists_step V c with Some V' => V' | None => V end) r
  end.

(** Blocks needed: enough for the largest number of elements held so far, at least one. *)
Definition needs {A} (x : lists A) : Z := Z.max 1 ((l_peak x + l_bs x - 1) / l_bs x).
Fixpoint all_need {A} (V : list (option (lists A))) : Z :=
  match V with [] => 0 | Some x :: r => needs x + all_need r | None :: r => all_need r end.

(** Allocations of memory that have not been freed. *)
Definition held {B} (l : list (option B)) : Z := zlen (filter (fun o => match o with Some _ => true | None => false end) l).

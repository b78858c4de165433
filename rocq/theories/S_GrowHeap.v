(** Growable arrays as independent sequences. *)
From Verif Require Import Base M_Heap M_GrowArray S_GrowArray M_GrowHeap.

(** The sequences a program works with; [None] is one that no longer exists. *)
Definition seqs (A : Type) := list (option (list (option A))).

(** What object [o] shows. *)
Definition gview {A} (H : heap (option A)) (o : gobj A) : option (list (option A)) :=
  match nth_error H (go_block o) with Some (Some d) => Some (firstn (Z.to_nat (go_size o)) d) | _ => None end.

(** The objects of [W] show the sequences [V]. *)
Definition shows_seqs {A} (W : gworld A) (V : seqs A) : Prop :=
  Forall2 (fun o s => match o, s with
                      | None, None => True
                      | Some o, Some s => gview (gw_heap W) o = Some s
                      | _, _ => False
                      end) (gw_objs W) V.

(** Number [i] of a list of objects or sequences exists. *)
Definition gexists {B} (l : list (option B)) (i : nat) : Prop := exists s, nth_error l i = Some (Some s).

(** Statements on existing objects with arguments the C++ types allow; no copy construction. *)
Definition gallowed {A B} (V : list (option B)) (c : gcmd A) : Prop :=
  match c with
  | GNew n => 0 <= n < 4294967296
  | GDefault => True
  | GList l => zlen l < 4294967296
  | GGrow i n | GResize i n => gexists V i /\ 0 <= n < 4294967296
  | GFill i _ | GSetDefault i _ | GDestroy i => gexists V i
  | GPut i k _ => gexists V i /\ 0 <= k < 4294967296
  | GAssign i j => gexists V i /\ gexists V j
  | GSetTo i l | GSet i l => gexists V i /\ zlen l < 4294967296
  | GCopyCtor _ => False
  end.

(** Sequence [i] is replaced as [seq_step] says, all others stay. *)
Definition changes {A} (V : seqs A) (i : nat) (o : ga_op A) (V' : seqs A) : Prop :=
  exists s s', nth_error V i = Some (Some s) /\ seq_step s o s' /\ V' = upd V i (Some s').

(** What a statement does to the sequences. *)
Definition gvalue {A} (zero : A) (V : seqs A) (c : gcmd A) (V' : seqs A) : Prop :=
  match c with
  | GNew n => V' = V ++ [Some (repeat (Some zero) (Z.to_nat n))]
  | GDefault => V' = V ++ [Some (repeat (Some zero) 10)]
  | GList l => V' = V ++ [Some (map Some l)]
  | GGrow i n => changes V i (Op_grow n) V'
  | GResize i n => changes V i (Op_resize n) V'
  | GFill i v => changes V i (Op_fill v) V'
  | GPut i k v => changes V i (Op_put k v) V'
  | GSetDefault i v => V' = V
  | GAssign i j => exists s, nth_error V j = Some (Some s) /\ V' = upd V i (Some s)
  | GSetTo i l => changes V i (Op_setTo l) V'
  | GSet i l => changes V i (Op_set l) V'
  | GCopyCtor _ => False
  | GDestroy i => V' = upd V i None
  end.

(** When a statement throws. *)
Definition gthrows {A} (V : seqs A) (c : gcmd A) : Prop :=
  match c with GPut i k _ => exists s, nth_error V i = Some (Some s) /\ zlen s <= k | _ => False end.

(** A possible course of a program over sequences. *)
Inductive gcourse {A} (zero : A) : list (gcmd A) -> seqs A -> Prop :=
| gcourse_start : gcourse zero [] []
| gcourse_throw cs c V : gcourse zero cs V -> gallowed V c -> gthrows V c -> gcourse zero (cs ++ [c]) V
| gcourse_step cs c V V' : gcourse zero cs V -> gallowed V c -> ~ gthrows V c -> gvalue zero V c V' -> gcourse zero (cs ++ [c]) V'.

(** Every statement is allowed where it is executed. *)
Fixpoint gdisciplined {A} (m : memtype A) (W : gworld A) (cs : list (gcmd A)) : Prop :=
  match cs with
  | [] => True
  | c :: r =>
      gallowed (gw_objs W) c /\
      match gstep m W c with Ok W' => gdisciplined m W' r | _ => gdisciplined m W r end
  end.

(** Number of objects or blocks that exist. *)
Definition existing {B} (l : list (option B)) : nat := length (filter (fun o => match o with Some _ => true | None => false end) l).

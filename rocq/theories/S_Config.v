(** Values of IEEE numbers, for statements about lengths. *)
From Coq Require Import QArith Floats.SpecFloat.
From Verif Require Import Base.
Open Scope Z_scope.

(** The rational number a float stands for; [None] for infinities and NaN. *)
Definition float_value (x : spec_float) : option Q :=
  match x with
  | S754_zero _ => Some 0%Q
  | S754_finite s m e =>
      let a := if s then Zneg m else Zpos m in
      Some (if 0 <=? e then inject_Z (a * 2 ^ e) else (a # Z.to_pos (2 ^ (- e)))%Q)
  | _ => None
  end.

(** The larger of two rational numbers. *)
Definition larger (a b : Q) : Q := if Qle_bool a b then b else a.

(** Vocabulary shared by every model file: outcomes of C++ calls, machine integers, buffers, loops. *)
From Coq Require Export ZArith List Bool.
Export ListNotations.
Open Scope Z_scope.

(** ** Outcomes *)

(** What a C++ call can do.  [Throw]: an exception leaves the function (in /repo always
    std::invalid_argument, std::runtime_error or std::out_of_range, e.g. image_types.h:155, packed_sets.h:153).
    [Undef]: undefined behaviour.  [OutOfFuel]: a model artefact, see contour.cpp:101 [for(;;)]. *)
Inductive outcome (A : Type) : Type :=
| Ok (a : A)
| Throw
| Undef
| OutOfFuel.
Arguments Ok {A} a.
Arguments Throw {A}.
Arguments Undef {A}.
Arguments OutOfFuel {A}.

(** Sequencing of statements (C++ [;]).  Models no particular line. *)
Definition bind {A B} (m : outcome A) (k : A -> outcome B) : outcome B :=
  match m with
  | Ok a => k a
  | Throw => Throw
  | Undef => Undef
  | OutOfFuel => OutOfFuel
  end.

Notation "'let*' x ':=' m 'in' k" := (bind m (fun x => k))
  (at level 200, x name, m at level 100, k at level 200, right associativity).
Notation "'let*' ' p ':=' m 'in' k" := (bind m (fun p => k))
  (at level 200, p strict pattern, m at level 100, k at level 200, right associativity).

(** ** Machine integers (base_types.h:12-16)

    Conversion to an unsigned type is reduction modulo 2^n.  Conversion to a signed type is the two's complement
    reading (implementation-defined before C++20, but what every supported compiler does). *)
Definition u8 (z : Z) : Z := z mod 256.
Definition u16 (z : Z) : Z := z mod 65536.
Definition u32 (z : Z) : Z := z mod 4294967296.
Definition u64 (z : Z) : Z := z mod 18446744073709551616.
Definition s16 (z : Z) : Z := (z + 32768) mod 65536 - 32768.
Definition s32 (z : Z) : Z := (z + 2147483648) mod 4294967296 - 2147483648.
Definition s64 (z : Z) : Z :=
  (z + 9223372036854775808) mod 18446744073709551616 - 9223372036854775808.

(** Integer element types of images (base_types.h:12-16) and [uint32_t]. *)
Inductive ity := U8 | U16 | U32 | S16 | S32 | S64.

(** [static_cast] to an integer type. *)
Definition cast (t : ity) (z : Z) : Z :=
  match t with
  | U8 => u8 z | U16 => u16 z | U32 => u32 z | S16 => s16 z | S32 => s32 z | S64 => s64 z
  end.

(** [std::numeric_limits<T>::min()] for integers. *)
Definition ity_min (t : ity) : Z :=
  match t with
  | U8 => 0 | U16 => 0 | U32 => 0 | S16 => -32768 | S32 => -2147483648 | S64 => -9223372036854775808
  end.

(** [std::numeric_limits<T>::max()] for integers. *)
Definition ity_max (t : ity) : Z :=
  match t with
  | U8 => 255 | U16 => 65535 | U32 => 4294967295 | S16 => 32767 | S32 => 2147483647
  | S64 => 9223372036854775807
  end.

(** [sizeof(T)]. *)
Definition ity_size (t : ity) : Z :=
  match t with U8 => 1 | U16 => 2 | U32 => 4 | S16 => 2 | S32 => 4 | S64 => 8 end.

Definition ity_signed (t : ity) : bool :=
  match t with U8 => false | U16 => false | U32 => false | S16 => true | S32 => true | S64 => true end.

(** [TypeInfo<T>::sum_type] (base_types.h:25-59). *)
Definition sum_type (t : ity) : ity :=
  match t with U8 => U32 | U16 => U32 | U32 => U32 | S16 => S32 | S32 => S32 | S64 => S64 end.

(** [TypeInfo<T>::signed_type] (base_types.h:25-59). *)
Definition signed_type (t : ity) : ity :=
  match t with U8 => S32 | U16 => S32 | U32 => S32 | S16 => S32 | S32 => S32 | S64 => S64 end.

(** The value [z] of an arithmetic operation carried out in type [t]: unsigned types wrap around, overflow of a
    signed type is undefined behaviour.  Only used for types at least as wide as [int]. *)
Definition arith_result (t : ity) (z : Z) : outcome Z :=
  if ity_signed t
  then if (ity_min t <=? z) && (z <=? ity_max t) then Ok z else Undef
  else Ok (cast t z).

(** ** Buffers: C++ arrays are lists, access outside is undefined *)

Definition zlen {A} (l : list A) : Z := Z.of_nat (length l).

(** Element at index [i] as a mathematical object (no C++ meaning: used by specifications). *)
Definition znth {A} (l : list A) (i : Z) : option A :=
  if i <? 0 then None else nth_error l (Z.to_nat i).

(** [data[i]] read. *)
Definition bget {A} (l : list A) (i : Z) : outcome A :=
  match znth l i with Some a => Ok a | None => Undef end.

Fixpoint upd {A} (l : list A) (n : nat) (a : A) : list A :=
  match l, n with
  | [], _ => []
  | _ :: t, O => a :: t
  | h :: t, S m => h :: upd t m a
  end.

(** [data[i] = a]. *)
Definition bset {A} (l : list A) (i : Z) (a : A) : outcome (list A) :=
  if (0 <=? i) && (i <? zlen l) then Ok (upd l (Z.to_nat i) a) else Undef.

(** ** Loops *)

Fixpoint for_up {S} (n : nat) (i : Z) (body : Z -> S -> outcome S) (s : S) : outcome S :=
  match n with
  | O => Ok s
  | S m => let* s' := body i s in for_up m (i + 1) body s'
  end.

(** [for( i = lo; i < hi; i++ ) body]. *)
Definition for_range {S} (lo hi : Z) (body : Z -> S -> outcome S) (s : S) : outcome S :=
  for_up (Z.to_nat (hi - lo)) lo body s.

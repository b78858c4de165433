(** What Interleaved::setTo does to elements wider than one byte. *)
From Verif Require Import Base M_Image S_Image.

(** Byte [i] of an integer in two's complement, least significant first. *)
Definition byte_of (v i : Z) : Z := (v / 256 ^ i) mod 256.

(** The value [v] of type [t] has its low [r] bytes from [s] and the others from [d]. *)
Definition mixed (t : ity) (r d s v : Z) : Prop :=
  ity_min t <= v <= ity_max t /\ (forall i, 0 <= i < r -> byte_of v i = byte_of s i) /\
  (forall i, r <= i < ity_size t -> byte_of v i = byte_of d i).

(** Number of bytes of an element at place [k] of a row that a copy of [n] bytes reaches. *)
Definition reached (t : ity) (n k : Z) : Z := Z.max 0 (Z.min (ity_size t) (n - k * ity_size t)).

(** Floating point values as real numbers. *)
From Coq Require Import Reals.
From Coq Require Import Floats.SpecFloat.
From Flocq Require Import Core BinarySingleNaN.
From Verif Require Import Base M_Float.

(** The two types. *)
Definition standard (f : fty) : Prop := f = F32 \/ f = F64.

(** [x] is a value of the type, an infinity and not-a-number included; [x] is a number. *)
Definition isfloat (f : fty) (x : spec_float) : Prop := valid_binary (f_prec f) (f_emax f) x = true.
Definition finite (f : fty) (x : spec_float) : Prop := isfloat f x /\ is_finite_SF x = true.

(** The real number a float stands for. *)
Definition val (x : spec_float) : R := SF2R radix2 x.

(** Largest relative error of one operation, 2^-24 and 2^-53; largest absolute error of a product or quotient near zero,
    2^-150 and 2^-1075; values from [huge] on overflow to infinity, 2^128 and 2^1024. *)
Definition unit_error (f : fty) : R := bpow radix2 (- f_prec f).
Definition tiny_error (f : fty) : R := bpow radix2 (2 - f_emax f - f_prec f).
Definition huge (f : fty) : R := bpow radix2 (f_emax f).

(** Convolution of float and double images with a divisor. *)
From Coq Require Import Floats.SpecFloat.
From Verif Require Import Base M_Convolve M_Float.

(** Floating point with divisor: convolve.h:63-81, 122-140, 189-210 (naive), 624-648, 740-766, 842-868 (inner).  The loops are
    those of [naive_h], [naive_v], [naive_2], [inner_h_idx], [inner_v_idx] and [inner_2]. *)
Definition float_arith_div (f : fty) (divisor : spec_float) : arith spec_float spec_float spec_float :=
  mkArith (S754_zero false) (fun c p => Ok (fmul f c p)) (fun a b => Ok (fadd f a b)) (fun s => Ok (fdiv f s divisor)).

(** IEEE 754 arithmetic of [float] and [double] images: round to nearest even, one NaN, no contraction of operations
    into fused ones. *)
From Coq Require Import Floats.SpecFloat.
From Verif Require Import Base M_Image M_Convolve M_Normalized M_Blur.

(** Precision and largest exponent of F32 and F64 (base_types.h:17-18). *)
Record fty := mkFty { f_prec : Z; f_emax : Z }.
Definition F32 : fty := mkFty 24 128.
Definition F64 : fty := mkFty 53 1024.

(** An integer converted to floating point, e.g. image_blur.h:58 [sum_type divisor = kernelWidth]. *)
Definition float_of_Z (f : fty) (z : Z) : spec_float := binary_normalize (f_prec f) (f_emax f) z 0 false.

(** Arithmetic operators of the type; base_types.h:50-59 makes [sum_type] and [signed_type] the type itself. *)
Definition fadd (f : fty) := SFadd (f_prec f) (f_emax f).
Definition fsub (f : fty) := SFsub (f_prec f) (f_emax f).
Definition fmul (f : fty) := SFmul (f_prec f) (f_emax f).
Definition fdiv (f : fty) := SFdiv (f_prec f) (f_emax f).

(** convolve.h:14-41: sums and products of the floating point versions. *)
Definition float_arith (f : fty) : arith spec_float spec_float spec_float :=
  mkArith (S754_zero false) (fun c p => Ok (fmul f c p)) (fun a b => Ok (fadd f a b)) (fun s => Ok s).

(** convolve.h:253-284, 319-350: division by the weight; comparison with one at convolve.h:1121, 1155. *)
Definition float_narith (f : fty) : narith spec_float spec_float :=
  mkNarith (float_arith f) (fun t w => Ok (fdiv f t w)) (fun c => Ok c) true
    (fun s => SFeqb s (float_of_Z f 1)).

(** image_blur.h:58, 65-82: sliding window of the floating point version. *)
Definition float_marith (f : fty) : marith spec_float spec_float :=
  mkMarith (S754_zero false) (fun s p => Ok (fadd f s p)) (fun s p => Ok (fsub f s p))
    (fun w s => Ok (fdiv f s (float_of_Z f w))).

(** convolve_kernels.h:257-265: coefficient of the normalised all-ones kernel of width [w]. *)
Definition mean_coefficient (f : fty) (w : Z) : spec_float := fdiv f (float_of_Z f 1) (float_of_Z f w).

(** The block filters for images of floats, as NativeBlockMean, NativeBlockMinMax and NativeBlockOtsu make them. *)
From Coq Require Import Floats.SpecFloat.
From Verif Require Import Base M_Image M_Float M_Otsu M_Config M_Block M_NativeF.
Open Scope Z_scope.

(** Conversion of a float pixel to U8; a value whose whole part is not 0..255 is undefined (threshold_block_filters.h:330, 388). *)
Definition float_u8 (v : spec_float) : outcome Z := d_to double U8 v.

(** JNIBoofCPP.cpp:356-365 [extractConfigLength]: the two fields are copied. *)
Definition f_width (length fraction : spec_float) : clen spec_float := mkClen length fraction.

(** NativeBlockMean.cpp:22 [new ThresholdBlockMean<F32>]; threshold_block_filters.h:187-195: the scale becomes a float. *)
Definition f_bmean_filter (scale : spec_float) (local down : bool) : bfilter spec_float spec_float :=
  block_mean (float_bmean F32 (to_single scale)) (S754_zero false) local down.

(** NativeBlockMinMax.cpp:23 [new ThresholdBlockMinMax<F32>]; threshold_block_filters.h:411-419: spread and scale become floats. *)
Definition f_bminmax_filter (spread scale : spec_float) (local down : bool) : bfilter spec_float spec_float :=
  block_minmax (float_bminmax F32 (to_single spread) (to_single scale)) (S754_zero false) local down.

(** NativeBlockOtsu.cpp:23 [new ThresholdBlockOtsu<F32>]; threshold_block_filters.h:304-309: tuning and scale stay doubles. *)
Definition f_botsu_filter (two : bool) (tuning scale : spec_float) (local down : bool) : bfilter spec_float Z :=
  block_otsu double float_u8 two tuning scale local down.

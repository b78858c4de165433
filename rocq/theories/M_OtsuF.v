(** Otsu's method on images of floats: the templates of image_statistics.h and binary_ops.h with T = F32 or F64. *)
From Coq Require Import Floats.SpecFloat.
From Verif Require Import Base M_Image M_Stats M_GrowArray M_Convolve M_Float M_Binary M_Otsu M_NativeF.
Open Scope Z_scope.

(** [static_cast<uint32_t>] of a float; a value whose whole part does not fit is undefined (image_statistics.h:71, binary_ops.h:114). *)
Definition f_to_u32 (x : spec_float) : outcome Z := d_to double U32 x.

(** image_statistics.h:62-74 [histogram], floats. *)
Definition f_histogram (f : fty) (g : gray spec_float) (mn : spec_float) (h : growarr Z) : outcome (growarr Z) :=
  let* h := ga_fill (int_mem U32) h 0 in
  scan_window g (fun v h => let* i := f_to_u32 (fsub f v mn) in ga_inc h i) h.

(** binary_ops.h:111-123 [ThresholdOps::computeOtsu], floats: the 1 of line 114 becomes a float. *)
Definition f_image_otsu (f : fty) (g : gray spec_float) (mn mx : spec_float) (two : bool) : outcome Z :=
  let* n := f_to_u32 (fsub f (fadd f (float_of_Z f 1) mx) mn) in
  let* h := f_histogram f g mn (ga_new (int_mem U32) n) in
  let* vt := otsu_compute double two (d_of double 0) true (d_of double 1) h (gray_total_pixels g) in
  d_to double U32 (snd vt).

(** binary_ops.h:257-260 [GlobalOtsuBinaryFilter::process], floats: the threshold becomes a float. *)
Definition f_global_otsu (f : fty) (g : gray spec_float) (mn mx : spec_float) (down : bool) (out : gray Z) : outcome (gray Z) :=
  let* th := f_image_otsu f g mn mx false in
  threshold SFleb (fun a b => SFltb b a) g (float_of_Z f th) down out.

(** NativeGlobalOtsu.cpp:18 [new GlobalOtsuBinaryFilter<F32>((F32)minValue,(F32)maxValue,down)]; binary_ops.h:246-255. *)
Definition f_otsu_new (mn mx : spec_float) (down : bool) : spec_float * spec_float * bool := (to_single mn, to_single mx, down).

(** binary_ops.h:257-260 [GlobalOtsuBinaryFilter<F32>::process] of the object. *)
Definition f_otsu_process (s : spec_float * spec_float * bool) (g : gray spec_float) (out : gray Z)
  : outcome ((spec_float * spec_float * bool) * gray Z) :=
  let '(mn, mx, down) := s in
  let* o := f_global_otsu F32 g mn mx down out in Ok (s, o).

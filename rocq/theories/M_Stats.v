(** Model of boofcpp/src/boofcv/image_statistics.h.  No proofs. *)
From Coq Require Import Floats.SpecFloat.
From Verif Require Import Base M_Image M_Convolve M_GrowArray M_Normalized M_Blur M_Float.

(** image_statistics.h:15-22, 31-38: a pointer runs over the first [total_pixels()] elements of the buffer. *)
Definition scan_flat {A S} (g : gray A) (f : A -> S -> outcome S) (s : S) : outcome S :=
  for_range 0 (gray_total_pixels g) (fun i s => let* v := bget (g_data g) i in f v s) s.

(** image_statistics.h:46-52, 66-73: all pixels of the window, row by row. *)
Definition scan_window {A S} (g : gray A) (f : A -> S -> outcome S) (s : S) : outcome S :=
  for_range 0 (g_height g) (fun y s =>
    let index := u32 (g_offset g + y * g_stride g) in
    for_range index (u32 (index + g_width g)) (fun i s => let* v := bget (g_data g) i in f v s) s) s.

(** image_statistics.h:12-41: [better v m] is the comparison of the loop. *)
Definition image_extreme {A} (better : A -> A -> bool) (init : A) (g : gray A) : outcome A :=
  scan_flat g (fun v m => Ok (if better v m then v else m)) init.

(** image_statistics.h:11-25 [min] and 27-41 [max], integers. *)
Definition image_min (t : ity) (g : gray Z) : outcome Z := image_extreme Z.ltb (ity_max t) g.
Definition image_max (t : ity) (g : gray Z) : outcome Z := image_extreme (fun v m => m <? v) (ity_min t) g.

(** [std::numeric_limits] of a floating point type: largest number, and [min()], which is the smallest positive normal
    number (image_statistics.h:13, 29). *)
Definition float_limit_max (f : fty) : spec_float :=
  S754_finite false (Z.to_pos (2 ^ f_prec f - 1)) (f_emax f - f_prec f).
Definition float_limit_min (f : fty) : spec_float :=
  S754_finite false (Z.to_pos (2 ^ (f_prec f - 1))) (3 - f_emax f - f_prec f).

(** image_statistics.h:11-41, floating point. *)
Definition float_min (f : fty) (g : gray spec_float) : outcome spec_float :=
  image_extreme SFltb (float_limit_max f) g.
Definition float_max (f : fty) (g : gray spec_float) : outcome spec_float :=
  image_extreme (fun v m => SFltb m v) (float_limit_min f) g.

(** image_statistics.h:43-54 [sum]. *)
Definition image_sum (t : ity) (g : gray Z) : outcome Z :=
  scan_window g (fun v s => arith_result (sum_type t) (s + v)) 0.

(** image_statistics.h:43-54 [sum] and 56-60 [mean], floating point: [sum_type] is the type itself, the uint32_t number of
    pixels is converted to it. *)
Definition float_sum (f : fty) (g : gray spec_float) : outcome spec_float :=
  scan_window g (fun v s => Ok (fadd f s v)) (S754_zero false).
(** image_statistics.h:56-60. *)
Definition float_mean (f : fty) (g : gray spec_float) : outcome spec_float :=
  let* a := float_sum f g in Ok (fdiv f a (float_of_Z f (u32 (g_width g * g_height g)))).

(** Division of a [sum_type] by a uint32_t (image_statistics.h:59, image_convert.h:35): 32-bit operands are converted
    to unsigned, 64-bit ones are divided as signed numbers. *)
Definition div_u32 (st : ity) (a n : Z) : outcome Z :=
  match st with
  | S64 => int_div S64 a n
  | _ => if n =? 0 then Undef else Ok (u32 a / n)
  end.

(** image_statistics.h:56-60 [mean]. *)
Definition image_mean (t : ity) (g : gray Z) : outcome Z :=
  let* a := image_sum t g in
  let* q := div_u32 (sum_type t) a (u32 (g_width g * g_height g)) in
  Ok (cast t q).

(** Type in which two values of type [t] are subtracted (image_statistics.h:71). *)
Definition promote (t : ity) : ity := match t with S64 => S64 | U32 => U32 | _ => S32 end.

(** [histogram[i]++] with the unchecked operator[] (image_statistics.h:71, base_types.h:164-166). *)
Definition ga_inc (h : growarr Z) (i : Z) : outcome (growarr Z) :=
  let* v := ga_idx h i in
  let* d := bset (ga_data h) i (Some (u32 (v + 1))) in
  Ok (mkGA d (ga_size h) (ga_len h) (ga_default h) (ga_own h)).

(** image_statistics.h:62-74 [histogram]. *)
Definition image_histogram (t : ity) (g : gray Z) (mn : Z) (h : growarr Z) : outcome (growarr Z) :=
  let* h := ga_fill (int_mem U32) h 0 in
  scan_window g (fun v h => let* i := arith_result (promote t) (v - mn) in ga_inc h (u32 i)) h.

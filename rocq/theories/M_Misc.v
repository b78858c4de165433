(** Model of boofcpp/src/boofcv/image_misc_ops.h and image_convert.h.  No proofs. *)
From Verif Require Import Base M_Image M_Convolve M_Stats.

(** image_misc_ops.h:10-27 [fill(Gray)]. *)
Definition gray_fill {A} (g : gray A) (v : A) : outcome (gray A) :=
  let* d :=
    if g_sub g then
      for_range 0 (g_height g) (fun y d =>
        let p := u32 (g_offset g + y * g_stride g) in
        for_range 0 (g_width g) (fun i d => bset d (p + i) v) d) (g_data g)
    else for_range 0 (gray_total_pixels g) (fun i d => bset d i v) (g_data g) in
  Ok (with_data g d).

(** image_misc_ops.h:29-59 [fill_border]. *)
Definition gray_fill_border {A} (g : gray A) (v : A) (radius : Z) : outcome (gray A) :=
  if (g_width g <=? radius) || (g_height g <=? radius) then gray_fill g v
  else
    let* d := for_range 0 radius (fun y d =>
      let top := u32 (g_offset g + y * g_stride g) in
      let bottom := u32 (g_offset g + u32 (g_height g - y - 1) * g_stride g) in
      for_range 0 (g_width g) (fun x d =>
        let* d := bset d (u32 (top + x)) v in
        bset d (u32 (bottom + x)) v) d) (g_data g) in
    let h := u32 (g_height g - radius) in
    let start := u32 (g_offset g + radius * g_stride g) in
    let* d := for_range 0 radius (fun x d =>
      let left := u32 (start + x) in
      let right := u32 (start + g_width g - 1 - x) in
      for_range radius h (fun y d =>
        let* d := bset d (u32 (left + (y - radius) * g_stride g)) v in
        bset d (u32 (right + (y - radius) * g_stride g)) v) d) d in
    Ok (with_data g d).

(** image_misc_ops.h:61-68 [fill(Interleaved)]. *)
Definition inter_fill {A} (g : inter A) (v : A) : outcome (inter A) :=
  let* d := for_range 0 (u32 (u32 (i_width g * i_height g) * i_bands g)) (fun i d => bset d i v) (i_data g) in
  Ok (i_with_data g d).

(** image_misc_ops.h:78-99 [fill_uniform]; [rng i] is the i-th number the distribution yields. *)
Definition gray_fill_uniform {A} (g : gray A) (rng : Z -> A) : outcome (gray A) :=
  let* d := for_range 0 (gray_total_pixels g) (fun i d => bset d i (rng i)) (g_data g) in
  Ok (with_data g d).

(** image_convert.h:16-38 [convert_average].  [input_ptr] has advanced by [num_bands] per pixel. *)
Definition convert_average (t : ity) (g : inter Z) (out : gray Z) : outcome (gray Z) :=
  let* o := gray_reshape 0 out (i_width g) (i_height g) in
  let* d := for_range 0 (i_height g) (fun y d =>
    let ip := u32 (i_offset g + y * i_stride g) in
    let op := u32 (g_offset o + y * g_stride o) in
    for_range 0 (i_width g) (fun x d =>
      let* s := for_range 0 (i_bands g) (fun b s =>
        let* p := bget (i_data g) (ip + x * i_bands g + b) in
        arith_result (sum_type t) (s + p)) 0 in
      let* q := div_u32 (sum_type t) s (i_bands g) in
      bset d (op + x) (cast t q)) d) (g_data o) in
  Ok (with_data o d).

(** Model of ThresholdOps::localMean (binary_ops.h:175-211) and LocalMeanBinaryFilter (binary_ops.h:263-283).  Input,
    output and the two storage images are in separate buffers.  No proofs. *)
From Coq Require Import Floats.SpecFloat.
From Verif Require Import Base M_Image M_Convolve M_Normalized M_Blur M_Float M_Otsu M_Config.

(** The two comparisons of a pixel with the mean at its place.  [lc_le v m]: [v <= m*scale] (binary_ops.h:197);
    [lc_gt v m]: [v*scale > m] (binary_ops.h:207). *)
Record lcmp (E : Type) := mkLcmp { lc_le : E -> E -> bool; lc_gt : E -> E -> bool }.
Arguments mkLcmp {E} _ _.
Arguments lc_le {E} _ _ _.
Arguments lc_gt {E} _ _ _.

(** Integer pixels: the product with the [float] scale and the comparison are in [float] (binary_ops.h:197, 207). *)
Definition int_lcmp {D} (O : dops D) (scale : D) : lcmp Z :=
  mkLcmp (fun v m => d_le O (d_of O v) (d_mul O (d_of O m) scale))
         (fun v m => d_lt O (d_of O m) (d_mul O (d_of O v) scale)).

(** Floating point pixels: both are in the type of the pixels (binary_ops.h:197, 207). *)
Definition float_lcmp (f : fty) (scale : spec_float) : lcmp spec_float :=
  mkLcmp (fun v m => SFleb v (fmul f m scale)) (fun v m => SFltb m (fmul f v scale)).

(** binary_ops.h:184: [(uint32_t)width.computeI(min(input.width,input.height))/2]. *)
Definition local_radius {D E} (O : dops D) (width : clen D) (g : gray E) : outcome Z :=
  let* n := clen_computeI O width (d_of O (Z.min (g_width g) (g_height g))) in
  Ok (u32 n / 2).

(** binary_ops.h:175-211 [localMean]: output and both storage images.  [c w] is the coefficient of the normalised
    all-ones kernel of width [w]. *)
Definition local_mean {D E S T} (O : dops D) (N : narith E S) (M : marith E T) (zero : E) (c : Z -> S) (L : lcmp E)
    (width : clen D) (down : bool) (g : gray E) (out : gray Z) (storage1 storage2 : gray E)
  : outcome (gray Z * (gray E * gray E)) :=
  let* o := gray_reshape 0 out (g_width g) (g_height g) in
  let* s1 := gray_reshape zero storage1 (g_width g) (g_height g) in
  let* s2 := gray_reshape zero storage2 (g_width g) (g_height g) in
  let* radius := local_radius O width g in
  let* '(mean, s2) := blur_mean N M zero (c (u32 (radius * 2 + 1))) radius g s1 s2 in
  let* d := for_range 0 (g_height g) (fun y d =>
    let mp := u32 (g_offset mean + y * g_stride mean) in
    let ip := u32 (g_offset g + y * g_stride g) in
    let op := u32 (g_offset o + y * g_stride o) in
    for_range 0 (g_width g) (fun i d =>
      let* v := bget (g_data g) (ip + i) in
      let* m := bget (g_data mean) (mp + i) in
      bset d (op + i) (if (if down then lc_le L v m else lc_gt L v m) then 1 else 0)) d) (g_data o) in
  Ok (with_data o d, (mean, s2)).

(** binary_ops.h:263-283 [LocalMeanBinaryFilter]: a sequence of calls of [process], each with its input and its output
    image; the storage images (initially empty, image_types.h:126) are kept from call to call. *)
Fixpoint local_filter {D E S T} (O : dops D) (N : narith E S) (M : marith E T) (zero : E) (c : Z -> S) (L : lcmp E)
    (width : clen D) (down : bool) (storage : gray E * gray E) (calls : list (gray E * gray Z))
  : outcome (list (gray Z)) :=
  match calls with
  | [] => Ok []
  | (g, out) :: r =>
      let* '(o, storage) := local_mean O N M zero c L width down g out (fst storage) (snd storage) in
      let* l := local_filter O N M zero c L width down storage r in
      Ok (o :: l)
  end.

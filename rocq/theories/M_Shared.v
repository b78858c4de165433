(** Model of thresholds, morphology, convolution and blur for 8-bit images that may share memory: every read of the input happens
    when the C++ code does it, after the writes made so far.  Images of the same function that cannot be shared by a
    caller (statistics and storage images that are private members) are separate buffers.  No proofs. *)
From Coq Require Import Floats.SpecFloat.
From Verif Require Import Base M_Image M_Convolve M_GrowArray M_PackedSet M_Normalized M_Blur M_Float M_Stats M_Misc M_Otsu
  M_Config M_Heap M_Binary M_Local M_Block.

(** The image that an object shows (image_types.h:20-33, 76-85).  Used for loops that do not write to the heap. *)
Definition h_image {Px} (H : heap Px) (o : himg) : outcome (gray Px) :=
  match nth_error H (h_block o) with
  | Some (Some d) => Ok (mkGray (h_width o) (h_height o) (h_offset o) (h_stride o) (h_sub o) d)
  | _ => Undef
  end.

(** ** ThresholdOps and the filters of binary_ops.h *)

(** binary_ops.h:141-157, 190-210: one pixel after the other, in the order of the buffer; [f y i v] is the new value of
    the pixel in column [i] of row [y] with value [v]. *)
Definition h_pixels {Px} (H : heap Px) (a o : himg) (f : Z -> Z -> Px -> outcome Px) : outcome (heap Px) :=
  for_range 0 (h_height a) (fun y H =>
    let ip := u32 (h_offset a + y * h_stride a) in
    let op := u32 (h_offset o + y * h_stride o) in
    for_range 0 (h_width a) (fun i H =>
      let* v := hread H (h_block a) (ip + i) in
      let* r := f y i v in
      hwrite H (h_block o) (op + i) r) H) H.

(** binary_ops.h:136-159 [ThresholdOps::threshold]. *)
Definition h_threshold (H : heap Z) (a : himg) (t : Z) (down : bool) (out : himg) : outcome (heap Z * himg) :=
  let* '(H, o) := h_reshape 0 H out (h_width a) (h_height a) in
  let* H := h_pixels H a o (fun _ _ v => Ok (if (if down then v <=? t else v >? t) then 1 else 0)) in
  Ok (H, o).

(** binary_ops.h:257-260 [GlobalOtsuBinaryFilter::process]. *)
Definition h_global_otsu {D} (O : dops D) (H : heap Z) (a : himg) (mn mx : Z) (down : bool) (out : himg)
  : outcome (heap Z * himg) :=
  let* g := h_image H a in
  let* th := image_otsu O U8 g mn mx false in
  h_threshold H a (cast U8 th) down out.

(** binary_ops.h:175-211 [localMean] with the storage images of LocalMeanBinaryFilter (binary_ops.h:263-283), which are
    private. *)
Definition h_local_mean {D S T} (O : dops D) (N : narith Z S) (M : marith Z T) (c : Z -> S) (L : lcmp Z)
    (width : clen D) (down : bool) (H : heap Z) (a out : himg) (storage1 storage2 : gray Z)
  : outcome (heap Z * himg * (gray Z * gray Z)) :=
  let* '(H, o) := h_reshape 0 H out (h_width a) (h_height a) in
  let* s1 := gray_reshape 0 storage1 (h_width a) (h_height a) in
  let* s2 := gray_reshape 0 storage2 (h_width a) (h_height a) in
  let* g := h_image H a in
  let* radius := local_radius O width g in
  let* '(mean, s2) := blur_mean N M 0 (c (u32 (radius * 2 + 1))) radius g s1 s2 in
  let* H := h_pixels H a o (fun y i v =>
    let* m := bget (g_data mean) (u32 (g_offset mean + y * g_stride mean) + i) in
    Ok (if (if down then lc_le L v m else lc_gt L v m) then 1 else 0)) in
  Ok (H, o, (mean, s2)).

(** ** Block filters *)

(** threshold_block_filters.h:233-248, 463-476. *)
Definition h_block_apply {T} (bw bh : Z) (st : inter T) (a out : himg) (bx by_ : Z) (f : Z -> outcome Z) (H : heap Z)
  : outcome (heap Z) :=
  let x0 := block_start bw bx in
  let x1 := block_end (i_width st) (h_width a) bw bx in
  for_range (block_start bh by_) (block_end (i_height st) (h_height a) bh by_) (fun y H =>
    let ip := u32 (h_offset a + y * h_stride a + x0) in
    let op := u32 (h_offset out + y * h_stride out + x0) in
    for_range 0 (u32 (x1 - x0)) (fun i H =>
      let* v := hread H (h_block a) (ip + i) in
      let* r := f v in
      hwrite H (h_block out) (op + i) r) H) H.

(** threshold_block_filters.h:383-393. *)
Definition h_block_apply_index {T} (bw bh : Z) (st : inter T) (a out : himg) (bx by_ : Z) (f : Z -> outcome Z) (H : heap Z)
  : outcome (heap Z) :=
  let x0 := block_start bw bx in
  let x1 := block_end (i_width st) (h_width a) bw bx in
  for_range (block_start bh by_) (block_end (i_height st) (h_height a) bh by_) (fun y H =>
    let ip := u32 (h_offset a + y * h_stride a + x0) in
    let op := u32 (h_offset out + y * h_stride out + x0) in
    for_range op (u32 (op + u32 (x1 - x0))) (fun j H =>
      let* v := hread H (h_block a) (u32 (ip + (j - op))) in
      let* r := f v in
      hwrite H (h_block out) j r) H) H.

(** What thresholdBlock computes from the statistics before it visits the pixels: the rule for a pixel of block (bx,by).
    ThresholdBlockMean: threshold_block_filters.h:210-231. *)
Definition mean_rule {S} (M : bmean Z S) (local down : bool) (st : inter Z) (bx by_ : Z) : outcome (Z -> outcome Z) :=
  let* sum := block_region local st bx by_ (fun x y s =>
    let* v := bget (i_data st) (inter_index st x y 0) in bm_add M s v) (bm_zero M) in
  let nx := u32 (block_last local (i_width st) bx - block_first local bx + 1) in
  let ny := u32 (block_last local (i_height st) by_ - block_first local by_ + 1) in
  let* mean := bm_mean M (u32 (ny * nx)) sum in
  Ok (fun v => Ok (binary_value down (bm_le M v mean))).

(** ThresholdBlockMinMax: threshold_block_filters.h:432-462. *)
Definition minmax_rule {A} (M : bminmax Z A) (local down : bool) (st : inter Z) (bx by_ : Z) : outcome (Z -> outcome Z) :=
  let* mm := block_region local st bx by_ (fun x y mm =>
    let* lmin := inter_get st x y 0 in
    let* lmax := inter_get st x y 1 in
    let mn := if mm_lt M lmin (fst mm) then lmin else fst mm in
    let mx := if mm_lt M (snd mm) lmax then lmax else snd mm in
    Ok (mn, mx)) (mm_max M, mm_min M) in
  let* texture := mm_texture M in
  Ok (fun v =>
    let* flat := mm_flat M texture (snd mm) (fst mm) in
    if flat then Ok 1
    else let* a := mm_average M (snd mm) (fst mm) in Ok (binary_value down (mm_le M v a))).

(** ThresholdBlockOtsu: threshold_block_filters.h:343-381. *)
Definition otsu_rule {D} (O : dops D) (u8_of : Z -> outcome Z) (two : bool) (tuning scale : D) (local down : bool)
    (st : inter Z) (bx by_ : Z) : outcome (Z -> outcome Z) :=
  let* h := ga_fill (int_mem U32) (ga_new (int_mem U32) 256) 0 in
  let first := block_first local bx in
  let* h := block_region local st bx by_ (fun x y h =>
    let ip := inter_index st first y 0 in
    for_range 0 (ga_size h) (fun i h =>
      let* c := ga_idx h i in
      let* v := bget (i_data st) (ip + (x - first) * ga_size h + i) in
      let* hd := bset (ga_data h) i (Some (u32 (c + v))) in
      Ok (mkGA hd (ga_size h) (ga_len h) (ga_default h) (ga_own h))) h) h in
  let* total := for_range 0 (ga_size h) (fun i s => let* c := ga_idx h i in Ok (u32 (s + c))) 0 in
  let* vt := otsu_compute O two tuning down scale h total in
  Ok (fun v => let* k := u8_of v in Ok (binary_value down (d_le O (d_of O k) (snd vt)))).

(** threshold_block_filters.h:69-88 [process] with 105-111 [applyThreshold].  [F] gives the statistics, [rule] the rule of
    a block and [indexed] the way its pixels are visited (383-393 if true, 233-248 otherwise). *)
Definition h_block_process {T D} (F : bfilter Z T) (rule : inter T -> Z -> Z -> outcome (Z -> outcome Z)) (indexed : bool)
    (O : dops D) (request : clen D) (stats : inter T) (H : heap Z) (a out : himg) : outcome (inter T * heap Z) :=
  let* _ := h_checkSameShape a out in
  let* g := h_image H a in
  let* r := clen_computeI O request (d_of O (Z.min (g_width g) (g_height g))) in
  let requested := u32 r in
  if (g_width g <? requested) || (g_height g <? requested) then Throw else
  let* '(bw, bh) := block_size (g_width g) (g_height g) requested in
  let* cols := udiv (g_width g) bw in
  let* rows := udiv (g_height g) bh in
  let* st := inter_reshape (bf_zero F) stats cols rows in
  let* iw := block_inner (g_width g) bw in
  let* ih := block_inner (g_height g) bh in
  let* st := bf_clear F st in
  let* sd := block_statistics (bf_stats F g) (i_width st) (i_height st) (i_bands st) (g_width g) (g_height g) iw ih bw bh
               (i_data st) in
  let st := i_with_data st sd in
  let* H := for_range 0 (i_height st) (fun by_ H =>
    for_range 0 (i_width st) (fun bx H =>
      let* f := rule st bx by_ in
      if indexed then h_block_apply_index bw bh st a out bx by_ f H else h_block_apply bw bh st a out bx by_ f H) H) H in
  Ok (st, H).

(** ** Functions that read the neighbours of a pixel *)

(** binary_ops.cpp:42-85 [erode4], [dilate4]. *)
Definition h_morph4 (test : Z -> bool) (H : heap Z) (a out : himg) : outcome (heap Z * himg) :=
  let* '(H, o) := h_reshape 0 H out (h_width a) (h_height a) in
  let h := s32 (u32 (h_height a - 1)) in
  let w := s32 (u32 (h_width a - 2)) in
  let* H := for_range 1 (u32 h) (fun y H =>
    let indexIn := u32 (h_offset a + y * h_stride a + 1) in
    let indexOut := u32 (h_offset o + y * h_stride o + 1) in
    for_range indexIn (u32 (indexIn + w)) (fun i H =>
      let* c := hread H (h_block a) i in
      let* l := hread H (h_block a) (u32 (i - 1)) in
      let* r := hread H (h_block a) (u32 (i + 1)) in
      let* u := hread H (h_block a) (u32 (i - h_stride a)) in
      let* b := hread H (h_block a) (u32 (i + h_stride a)) in
      hwrite H (h_block o) (u32 (indexOut + (i - indexIn))) (if test (c + l + r + u + b) then 1 else 0)) H) H in
  Ok (H, o).

(** binary_ops.cpp:42-62 [erode4]. *)
Definition h_erode4 (H : heap Z) (a out : himg) : outcome (heap Z * himg) := h_morph4 (fun s => s =? 5) H a out.
(** binary_ops.cpp:64-85 [dilate4]. *)
Definition h_dilate4 (H : heap Z) (a out : himg) : outcome (heap Z * himg) := h_morph4 (fun s => 0 <? s) H a out.

(** ** Blur *)

(** image_blur.h:217-228 [BlurImageOps::mean].  The first pass reads the input and writes the storage image, the second
    reads the storage image and writes the output; the storage image is separate. *)
Definition h_blur_mean {Px S T} (N : narith Px S) (M : marith Px T) (t0 : Px) (c : S) (radius : Z) (H : heap Px) (a out : himg)
    (storage : gray Px) : outcome (heap Px * himg * gray Px) :=
  if radius <=? 0 then Throw else
  let* '(H, o) := h_reshape t0 H out (h_width a) (h_height a) in
  let* w := gray_reshape t0 storage (h_width a) (h_height a) in
  let* g := h_image H a in
  let* w' := mean_h N M c radius g w in
  let* go := h_image H o in
  let* o' := mean_v N M c radius w' go in
  Ok (upd H (h_block o) (Some (g_data o')), o, w').

(** image_blur.h:240-251 [BlurImageOps::gaussian], in the same way. *)
Definition h_blur_gaussian {Px S} (N : narith Px S) (t0 : Px) (K : kernel S) (H : heap Px) (a out : himg) (storage : gray Px)
  : outcome (heap Px * himg * gray Px) :=
  let* '(H, o) := h_reshape t0 H out (h_width a) (h_height a) in
  let* w := gray_reshape t0 storage (h_width a) (h_height a) in
  let* g := h_image H a in
  let* w' := normalized_h N K g w in
  let* go := h_image H o in
  let* o' := normalized_v N K w' go in
  Ok (upd H (h_block o) (Some (g_data o')), o, w').

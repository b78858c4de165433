(** Model of boofcpp/src/boofcv/threshold_block_filters.h.  The input image, the output image and the statistics are in
    separate buffers; the input is a well-formed image.  No proofs. *)
From Coq Require Import Floats.SpecFloat.
From Verif Require Import Base M_Image M_Convolve M_GrowArray M_PackedSet M_Normalized M_Blur M_Float M_Stats M_Misc M_Otsu
  M_Config.

(** ** ThresholdBlockCommon *)

(** The virtual functions of threshold_block_filters.h:116-163: number of bands of [stats] (set by the constructors, lines
    194, 308, 418), what happens to [stats] before the loop of computeStatistics, computeBlockStatistics (x0, y0, width,
    height, indexStats) and thresholdBlock (block width and height, blockX0, blockY0). *)
Record bfilter (E T : Type) := mkBfilter {
  bf_zero : T;
  bf_bands : Z;
  bf_clear : inter T -> outcome (inter T);
  bf_stats : gray E -> Z -> Z -> Z -> Z -> Z -> list T -> outcome (list T);
  bf_threshold : Z -> Z -> inter T -> gray E -> gray Z -> Z -> Z -> list Z -> outcome (list Z)
}.
Arguments mkBfilter {E T} _ _ _ _ _.
Arguments bf_zero {E T} _.
Arguments bf_bands {E T} _.
Arguments bf_clear {E T} _ _.
Arguments bf_stats {E T} _ _ _ _ _ _ _ _.
Arguments bf_threshold {E T} _ _ _ _ _ _ _ _ _.

(** threshold_block_filters.h:93-100 [selectBlockSize]: (blockWidth, blockHeight). *)
Definition block_size (width height requested : Z) : outcome (Z * Z) :=
  let* rows := udiv height requested in
  let* cols := udiv width requested in
  let* bh := udiv height rows in
  let* bw := udiv width cols in
  Ok (bw, bh).

(** threshold_block_filters.h:81-84 [innerWidth], [innerHeight]. *)
Definition block_inner (n b : Z) : outcome Z :=
  let* r := umod n b in
  Ok (if r =? 0 then n else u32 (n - b - r)).

(** threshold_block_filters.h:121-128, 134-139: one row of blocks; the state is indexStats and the statistics.  The last
    column is done by a separate call if the width is not divisible.  As many steps as there are columns suffice. *)
Definition block_row {S} (call : Z -> Z -> Z -> Z -> Z -> S -> outcome S) (cols bands width innerWidth bw y bh : Z)
    (s : Z * S) : outcome (Z * S) :=
  let* s := for_step (Z.to_nat cols) 0 innerWidth bw (fun x s =>
    let* d := call x y bw bh (fst s) (snd s) in Ok (u32 (fst s + bands), d)) s in
  if negb (innerWidth =? width) then
    let* d := call innerWidth y (u32 (width - innerWidth)) bh (fst s) (snd s) in
    Ok (u32 (fst s + bands), d)
  else Ok s.

(** threshold_block_filters.h:116-141 [computeStatistics].  Line 138 does not advance indexStats, which is not used any
    more.  As many steps as there are rows suffice. *)
Definition block_statistics {S} (call : Z -> Z -> Z -> Z -> Z -> S -> outcome S) (cols rows bands width height : Z)
    (innerWidth innerHeight bw bh : Z) (s : S) : outcome S :=
  let* s := for_step (Z.to_nat rows) 0 innerHeight bh (fun y s =>
    block_row call cols bands width innerWidth bw y bh s) (0, s) in
  let* s :=
    if negb (innerHeight =? height)
    then block_row call cols bands width innerWidth bw innerHeight (u32 (height - innerHeight)) s
    else Ok s in
  Ok (snd s).

(** threshold_block_filters.h:69-88 [process] with 105-111 [applyThreshold].  [stats] is the member of that name, left by
    the constructor or by the previous call; result: [stats] and the output image. *)
Definition block_process {E T D} (F : bfilter E T) (O : dops D) (request : clen D) (stats : inter T) (g : gray E)
    (out : gray Z) : outcome (inter T * gray Z) :=
  let* _ := checkSameShape g out in
  let* r := clen_computeI O request (d_of O (Z.min (g_width g) (g_height g))) in
  let requested := u32 r in
  if (g_width g <? requested) || (g_height g <? requested) then Throw else
  let* '(bw, bh) := block_size (g_width g) (g_height g) requested in
  let* cols := udiv (g_width g) bw in
  let* rows := udiv (g_height g) bh in
  let* st := inter_reshape (bf_zero F) stats cols rows in
  let* iw := block_inner (g_width g) bw in
  let* ih := block_inner (g_height g) bh in
  let* st := bf_clear F st in
  let* sd := block_statistics (bf_stats F g) (i_width st) (i_height st) (i_bands st) (g_width g) (g_height g) iw ih bw bh
               (i_data st) in
  let st := i_with_data st sd in
  let* d := for_range 0 (i_height st) (fun by_ d =>
    for_range 0 (i_width st) (fun bx d => bf_threshold F bw bh st g out bx by_ d) d) (g_data out) in
  Ok (st, with_data out d).

(** Constructors (threshold_block_filters.h:55-60 and 187-195, 304-309, 411-419): [stats] is a default constructed image
    (image_types.h:363-365) whose number of bands is set. *)
Definition block_init {E T} (F : bfilter E T) : outcome (inter T) :=
  inter_set_bands (bf_zero F) (inter_new (bf_zero F) 0 0 0) (bf_bands F).

(** ** Shared parts of the three variants *)

(** threshold_block_filters.h:257-266, 323-332, 487-496: the pixels of a block, row by row.  Pointers advance without
    limit ([step] is the identity), the index of lines 488-490 is an unsigned number ([step] is [u32]). *)
Definition block_scan {E S} (step : Z -> Z) (g : gray E) (x0 y0 width height : Z) (f : E -> S -> outcome S) (s : S) : outcome S :=
  for_range 0 height (fun y s =>
    let ip := u32 (g_offset g + u32 (y0 + y) * g_stride g + x0) in
    for_range 0 width (fun x s => let* v := bget (g_data g) (step (ip + x)) in f v s) s) s.

(** threshold_block_filters.h:204-208, 337-341, 426-430: first and last pixel (exclusive) of a block along one axis.  [n] is
    the number of blocks, [len] the size of the image, [b] the block size. *)
Definition block_start (b i : Z) : Z := u32 (i * b).
Definition block_end (n len b i : Z) : Z := if i =? u32 (n - 1) then len else u32 (u32 (i + 1) * b).

(** threshold_block_filters.h:210-221, 343-354, 432-443: the first and the last block of the 3x3 region along one axis. *)
Definition block_first (local : bool) (i : Z) : Z := if local then if 0 <? i then u32 (i - 1) else 0 else i.
Definition block_last (local : bool) (n i : Z) : Z := if local then Z.min (u32 (n - 1)) (u32 (i + 1)) else i.

(** threshold_block_filters.h:226-230, 359-372, 449-459: the blocks of the 3x3 region, row by row.  [blockX1], [blockY1] are
    smaller than the number of blocks, so that the loops with [<=] end. *)
Definition block_region {T S} (local : bool) (st : inter T) (bx by_ : Z) (f : Z -> Z -> S -> outcome S) (s : S) : outcome S :=
  for_range (block_first local by_) (block_last local (i_height st) by_ + 1) (fun y s =>
    for_range (block_first local bx) (block_last local (i_width st) bx + 1) (fun x s => f x y s) s) s.

(** threshold_block_filters.h:233-248, 463-476: write [f] of each pixel of the block. *)
Definition block_apply {E T} (bw bh : Z) (st : inter T) (g : gray E) (out : gray Z) (bx by_ : Z) (f : E -> outcome Z)
    (d : list Z) : outcome (list Z) :=
  let x0 := block_start bw bx in
  let x1 := block_end (i_width st) (g_width g) bw bx in
  for_range (block_start bh by_) (block_end (i_height st) (g_height g) bh by_) (fun y d =>
    let ip := u32 (g_offset g + y * g_stride g + x0) in
    let op := u32 (g_offset out + y * g_stride out + x0) in
    for_range 0 (u32 (x1 - x0)) (fun i d =>
      let* v := bget (g_data g) (ip + i) in
      let* r := f v in
      bset d (op + i) r) d) d.

(** threshold_block_filters.h:383-393: the same with unsigned indices. *)
Definition block_apply_index {E T} (bw bh : Z) (st : inter T) (g : gray E) (out : gray Z) (bx by_ : Z) (f : E -> outcome Z)
    (d : list Z) : outcome (list Z) :=
  let x0 := block_start bw bx in
  let x1 := block_end (i_width st) (g_width g) bw bx in
  for_range (block_start bh by_) (block_end (i_height st) (g_height g) bh by_) (fun y d =>
    let ip := u32 (g_offset g + y * g_stride g + x0) in
    let op := u32 (g_offset out + y * g_stride out + x0) in
    for_range op (u32 (op + u32 (x1 - x0))) (fun j d =>
      let* v := bget (g_data g) (u32 (ip + (j - op))) in
      let* r := f v in
      bset d j r) d) d.

(** ** ThresholdBlockMean *)

(** Arithmetic of threshold_block_filters.h:202-273 for one pixel type: [bm_add] lines 228 and 264, [bm_stat] lines 267-272 for
    a block of the given number of pixels, [bm_mean] line 231 for the given number of blocks, [bm_le] line 246. *)
Record bmean (E S : Type) := mkBmean {
  bm_zero : S;
  bm_add : S -> E -> outcome S;
  bm_stat : Z -> S -> outcome E;
  bm_mean : Z -> S -> outcome E;
  bm_le : E -> E -> bool
}.
Arguments mkBmean {E S} _ _ _ _ _.
Arguments bm_zero {E S} _.
Arguments bm_add {E S} _ _ _.
Arguments bm_stat {E S} _ _ _.
Arguments bm_mean {E S} _ _ _.
Arguments bm_le {E S} _ _ _.

(** threshold_block_filters.h:202-273 for the integer type [t]; [O] is the arithmetic of [float]. *)
Definition int_bmean {D} (O : dops D) (t : ity) (scale : D) : bmean Z Z :=
  mkBmean 0 (fun s p => arith_result (sum_type t) (s + p))
    (fun n s =>
      let* r := d_to O (sum_type t) (d_add O (d_div O (d_mul O scale (d_of O s)) (d_of O n)) (d_half O)) in
      Ok (cast t r))
    (fun n s => let* q := div_u32 (sum_type t) s n in Ok (cast t q))
    Z.leb.

(** threshold_block_filters.h:202-273 for floating point images. *)
Definition float_bmean (f : fty) (scale : spec_float) : bmean spec_float spec_float :=
  mkBmean (S754_zero false) (fun s p => Ok (fadd f s p))
    (fun n s => Ok (fdiv f (fmul f scale s) (float_of_Z f n)))
    (fun n s => Ok (fdiv f s (float_of_Z f n)))
    SFleb.

(** [down == (pixel <= threshold)] as U8 (threshold_block_filters.h:246, 388, 473). *)
Definition binary_value (down le : bool) : Z := if Bool.eqb down le then 1 else 0.

(** threshold_block_filters.h:179-274 [ThresholdBlockMean]. *)
Definition block_mean {E S} (M : bmean E S) (zero : E) (local down : bool) : bfilter E E :=
  mkBfilter zero 1 (fun st => Ok st)
    (fun g x0 y0 width height index d =>
      let* sum := block_scan (fun i => i) g x0 y0 width height (fun v s => bm_add M s v) (bm_zero M) in
      let* r := bm_stat M (u32 (width * height)) sum in
      bset d index r)
    (fun bw bh st g out bx by_ d =>
      let* sum := block_region local st bx by_ (fun x y s =>
        let* v := bget (i_data st) (inter_index st x y 0) in bm_add M s v) (bm_zero M) in
      let nx := u32 (block_last local (i_width st) bx - block_first local bx + 1) in
      let ny := u32 (block_last local (i_height st) by_ - block_first local by_ + 1) in
      let* mean := bm_mean M (u32 (ny * nx)) sum in
      block_apply bw bh st g out bx by_ (fun v => Ok (binary_value down (bm_le M v mean))) d).

(** ** ThresholdBlockMinMax *)

(** Arithmetic of threshold_block_filters.h:424-500: comparison, numeric_limits (lines 446-447), line 462
    [textureThreshold], line 468 [max-min <= textureThreshold], line 472 [average], line 473 [input <= average]. *)
Record bminmax (E A : Type) := mkBminmax {
  mm_lt : E -> E -> bool;
  mm_max : E;
  mm_min : E;
  mm_texture : outcome A;
  mm_flat : A -> E -> E -> outcome bool;
  mm_average : E -> E -> outcome A;
  mm_le : E -> A -> bool
}.
Arguments mkBminmax {E A} _ _ _ _ _ _ _.
Arguments mm_lt {E A} _ _ _.
Arguments mm_max {E A} _.
Arguments mm_min {E A} _.
Arguments mm_texture {E A} _.
Arguments mm_flat {E A} _ _ _ _.
Arguments mm_average {E A} _ _ _.
Arguments mm_le {E A} _ _ _.

(** threshold_block_filters.h:424-500 for the integer type [t].  The difference at line 468 is computed in the promoted type
    and converted to [sum_type] for the comparison; at line 473 the pixel is converted without change. *)
Definition int_bminmax {D} (O : dops D) (t : ity) (spread scale : D) : bminmax Z Z :=
  mkBminmax Z.ltb (ity_max t) (ity_min t) (d_to O (sum_type t) spread)
    (fun a mx mn => let* d := arith_result (promote t) (mx - mn) in Ok (cast (sum_type t) d <=? a))
    (fun mx mn =>
      let* s := arith_result (promote t) (mx + mn) in
      let* h := int_div (promote t) s 2 in
      d_to O (sum_type t) (d_mul O scale (d_of O h)))
    Z.leb.

(** threshold_block_filters.h:424-500 for floating point images. *)
Definition float_bminmax (f : fty) (spread scale : spec_float) : bminmax spec_float spec_float :=
  mkBminmax SFltb (float_limit_max f) (float_limit_min f) (Ok spread)
    (fun a mx mn => Ok (SFleb (fsub f mx mn) a))
    (fun mx mn => Ok (fmul f scale (fdiv f (fadd f mx mn) (float_of_Z f 2))))
    SFleb.

(** threshold_block_filters.h:396-500 [ThresholdBlockMinMax].  [stats.at] (lines 451-452) throws outside the image. *)
Definition block_minmax {E A} (M : bminmax E A) (zero : E) (local down : bool) : bfilter E E :=
  mkBfilter zero 2 (fun st => Ok st)
    (fun g x0 y0 width height index d =>
      let* first := gray_get g x0 y0 in
      let* mm := block_scan u32 g x0 y0 width height (fun v mm =>
        Ok (if mm_lt M v (fst mm) then (v, snd mm) else if mm_lt M (snd mm) v then (fst mm, v) else mm)) (first, first) in
      let* d := bset d index (fst mm) in
      bset d (u32 (index + 1)) (snd mm))
    (fun bw bh st g out bx by_ d =>
      let* mm := block_region local st bx by_ (fun x y mm =>
        let* lmin := inter_get st x y 0 in
        let* lmax := inter_get st x y 1 in
        let mn := if mm_lt M lmin (fst mm) then lmin else fst mm in
        let mx := if mm_lt M (snd mm) lmax then lmax else snd mm in
        Ok (mn, mx)) (mm_max M, mm_min M) in
      let* texture := mm_texture M in
      block_apply bw bh st g out bx by_ (fun v =>
        let* flat := mm_flat M texture (snd mm) (fst mm) in
        if flat then Ok 1
        else let* a := mm_average M (snd mm) (fst mm) in Ok (binary_value down (mm_le M v a))) d).

(** ** ThresholdBlockOtsu *)

(** threshold_block_filters.h:290-394 [ThresholdBlockOtsu].  [u8_of] is the conversion of a pixel to U8 (lines 330, 388).  The
    member [histogram] has 256 elements and is overwritten by each call of thresholdBlock, as is [otsu.threshold]. *)
Definition block_otsu {E D} (O : dops D) (u8_of : E -> outcome Z) (two : bool) (tuning scale : D) (local down : bool)
    : bfilter E Z :=
  mkBfilter 0 256 (fun st => inter_fill st 0)
    (fun g x0 y0 width height index d =>
      block_scan (fun i => i) g x0 y0 width height (fun v d =>
        let* k := u8_of v in
        let* c := bget d (index + k) in
        let* c := arith_result S32 (c + 1) in
        bset d (index + k) c) d)
    (fun bw bh st g out bx by_ d =>
      let* h := ga_fill (int_mem U32) (ga_new (int_mem U32) 256) 0 in
      let first := block_first local bx in
      let* h := block_region local st bx by_ (fun x y h =>
        let ip := inter_index st first y 0 in
        for_range 0 (ga_size h) (fun i h =>
          let* c := ga_idx h i in
          let* v := bget (i_data st) (ip + (x - first) * ga_size h + i) in
          let* hd := bset (ga_data h) i (Some (u32 (c + v))) in
          Ok (mkGA hd (ga_size h) (ga_len h) (ga_default h) (ga_own h))) h) h in
      let* total := for_range 0 (ga_size h) (fun i s => let* c := ga_idx h i in Ok (u32 (s + c))) 0 in
      let* vt := otsu_compute O two tuning down scale h total in
      block_apply_index bw bh st g out bx by_ (fun v =>
        let* k := u8_of v in Ok (binary_value down (d_le O (d_of O k) (snd vt)))) d).

(** Conversion of an integer pixel to U8 (threshold_block_filters.h:330, 388). *)
Definition int_u8 (v : Z) : outcome Z := Ok (cast U8 v).

(** The arithmetic of [float], used with the integer images (threshold_block_filters.h:268, 472). *)
Definition single : dops spec_float :=
  mkDops (float_of_Z F32) (fadd F32) (fsub F32) (fmul F32) (fdiv F32) SFltb SFleb float_int.

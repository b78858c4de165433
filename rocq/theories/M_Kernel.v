(** Model of the kernel factory (convolve_kernels.h:52-102, 161-213, 218-424).  No proofs.

    The code computes in [double] with [exp] and [ceil] of the C library.  [O] stands for the operations on [double],
    [ex] for [exp], [ce] for [ceil] ([None] for infinities and NaN); a kernel of another floating point type has its own
    operations [OE] and the conversion [narrow].  Instances: [double] (M_Otsu.v), [single] (M_Block.v) and exact real
    numbers ([reals] below). *)
From Coq Require Import Reals Floats.SpecFloat.
From Flocq Require Import Core.
From Verif Require Import Base M_Image M_Convolve M_Normalized M_Otsu M_Config.
Open Scope Z_scope.

(** ** Kernel containers *)

(** convolve_kernels.h:116-117 [Kernel1D(width)]. *)
Definition kernel1_width {S} (zero : S) (w : Z) : outcome (kernel S) := kernel1_new zero w (w / 2).

(** convolve_kernels.h:37-42, 161-163 [Kernel2D(width,offset)].  [width*width] wraps.  Only the [size] elements of the
    GrowArray are modelled: up to ten elements are allocated even if [size] is smaller. *)
Definition kernel2_new {S} (zero : S) (w off : Z) : outcome (kernel S) :=
  if w <=? off then Throw else Ok (mkKernel w off (repeat zero (Z.to_nat (u32 (w * w))))).

(** convolve_kernels.h:165-166 [Kernel2D(width)]. *)
Definition kernel2_width {S} (zero : S) (w : Z) : outcome (kernel S) := kernel2_new zero w (w / 2).

(** convolve_kernels.h:168-183 [Kernel2D(offset,lists)]; the offset is not checked.  For fewer than 2^16 rows. *)
Definition kernel2_of_lists {S} (off : Z) (l : list (list S)) : outcome (kernel S) :=
  if forallb (fun r => zlen r =? zlen l) l then Ok (mkKernel (zlen l) off (concat l)) else Throw.

(** Assignment to [k.data[i]] (convolve_kernels.h:231, 263, 323). *)
Definition k_put {S} (K : kernel S) (i : Z) (v : S) : outcome (kernel S) :=
  let* d := bset (k_data K) i v in Ok (mkKernel (k_width K) (k_offset K) d).

(** Assignment to [Kernel2D::at(x,y)] (convolve_kernels.h:198-202, 340, 418). *)
Definition k2_put {S} (K : kernel S) (x y : Z) (v : S) : outcome (kernel S) :=
  if (k_width K <=? x) || (k_width K <=? y) then Throw
  else let i := u32 (y * k_width K + x) in
       if zlen (k_data K) <=? i then Throw else k_put K i v.

(** convolve_kernels.h:52-58 [sum] of a floating point kernel. *)
Definition k_sum {D} (O : dops D) (K : kernel D) : outcome D :=
  for_range 0 (zlen (k_data K)) (fun i s => let* c := bget (k_data K) i in Ok (d_add O s c)) (d_of O 0).

(** [std::abs] (convolve_kernels.h:83, 85, 94, 96). *)
Definition d_abs {D} (O : dops D) (x : D) : D := if d_le O x (d_of O 0) then d_sub O (d_of O 0) x else x.

(** convolve_kernels.h:60-102: the loops that keep the first element for which no later one is better. *)
Definition k_best {S} (better : S -> S -> bool) (f : S -> S) (K : kernel S) : outcome S :=
  let* x := k1_at K 0 in
  for_range 1 (zlen (k_data K)) (fun i m =>
    let* a := bget (k_data K) i in
    Ok (if better (f a) m then f a else m)) (f x).

(** convolve_kernels.h:60-69 [element_max], 71-80 [element_min], 82-91 [element_abs_max], 93-102 [element_abs_min]. *)
Definition element_max {D} (O : dops D) := k_best (fun a m => d_lt O m a) (fun x => x).
(** convolve_kernels.h:71-80. *)
Definition element_min {D} (O : dops D) := k_best (fun a m => d_lt O a m) (fun x => x).
(** convolve_kernels.h:82-91. *)
Definition element_abs_max {D} (O : dops D) := k_best (fun a m => d_lt O m a) (d_abs O).
(** convolve_kernels.h:93-102. *)
Definition element_abs_min {D} (O : dops D) := k_best (fun a m => d_lt O a m) (d_abs O).

(** ** FactoryKernel *)

(** convolve_kernels.h:227-234 [table1D]. *)
Definition table1D {S} (zero one : S) (w : Z) : outcome (kernel S) :=
  let* K := kernel1_width zero w in
  for_range 0 w (fun i K => k_put K i one) K.

(** convolve_kernels.h:257-265 [normalize] of a floating point kernel of either dimension. *)
Definition normalize {D} (O : dops D) (K : kernel D) : outcome (kernel D) :=
  let* s := k_sum O K in
  for_range 0 (k_width K) (fun i K => let* v := k_raw K i in k_put K i (d_div O v s)) K.

(** convolve_kernels.h:242-247 [mean1D] of floating point type. *)
Definition mean1D {D} (O : dops D) (w : Z) : outcome (kernel D) :=
  let* K := table1D (d_of O 0) (d_of O 1) w in normalize O K.

(** convolve_kernels.h:242-252 [mean1D] of integer type: [normalize] does nothing. *)
Definition mean1D_int (w : Z) : outcome (kernel Z) := table1D 0 1 w.

(** [5+0.8*order] (convolve_kernels.h:280, 296). *)
Definition spread_factor {D} (O : dops D) (order : Z) : D :=
  d_add O (d_of O 5) (d_mul O (d_div O (d_of O 4) (d_of O 5)) (d_of O order)).

(** convolve_kernels.h:276-281 [sigmaForRadius]. *)
Definition sigmaForRadius {D} (O : dops D) (radius : D) (order : Z) : outcome D :=
  if d_le O radius (d_of O 0) then Throw
  else Ok (d_div O (d_add O (d_mul O radius (d_of O 2)) (d_of O 1)) (spread_factor O order)).

(** convolve_kernels.h:292-297 [radiusForSigma]. *)
Definition radiusForSigma {D} (O : dops D) (ce : D -> option Z) (sigma : D) (order : Z) : outcome Z :=
  if d_le O sigma (d_of O 0) then Throw
  else match ce (d_div O (d_sub O (d_mul O (spread_factor O order) sigma) (d_of O 1)) (d_of O 2)) with
       | Some z => if (ity_min S32 <=? z) && (z <=? ity_max S32) then Ok z else Undef
       | None => Undef
       end.

(** convolve_kernels.h:221 [SQRT_2_PI]. *)
Definition sqrt_2_pi {D} (O : dops D) : D := d_div O (d_of O 25066282746310) (d_of O 10000000000000).

(** convolve_kernels.h:376-380 [computePDF].  [-delta] is written as multiplication by -1. *)
Definition computePDF {D} (O : dops D) (ex : D -> D) (mean sigma sample : D) : D :=
  let delta := d_sub O sample mean in
  d_div O
    (ex (d_div O (d_mul O (d_mul O (d_of O (-1)) delta) delta) (d_mul O (d_mul O (d_of O 2) sigma) sigma)))
    (d_mul O sigma (sqrt_2_pi O)).

(** convolve_kernels.h:313-316: the width and sigma used.  [radius*2+1] is computed in [int]. *)
Definition gaussian_size {D} (O : dops D) (ce : D -> option Z) (sigma : D) (width : Z) : outcome (D * Z) :=
  if width <=? 0 then
    let* r := radiusForSigma O ce sigma 0 in
    let* w := arith_result S32 (r * 2 + 1) in
    Ok (sigma, w)
  else if d_le O sigma (d_of O 0) then
    let* s := sigmaForRadius O (d_of O (width / 2)) 0 in Ok (s, width)
  else Ok (sigma, width).

(** convolve_kernels.h:309-329 [gaussian1D] of floating point type. *)
Definition gaussian1D {D E} (O : dops D) (OE : dops E) (narrow : D -> E) (ex : D -> D) (ce : D -> option Z)
  (sigma : D) (width : Z) : outcome (kernel E) :=
  let* sw := gaussian_size O ce sigma width in
  let '(sg, w) := sw in
  let* K := kernel1_width (d_of OE 0) w in
  let radius := w / 2 in
  let adjust := if w mod 2 =? 1 then d_of O 0 else d_half O in
  let* K := for_range 0 w (fun i K =>
    k_put K i (narrow (computePDF O ex (d_of O 0) sg (d_add O (d_of O (i - radius)) adjust)))) K in
  normalize OE K.

(** convolve_kernels.h:331-347 [gaussian2D] of floating point type.  The constructor takes the [width] and [width/2] given
    by the caller converted to [uint32_t]. *)
Definition gaussian2D {D E} (O : dops D) (OE : dops E) (narrow : D -> E) (ex : D -> D) (ce : D -> option Z)
  (sigma : D) (width : Z) : outcome (kernel E) :=
  let* seed := gaussian1D O OE narrow ex ce sigma width in
  let* K := kernel2_new (d_of OE 0) (u32 width) (u32 (Z.quot width 2)) in
  let* K := for_range 0 width (fun i K =>
    for_range 0 width (fun j K =>
      let* a := k1_at seed i in
      let* b := k1_at seed j in
      k2_put K i j (d_mul OE a b)) K) K in
  normalize OE K.

(** [std::max] (convolve_kernels.h:397, 414). *)
Definition d_stdmax {D} (O : dops D) (a b : D) : D := if d_lt O a b then b else a.

(** convolve_kernels.h:389-404 [float_to_int] of a 1D kernel to the integer type [t]. *)
Definition float_to_int1 {D} (O : dops D) (t : ity) (K : kernel D) (minFrac : D) : outcome (kernel Z) :=
  let* R := kernel1_new 0 (k_width K) (k_offset K) in
  let* max := element_abs_max O K in
  let* lo := element_abs_min O K in
  let min := d_stdmax O lo (d_mul O max minFrac) in
  for_range 0 (k_width K) (fun i R =>
    let* v := k_raw K i in
    let* z := d_to O t (d_div O v min) in
    k_put R i z) R.

(** convolve_kernels.h:406-423 [float_to_int] of a 2D kernel. *)
Definition float_to_int2 {D} (O : dops D) (t : ity) (K : kernel D) (minFrac : D) : outcome (kernel Z) :=
  let* R := kernel2_new 0 (k_width K) (k_offset K) in
  let* max := element_abs_max O K in
  let* lo := element_abs_min O K in
  let min := d_stdmax O lo (d_mul O max minFrac) in
  for_range 0 (k_width K) (fun i R =>
    for_range 0 (k_width K) (fun j R =>
      let* v := k2_at K j i in
      let* z := d_to O t (d_div O v min) in
      k2_put R j i z) R) R.

(** [1.0/100.0] (convolve_kernels.h:364, 372). *)
Definition min_fraction {D} (O : dops D) : D := d_div O (d_of O 1) (d_of O 100).

(** convolve_kernels.h:359-365 [gaussian1D] of the integer type [t]. *)
Definition gaussian1D_int {D} (O : dops D) (ex : D -> D) (ce : D -> option Z) (t : ity) (sigma : D) (width : Z)
  : outcome (kernel Z) :=
  let* K := gaussian1D O O (fun x => x) ex ce sigma width in
  float_to_int1 O t K (min_fraction O).

(** convolve_kernels.h:367-373 [gaussian2D] of the integer type [t]. *)
Definition gaussian2D_int {D} (O : dops D) (ex : D -> D) (ce : D -> option Z) (t : ity) (sigma : D) (width : Z)
  : outcome (kernel Z) :=
  let* K := gaussian2D O O (fun x => x) ex ce sigma width in
  float_to_int2 O t K (min_fraction O).

(** image_blur.h:240-251 [BlurImageOps::gaussian] for images of the integer type [t]. *)
Definition gaussian_blur {D} (O : dops D) (ex : D -> D) (ce : D -> option Z) (t : ity) (sigma : D) (width : Z)
  (g out storage : gray Z) : outcome (gray Z * gray Z) :=
  let* o := gray_reshape 0 out (g_width g) (g_height g) in
  let* w := gray_reshape 0 storage (g_width g) (g_height g) in
  let* K := gaussian1D_int O ex ce (signed_type t) sigma width in
  let* w' := normalized_h (int_narith t) K g w in
  let* o' := normalized_v (int_narith t) K w' o in
  Ok (o', w').

(** ** Instances *)

(** Exact real numbers in place of [double] (convolve_kernels.h:276-423). *)
Definition reals : dops R :=
  mkDops IZR Rplus Rminus Rmult Rdiv (fun a b => if Rlt_dec a b then true else false)
    (fun a b => if Rle_dec a b then true else false) (fun x => Some (Ztrunc x)).
(** Exact [ceil] (convolve_kernels.h:296). *)
Definition real_ceil (x : R) : option Z := Some (Zceil x).

(** IEEE [ceil] (convolve_kernels.h:296). *)
Definition float_ceil (x : spec_float) : option Z :=
  match x with
  | S754_zero _ => Some 0
  | S754_finite s m e =>
      let a := if s then Zneg m else Zpos m in
      Some (if 0 <=? e then a * 2 ^ e else - ((- a) / 2 ^ (- e)))
  | _ => None
  end.

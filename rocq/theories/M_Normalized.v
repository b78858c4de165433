(** Model of normalized convolution (boofcpp/src/boofcv/convolve.h:212-568, 1090-1182).  Same conventions as
    M_Convolve.v. *)
From Verif Require Import Base M_Image M_Border M_Convolve.

(** Arithmetic of one instance.  [na_arith]: sums, products and the conversion without divisor.  [na_norm]: the
    division of the total by the weight with conversion to a pixel.  [na_trunc]: a coefficient stored in a variable of the
    pixel type (convolve.h:310).  [na_float]: the floating point overloads are selected.  [na_one]: comparison with
    one (convolve.h:1121, 1155). *)
Record narith (E S : Type) := mkNarith {
  na_arith : arith E S E;
  na_norm : S -> S -> outcome E;
  na_trunc : S -> outcome S;
  na_float : bool;
  na_one : S -> bool
}.
Arguments mkNarith {E S} _ _ _ _ _.
Arguments na_arith {E S} _.
Arguments na_norm {E S} _ _ _.
Arguments na_trunc {E S} _ _.
Arguments na_float {E S} _.
Arguments na_one {E S} _ _.

(** Integer pixels of type [t]: convolve.h:220-251, 286-317. *)
Definition int_narith (t : ity) : narith Z Z :=
  mkNarith (int_arith t t) (int_round_div t) (fun c => Ok (cast t c)) false (fun s => s =? 1).

(** The same arithmetic with another final conversion. *)
Definition with_out {E S R R'} (A : arith E S R) (f : S -> outcome R') : arith E S R' :=
  mkArith (a_zero A) (a_prod A) (a_add A) f.

(** convolve_kernels.h:52-58 [KernelBase::sum].  The kernel type is a signed type, whose sum type is itself. *)
Definition kernel_sum {E S R} (A : arith E S R) (K : kernel S) : outcome S :=
  for_range 0 (zlen (k_data K)) (fun i s => let* c := bget (k_data K) i in a_add A s c) (a_zero A).

(** Accumulation of total and weight for [lo <= k < hi], e.g. convolve.h:243-247, 379-383. *)
Definition accw {E S R} (A : arith E S R) (lo hi : Z) (coef : Z -> outcome S) (pix : Z -> outcome E)
  : outcome (S * S) :=
  for_range lo hi (fun k tw =>
    let* c := coef k in
    let* p := pix k in
    let* m := a_prod A c p in
    let* t := a_add A (fst tw) m in
    let* w := a_add A (snd tw) c in
    Ok (t, w)) (a_zero A, a_zero A).

(** convolve.h:230-239, 297-306: range of samples under the kernel, clipped to 0..n-1.  Unsigned arithmetic converted
    to int; the last comparison is unsigned. *)
Definition clip_range {S} (K : kernel S) (n x : Z) : Z * Z :=
  let '(s, e) :=
    if x <? k_offset K then (0, s32 (u32 (k_width K - (k_offset K - x))))
    else let s := s32 (u32 (x - k_offset K)) in (s, s32 (u32 (s + k_width K))) in
  (s, if n <? u32 e then s32 n else e).

(** ** ConvolveNormalizedNaive *)

(** convolve.h:220-284 [horizontal] (both versions). *)
Definition nnaive_h {E S} (N : narith E S) (K : kernel S) (g out : gray E) (d : list E) : outcome (list E) :=
  for_range 0 (g_height g) (fun y d =>
    for_range 0 (g_width g) (fun x d =>
      let '(s, e) := clip_range K (g_width g) x in
      let* tw := accw (na_arith N) s e (fun j => k_raw K (u32 (j - x + k_offset K))) (fun j => gray_unsafe_get g j y) in
      let* r := na_norm N (fst tw) (snd tw) in
      bset d (gray_index out x y) r) d) d.

(** convolve.h:286-350 [vertical] (both versions): the coefficient passes through a pixel variable. *)
Definition nnaive_v {E S} (N : narith E S) (K : kernel S) (g out : gray E) (d : list E) : outcome (list E) :=
  for_range 0 (g_height g) (fun y d =>
    for_range 0 (g_width g) (fun x d =>
      let '(s, e) := clip_range K (g_height g) y in
      let* tw := accw (na_arith N) s e
                   (fun i => let* c := k1_at K (u32 (i - y + k_offset K)) in na_trunc N c)
                   (fun i => gray_unsafe_get g x i) in
      let* r := na_norm N (fst tw) (snd tw) in
      bset d (gray_index out x y) r) d) d.

(** ** ConvolveNormalized_JustBorder *)

(** convolve.h:359-453 [horizontal] (both versions). *)
Definition just_h {E S} (N : narith E S) (K : kernel S) (g out : gray E) (d : list E) : outcome (list E) :=
  let offL := k_offset K in
  let offR := u32 (k_width K - offL - 1) in
  for_range 0 (g_height g) (fun i d =>
    let dst := u32 (g_offset out + i * g_stride out) in
    let jStart := u32 (g_offset g + i * g_stride g) in
    let* d := for_range jStart (u32 (jStart + offL)) (fun j d =>
      let k0 := u32 (k_width K - u32 (offR + 1 + j - jStart)) in
      let* tw := accw (na_arith N) k0 (k_width K) (k_raw K)
                   (fun k => bget (g_data g) (u32 (jStart + (k - k0)))) in
      let* r := na_norm N (fst tw) (snd tw) in
      bset d (u32 (dst + (j - jStart))) r) d in
    let skip := u32 (g_width g - u32 (offL + offR)) in
    let j1 := u32 (u32 (jStart + offL) + skip) in
    let dst1 := u32 (u32 (dst + offL) + skip) in
    let jEnd := u32 (jStart + g_width g) in
    for_range j1 jEnd (fun j d =>
      let src := u32 (j - offL) in
      let kEnd := u32 (jEnd - src) in
      let* tw := accw (na_arith N) 0 kEnd (k_raw K) (fun k => bget (g_data g) (u32 (src + k))) in
      let* r := na_norm N (fst tw) (snd tw) in
      bset d (u32 (dst1 + (j - j1))) r) d) d.

(** convolve.h:474-477: sum of the coefficients [lo <= k < hi]. *)
Definition partial_weight {E S R} (A : arith E S R) (K : kernel S) (lo hi : Z) : outcome S :=
  for_range lo hi (fun k w => let* c := k_raw K k in a_add A w c) (a_zero A).

(** convolve.h:481-484: sum of products for [lo <= k < hi]. *)
Definition partial_total {E S R} (A : arith E S R) (K : kernel S) (lo hi : Z) (pix : Z -> outcome E) : outcome S :=
  for_range lo hi (fun k s => let* c := k_raw K k in let* p := pix k in let* m := a_prod A c p in a_add A s m)
    (a_zero A).

(** convolve.h:455-567 [vertical] (both versions). *)
Definition just_v {E S} (N : narith E S) (K : kernel S) (g out : gray E) (d : list E) : outcome (list E) :=
  let offL := k_offset K in
  let offR := u32 (k_width K - offL - 1) in
  let yEnd := u32 (g_height g - offR) in
  let* d := for_range 0 offL (fun y d =>
    let dst := u32 (g_offset out + y * g_stride out) in
    let i0 := u32 (g_offset g + y * g_stride g) in
    let kStart := u32 (offL - y) in
    let* weight := partial_weight (na_arith N) K kStart (k_width K) in
    for_range i0 (u32 (i0 + g_width g)) (fun i d =>
      let src := u32 (i - y * g_stride g) in
      let* total := partial_total (na_arith N) K kStart (k_width K)
                      (fun k => bget (g_data g) (u32 (src + (k - kStart) * g_stride g))) in
      let* r := na_norm N total weight in
      bset d (u32 (dst + (i - i0))) r) d) d in
  for_range yEnd (g_height g) (fun y d =>
    let dst := u32 (g_offset out + y * g_stride out) in
    let i0 := u32 (g_offset g + y * g_stride g) in
    let kEnd := u32 (g_height g - (y - offL)) in
    let* weight := partial_weight (na_arith N) K 0 kEnd in
    for_range i0 (u32 (i0 + g_width g)) (fun i d =>
      let src := u32 (i - offL * g_stride g) in
      let* total := partial_total (na_arith N) K 0 kEnd (fun k => bget (g_data g) (u32 (src + k * g_stride g))) in
      let* r := na_norm N total weight in
      bset d (u32 (dst + (i - i0))) r) d) d.

(** ** ConvolveNormalized *)

(** convolve.h:1096-1128 [horizontal] (both versions). *)
Definition normalized_h {E S} (N : narith E S) (K : kernel S) (g out : gray E) : outcome (gray E) :=
  let* _ := checkSameShape g out in
  let* d := if g_width g <=? k_width K then nnaive_h N K g out (g_data out)
            else
              let* sum := kernel_sum (na_arith N) K in
              let* d := if na_float N
                        then if na_one N sum then inner_h_ptr (na_arith N) K g out (g_data out)
                             else inner_h_idx (with_out (na_arith N) (fun s => na_norm N s sum)) K g out (g_data out)
                        else inner_h_ptr (with_out (na_arith N) (fun s => na_norm N s sum)) K g out (g_data out) in
              just_h N K g out d in
  Ok (with_data out d).

(** convolve.h:1130-1162 [vertical] (both versions). *)
Definition normalized_v {E S} (N : narith E S) (K : kernel S) (g out : gray E) : outcome (gray E) :=
  let* _ := checkSameShape g out in
  let* d := if g_height g <=? k_width K then nnaive_v N K g out (g_data out)
            else
              let* sum := kernel_sum (na_arith N) K in
              let* d := if na_float N
                        then if na_one N sum then inner_v_ptr (na_arith N) K g out (g_data out)
                             else inner_v_idx (with_out (na_arith N) (fun s => na_norm N s sum)) K g out (g_data out)
                        else inner_v_ptr (with_out (na_arith N) (fun s => na_norm N s sum)) K g out (g_data out) in
              just_v N K g out d in
  Ok (with_data out d).

(** convolve.h:1172-1181 [convolve]: returns the output and the workspace. *)
Definition normalized_2 {E S} (N : narith E S) (zero : E) (K : kernel S) (g out work : gray E)
  : outcome (gray E * gray E) :=
  let* o := gray_reshape zero out (g_width g) (g_height g) in
  let* w := gray_reshape zero work (g_width g) (g_height g) in
  let* w' := normalized_h N K g w in
  let* o' := normalized_v N K w' o in
  Ok (o', w').

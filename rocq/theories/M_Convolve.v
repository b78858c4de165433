(** Model of convolution (boofcpp/src/boofcv/convolve.h) and of the kernel containers
    (boofcpp/src/boofcv/convolve_kernels.h:14-213).

    The templates are modelled over an arbitrary arithmetic (record [arith]).  The three template versions of each
    function (no divisor, integral with divisor, floating with divisor) run the same loops and differ in the
    conversion of the sum, which is the field [a_out]; where the loops differ ([ConvolveImage_Inner] for floating
    point uses other index types) both are modelled.  Products are written coefficient * pixel everywhere; the C++
    writes both orders (multiplication of integers and of IEEE numbers is commutative).  Input and output are
    separate buffers. *)
From Verif Require Import Base M_Image M_Border.

(** Arithmetic of one template instance: pixels [E], [TypeInfo<E>::signed_type] [S], output pixels [R]
    (base_types.h:25-59). *)
Record arith (E S R : Type) := mkArith {
  a_zero : S;
  a_prod : S -> E -> outcome S;
  a_add : S -> S -> outcome S;
  a_out : S -> outcome R
}.
Arguments mkArith {E S R} _ _ _ _.
Arguments a_zero {E S R} _.
Arguments a_prod {E S R} _ _ _.
Arguments a_add {E S R} _ _ _.
Arguments a_out {E S R} _ _.

(** Integers, no divisor: convolve.h:38 [(R)sum], 686.  Pixels of type [t], outputs of type [r].  The product and the sum are
    formed in [int] or [int64_t]. *)
Definition int_arith (t r : ity) : arith Z Z Z :=
  mkArith 0 (fun c p => arith_result (signed_type t) (c * p))
            (fun a b => arith_result (signed_type t) (a + b))
            (fun s => Ok (cast r s)).

(** C++ integer division truncates; division by zero and [min/-1] are undefined.  convolve.h:58, 619. *)
Definition int_div (t : ity) (a b : Z) : outcome Z :=
  if b =? 0 then Undef else arith_result t (Z.quot a b).

(** convolve.h:58, 248, 384, 619: [(E)((sum + divisor/2)/divisor)]. *)
Definition int_round_div (t : ity) (total weight : Z) : outcome Z :=
  let* h := int_div (signed_type t) weight 2 in
  let* n := arith_result (signed_type t) (total + h) in
  let* q := int_div (signed_type t) n weight in
  Ok (cast t q).

(** Integers with divisor: convolve.h:43-61, 595-622. *)
Definition int_arith_div (t : ity) (divisor : Z) : arith Z Z Z :=
  mkArith 0 (fun c p => arith_result (signed_type t) (c * p))
            (fun a b => arith_result (signed_type t) (a + b))
            (fun s => int_round_div t s divisor).

(** convolve_kernels.h:19-30.  [data] is the GrowArray with its [size] elements. *)
Record kernel (S : Type) := mkKernel {
  k_width : Z;
  k_offset : Z;
  k_data : list S
}.
Arguments mkKernel {S} _ _ _.
Arguments k_width {S} _.
Arguments k_offset {S} _.
Arguments k_data {S} _.

(** convolve_kernels.h:37-42, 112-114 [Kernel1D(width,offset)]; the GrowArray is filled with its default value 0
    only where it grows, the others are whatever was there; here all are [zero]. *)
Definition kernel1_new {S} (zero : S) (w off : Z) : outcome (kernel S) :=
  if w <=? off then Throw else Ok (mkKernel w off (repeat zero (Z.to_nat w))).

(** convolve_kernels.h:119-121 [Kernel1D(offset,list)]. *)
Definition kernel1_of_list {S} (off : Z) (l : list S) : outcome (kernel S) :=
  if u32 (zlen l) <=? off then Throw else Ok (mkKernel (u32 (zlen l)) off l).

(** convolve_kernels.h:132-134 [Kernel1D::at], base_types.h:158-162. *)
Definition k1_at {S} (K : kernel S) (i : Z) : outcome S :=
  if zlen (k_data K) <=? i then Throw else bget (k_data K) i.

(** convolve_kernels.h:136-138 [Kernel1D::operator[]], and the raw accesses [kernel.data[k]], [*kernel_ptr]. *)
Definition k_raw {S} (K : kernel S) (i : Z) : outcome S := bget (k_data K) i.

(** convolve_kernels.h:198-202 [Kernel2D::at]. *)
Definition k2_at {S} (K : kernel S) (x y : Z) : outcome S :=
  if (k_width K <=? x) || (k_width K <=? y) then Throw
  else let i := u32 (y * k_width K + x) in
       if zlen (k_data K) <=? i then Throw else bget (k_data K) i.

(** The accumulation loop [for k<n: sum += coef(k)*pix(k)], e.g. convolve.h:33-37, 616-618. *)
Definition acc1 {E S R} (A : arith E S R) (n : Z) (coef : Z -> outcome S) (pix : Z -> outcome E) : outcome S :=
  for_range 0 n (fun k s => let* c := coef k in let* p := pix k in let* m := a_prod A c p in a_add A s m) (a_zero A).

(** The double accumulation loop over rows [i] and columns [j] of a square kernel, e.g. convolve.h:152-158, 829-836. *)
Definition acc2 {E S R} (A : arith E S R) (n : Z) (coef : Z -> Z -> outcome S) (pix : Z -> Z -> outcome E)
  : outcome S :=
  for_range 0 n (fun i s =>
    for_range 0 n (fun j s =>
      let* c := coef i j in let* p := pix i j in let* m := a_prod A c p in a_add A s m) s) (a_zero A).

(** [output.at(x,y) = r] on the buffer [d] of [out]: convolve.h:38, image_types.h:168-172. *)
Definition put_at {R} (out : gray R) (x y : Z) (r : R) (d : list R) : outcome (list R) :=
  let* g := gray_set (with_data out d) x y r in Ok (g_data g).

(** ** ConvolveNaive *)

(** convolve.h:24-81 [ConvolveNaive::horizontal]. *)
Definition naive_h {E S R} (A : arith E S R) (K : kernel S) (b : border E) (g : gray E) (out : gray R)
  (d : list R) : outcome (list R) :=
  for_range 0 (g_height g) (fun y d =>
    for_range 0 (g_width g) (fun x d =>
      let* s := acc1 A (k_width K) (k1_at K) (fun k => border_get b g (s32 (u32 (x - k_offset K + k))) (s32 y)) in
      let* r := a_out A s in
      put_at out x y r d) d) d.

(** convolve.h:83-140 [ConvolveNaive::vertical]. *)
Definition naive_v {E S R} (A : arith E S R) (K : kernel S) (b : border E) (g : gray E) (out : gray R)
  (d : list R) : outcome (list R) :=
  for_range 0 (g_height g) (fun y d =>
    for_range 0 (g_width g) (fun x d =>
      let* s := acc1 A (k_width K) (k1_at K) (fun k => border_get b g (s32 x) (s32 (u32 (y - k_offset K + k)))) in
      let* r := a_out A s in
      put_at out x y r d) d) d.

(** convolve.h:142-210 [ConvolveNaive::convolve]. *)
Definition naive_2 {E S R} (A : arith E S R) (K : kernel S) (b : border E) (g : gray E) (out : gray R)
  (d : list R) : outcome (list R) :=
  for_range 0 (g_height g) (fun y d =>
    for_range 0 (g_width g) (fun x d =>
      let* s := acc2 A (k_width K) (fun k l => k2_at K l k)
                  (fun k l => border_get b g (s32 (u32 (x - k_offset K + l))) (s32 (u32 (y - k_offset K + k)))) in
      let* r := a_out A s in
      put_at out x y r d) d) d.

(** ** ConvolveImage_Inner

    The [_unrolled] functions (convolve.h:579-593, 650-663, 691-705, 768-781) only forward. *)

(** convolve.h:595-622 and 665-689 (integral, and without divisor): pointers. *)
Definition inner_h_ptr {E S R} (A : arith E S R) (K : kernel S) (g : gray E) (out : gray R)
  (d : list R) : outcome (list R) :=
  for_range 0 (g_height g) (fun i d =>
    let op := u32 (g_offset out + i * g_stride out + k_offset K) in
    let ip := u32 (g_offset g + i * g_stride g) in
    for_range 0 (u32 (g_width g - (k_width K - 1))) (fun j d =>
      let* s := acc1 A (k_width K) (k_raw K) (fun k => bget (g_data g) (ip + j + k)) in
      let* r := a_out A s in
      bset d (op + j) r) d) d.

(** convolve.h:624-648 (floating point, divisor): signed 32-bit index, unsigned destination index. *)
Definition inner_h_idx {E S R} (A : arith E S R) (K : kernel S) (g : gray E) (out : gray R)
  (d : list R) : outcome (list R) :=
  for_range 0 (g_height g) (fun i d =>
    let dst := u32 (g_offset out + i * g_stride out + k_offset K) in
    let j0 := s32 (u32 (g_offset g + i * g_stride g)) in
    let jEnd := s32 (u32 (j0 + g_width g - (k_width K - 1))) in
    for_range j0 jEnd (fun j d =>
      let* s := acc1 A (k_width K) (k_raw K) (fun k => bget (g_data g) (j + k)) in
      let* r := a_out A s in
      bset d (u32 (dst + (j - j0))) r) d) d.

(** convolve.h:707-738 and 783-811 (integral, and without divisor): pointers, signed row counter. *)
Definition inner_v_ptr {E S R} (A : arith E S R) (K : kernel S) (g : gray E) (out : gray R)
  (d : list R) : outcome (list R) :=
  let yEnd := s32 (u32 (g_height g - (k_width K - k_offset K - 1))) in
  for_range (s32 (k_offset K)) yEnd (fun y d =>
    let op := u32 (g_offset out + y * g_stride out) in
    let ip := u32 (g_offset g + u32 (y - k_offset K) * g_stride g) in
    for_range 0 (g_width g) (fun i d =>
      let* s := acc1 A (k_width K) (k_raw K) (fun k => bget (g_data g) (ip + i + k * g_stride g)) in
      let* r := a_out A s in
      bset d (op + i) r) d) d.

(** convolve.h:740-766 (floating point, divisor): signed column counter, unsigned source index. *)
Definition inner_v_idx {E S R} (A : arith E S R) (K : kernel S) (g : gray E) (out : gray R)
  (d : list R) : outcome (list R) :=
  let yEnd := u32 (g_height g - (k_width K - k_offset K - 1)) in
  for_range (k_offset K) yEnd (fun y d =>
    let dst := u32 (g_offset out + y * g_stride out) in
    let i0 := s32 (u32 (g_offset g + u32 (y - k_offset K) * g_stride g)) in
    let iEnd := s32 (u32 (i0 + g_width g)) in
    for_range i0 iEnd (fun i d =>
      let* s := acc1 A (k_width K) (k_raw K) (fun k => bget (g_data g) (u32 (i + k * g_stride g))) in
      let* r := a_out A s in
      bset d (u32 (dst + (i - i0))) r) d) d.

(** convolve.h:813-895 [ConvolveImage_Inner::convolve] (all three versions). *)
Definition inner_2 {E S R} (A : arith E S R) (K : kernel S) (g : gray E) (out : gray R)
  (d : list R) : outcome (list R) :=
  let offL := k_offset K in
  let offR := u32 (k_width K - k_offset K - 1) in
  for_range offL (u32 (g_height g - offR)) (fun y d =>
    let dst := u32 (g_offset out + y * g_stride out + offL) in
    for_range offL (u32 (g_width g - offR)) (fun x d =>
      let* s := acc2 A (k_width K) (fun ki kj => k_raw K (ki * k_width K + kj))
                  (fun ki kj => bget (g_data g)
                     (u32 (g_offset g + u32 (y + ki - offL) * g_stride g + x - offL) + kj)) in
      let* r := a_out A s in
      bset d (u32 (dst + (x - offL))) r) d) d.

(** ** ConvolveImage_Border *)

(** [int] addition and subtraction of coordinates, e.g. convolve.h:920 [x+k-offset]. *)
Definition coord (x k off : Z) : outcome Z :=
  let* a := arith_result S32 (x + k) in arith_result S32 (a - off).

(** convolve.h:904-938 [ConvolveImage_Border::horizontal]. *)
Definition border_h {E S R} (A : arith E S R) (K : kernel S) (b : border E) (g : gray E) (out : gray R)
  (d : list R) : outcome (list R) :=
  let offset := s32 (k_offset K) in
  let borderRight := s32 (u32 (k_width K - offset - 1)) in
  for_range 0 (g_height out) (fun y d =>
    let op := u32 (g_offset out + y * g_stride out) in
    let* d := for_range 0 offset (fun x d =>
      let* s := acc1 A (k_width K) (k_raw K) (fun k => let* xx := coord x k offset in border_get b g xx (s32 y)) in
      let* r := a_out A s in
      bset d (op + x) r) d in
    let x0 := u32 (g_width out - borderRight) in
    let op := u32 (g_offset out + y * g_stride out + g_width out - borderRight) in
    for_range x0 (g_width out) (fun x d =>
      let* xx := arith_result S32 (x - offset) in
      let* s := acc1 A (k_width K) (k_raw K) (fun k => border_get b g (s32 (u32 (xx + k))) (s32 y)) in
      let* r := a_out A s in
      bset d (op + (x - x0)) r) d) d.

(** convolve.h:940-971 [ConvolveImage_Border::vertical]. *)
Definition border_v {E S R} (A : arith E S R) (K : kernel S) (b : border E) (g : gray E) (out : gray R)
  (d : list R) : outcome (list R) :=
  let borderBottom := s32 (u32 (k_width K - k_offset K - 1)) in
  for_range 0 (g_width out) (fun x d =>
    let dst := u32 (g_offset out + x) in
    let* d := for_range 0 (k_offset K) (fun y d =>
      let* s := acc1 A (k_width K) (k_raw K) (fun k => border_get b g (s32 x) (s32 (u32 (y + k - k_offset K)))) in
      let* r := a_out A s in
      bset d (u32 (dst + y * g_stride out)) r) d in
    let y0 := u32 (g_height out - borderBottom) in
    let dst := u32 (g_offset out + y0 * g_stride out + x) in
    for_range y0 (g_height out) (fun y d =>
      let* s := acc1 A (k_width K) (k_raw K) (fun k => border_get b g (s32 x) (s32 (u32 (y + k - k_offset K)))) in
      let* r := a_out A s in
      bset d (u32 (dst + (y - y0) * g_stride out)) r) d) d.

(** convolve.h:988-995 and its three repetitions: the total at (x,y); [i], [j] run from -offsetL to offsetR. *)
Definition border_total2 {E S R} (A : arith E S R) (K : kernel S) (b : border E) (g : gray E) (offL n x y : Z)
  : outcome S :=
  acc2 A n (fun i j => k_raw K (i * n + j))
    (fun i j => border_get b g (s32 (u32 (x + (j - offL)))) (s32 (u32 (y + (i - offL))))).

(** convolve.h:973-1040 [ConvolveImage_Border::convolve]. *)
Definition border_2 {E S R} (A : arith E S R) (K : kernel S) (b : border E) (g : gray E) (out : gray R)
  (d : list R) : outcome (list R) :=
  let offL := s32 (k_offset K) in
  let offR := s32 (u32 (k_width K - offL - 1)) in
  let n := offL + offR + 1 in
  let* d := for_range 0 (g_height out) (fun y d =>
    let dst := u32 (g_offset out + y * g_stride out) in
    let* d := for_range 0 offL (fun x d =>
      let* s := border_total2 A K b g offL n x y in
      let* r := a_out A s in
      bset d (u32 (dst + x)) r) d in
    let x0 := u32 (g_width out - offR) in
    let dst := u32 (g_offset out + y * g_stride out + g_width out - offR) in
    for_range x0 (g_width out) (fun x d =>
      let* s := border_total2 A K b g offL n x y in
      let* r := a_out A s in
      bset d (u32 (dst + (x - x0))) r) d) d in
  for_range offL (u32 (g_width out - offR)) (fun x d =>
    let dst := u32 (g_offset out + x) in
    let* d := for_range 0 offL (fun y d =>
      let* s := border_total2 A K b g offL n x y in
      let* r := a_out A s in
      bset d (u32 (dst + y * g_stride out)) r) d in
    let y0 := u32 (g_height out - offR) in
    let dst := u32 (g_offset out + y0 * g_stride out + x) in
    for_range y0 (g_height out) (fun y d =>
      let* s := border_total2 A K b g offL n x y in
      let* r := a_out A s in
      bset d (u32 (dst + (y - y0) * g_stride out)) r) d) d.

(** ** ConvolveImage (convolve.h:1045-1088) *)

(** convolve.h:1047-1059. *)
Definition convolve_h {E S R} (A : arith E S R) (zero : R) (K : kernel S) (b : border E) (g : gray E) (out : gray R)
  : outcome (gray R) :=
  let* o := gray_reshape zero out (g_width g) (g_height g) in
  let* d := if g_width o <=? k_width K then naive_h A K b g o (g_data o)
            else let* d := inner_h_ptr A K g o (g_data o) in border_h A K b g o d in
  Ok (with_data o d).

(** convolve.h:1061-1073. *)
Definition convolve_v {E S R} (A : arith E S R) (zero : R) (K : kernel S) (b : border E) (g : gray E) (out : gray R)
  : outcome (gray R) :=
  let* o := gray_reshape zero out (g_width g) (g_height g) in
  let* d := if g_height o <=? k_width K then naive_v A K b g o (g_data o)
            else let* d := inner_v_ptr A K g o (g_data o) in border_v A K b g o d in
  Ok (with_data o d).

(** convolve.h:1075-1087. *)
Definition convolve_2 {E S R} (A : arith E S R) (zero : R) (K : kernel S) (b : border E) (g : gray E) (out : gray R)
  : outcome (gray R) :=
  let* o := gray_reshape zero out (g_width g) (g_height g) in
  let* d := if (g_width o <=? k_width K) || (g_height o <=? k_width K) then naive_2 A K b g o (g_data o)
            else let* d := inner_2 A K g o (g_data o) in border_2 A K b g o d in
  Ok (with_data o d).

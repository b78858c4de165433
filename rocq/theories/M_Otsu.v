(** Model of ComputeOtsu (binary_ops.cpp:87-193), ThresholdOps::computeOtsu (binary_ops.h:111-123) and
    GlobalOtsuBinaryFilter (binary_ops.h:245-261).  No proofs. *)
From Coq Require Import QArith Floats.SpecFloat.
From Verif Require Import Base M_Image M_Convolve M_GrowArray M_Normalized M_Blur M_Float M_Stats M_Binary.
Open Scope Z_scope.

(** ** Operations on [double] *)

(** The operations used by binary_ops.cpp:97-193 and config_types.cpp:22-57.  [d_int] is the conversion to
    an integer, which cuts off the fraction; [None] for infinities and NaN. *)
Record dops (D : Type) := mkDops {
  d_of : Z -> D;
  d_add : D -> D -> D;
  d_sub : D -> D -> D;
  d_mul : D -> D -> D;
  d_div : D -> D -> D;
  d_lt : D -> D -> bool;
  d_le : D -> D -> bool;
  d_int : D -> option Z
}.
Arguments mkDops {D} _ _ _ _ _ _ _ _.
Arguments d_of {D} _ _.
Arguments d_add {D} _ _ _.
Arguments d_sub {D} _ _ _.
Arguments d_mul {D} _ _ _.
Arguments d_div {D} _ _ _.
Arguments d_lt {D} _ _ _.
Arguments d_le {D} _ _ _.
Arguments d_int {D} _ _.

(** Exact rational numbers in place of [double] (binary_ops.cpp:97-193). *)
Definition exact : dops Q :=
  mkDops inject_Z Qplus Qminus Qmult Qdiv (fun a b => negb (Qle_bool b a)) Qle_bool
    (fun q => Some (Z.quot (Qnum q) (Zpos (Qden q)))).

(** IEEE 754 double (binary_ops.cpp:97-193). *)
Definition float_int (x : spec_float) : option Z :=
  match x with
  | S754_zero _ => Some 0
  | S754_finite s m e =>
      let a := if 0 <=? e then Zpos m * 2 ^ e else Zpos m / 2 ^ (- e) in
      Some (if s then - a else a)
  | _ => None
  end.
(** IEEE 754 double (binary_ops.cpp:97-193). *)
Definition double : dops spec_float :=
  mkDops (float_of_Z F64) (fadd F64) (fsub F64) (fmul F64) (fdiv F64) SFltb SFleb float_int.

(** Conversion of a [double] to an integer type; a value that does not fit is undefined (binary_ops.cpp:107, 109;
    binary_ops.h:122). *)
Definition d_to {D} (O : dops D) (t : ity) (x : D) : outcome Z :=
  match d_int O x with
  | Some z => if (ity_min t <=? z) && (z <=? ity_max t) then Ok z else Undef
  | None => Undef
  end.

(** ** ComputeOtsu *)

(** binary_ops.cpp:113-116, 150-153: sum over the histogram, bins scaled to [0,1).  [inc] is the type of the loop
    counter: unsigned in computeOtsu, [int] in computeOtsu2. *)
Definition otsu_total {D} (O : dops D) (inc : Z -> outcome Z) (h : growarr Z) : outcome D :=
  let dlength := d_of O (ga_size h) in
  for_range 0 (ga_size h) (fun i s =>
    let* v := ga_idx h i in
    let* _ := inc (i + 1) in
    Ok (d_add O s (d_mul O (d_div O (d_of O i) dlength) (d_of O v)))) (d_of O 0).

(** Variables of the main loop (binary_ops.cpp:118-124, 155-164); [o_stop] records [break]. *)
Record otsu (D : Type) := mkOtsu {
  o_stop : bool;
  o_sumB : D;
  o_wB : Z;
  o_variance : D;
  o_index : Z;
  o_mB : D;
  o_mF : D
}.
Arguments mkOtsu {D} _ _ _ _ _ _ _.
Arguments o_stop {D} _.
Arguments o_sumB {D} _.
Arguments o_wB {D} _.
Arguments o_variance {D} _.
Arguments o_index {D} _.
Arguments o_mB {D} _.
Arguments o_mF {D} _.

(** Body of the main loop (binary_ops.cpp:125-146, 166-187).  computeOtsu keeps the index, computeOtsu2 the two means;
    here both are kept. *)
Definition otsu_step {D} (O : dops D) (h : growarr Z) (total : Z) (sum : D) (i : Z) (s : otsu D) : outcome (otsu D) :=
  if o_stop s then Ok s else
  let* v := ga_idx h i in
  let wB := u32 (o_wB s + v) in
  if wB =? 0 then Ok (mkOtsu false (o_sumB s) wB (o_variance s) (o_index s) (o_mB s) (o_mF s)) else
  let wF := u32 (total - wB) in
  if wF =? 0 then Ok (mkOtsu true (o_sumB s) wB (o_variance s) (o_index s) (o_mB s) (o_mF s)) else
  let f := d_div O (d_of O i) (d_of O (ga_size h)) in
  let sumB := d_add O (o_sumB s) (d_mul O f (d_of O v)) in
  let mB := d_div O sumB (d_of O wB) in
  let mF := d_div O (d_sub O sum sumB) (d_of O wF) in
  let diff := d_sub O mB mF in
  let between := d_mul O (d_mul O (d_mul O (d_of O wB) (d_of O wF)) diff) diff in
  if d_lt O (o_variance s) between then Ok (mkOtsu false sumB wB between i mB mF)
  else Ok (mkOtsu false sumB wB (o_variance s) (o_index s) (o_mB s) (o_mF s)).

(** Main loop (binary_ops.cpp:118-147, 155-188). *)
Definition otsu_loop {D} (O : dops D) (h : growarr Z) (total : Z) (sum : D) : outcome (otsu D) :=
  for_range 0 (ga_size h) (otsu_step O h total sum)
    (mkOtsu false (d_of O 0) 0 (d_of O 0) 0 (d_of O 0) (d_of O 0)).

(** binary_ops.cpp:112-147 [computeOtsu]: variance and threshold. *)
Definition otsu_1 {D} (O : dops D) (h : growarr Z) (total : Z) : outcome (D * D) :=
  let* sum := otsu_total O (fun i => Ok (u32 i)) h in
  let* s := otsu_loop O h total sum in
  Ok (o_variance s, d_of O (o_index s)).

(** binary_ops.cpp:149-193 [computeOtsu2]: variance and threshold. *)
Definition otsu_2 {D} (O : dops D) (h : growarr Z) (total : Z) : outcome (D * D) :=
  let* sum := otsu_total O (arith_result S32) h in
  let* s := otsu_loop O h total sum in
  Ok (o_variance s, d_div O (d_mul O (d_of O (ga_size h)) (d_add O (o_mB s) (o_mF s))) (d_of O 2)).

(** binary_ops.cpp:97-110 [compute]: the members [threshold] and [variance] afterwards.  The literals 0.001 and 0.5 are
    quotients here; 1/1000 rounds to the same double. *)
Definition otsu_compute {D} (O : dops D) (two : bool) (tuning : D) (down : bool) (scale : D) (h : growarr Z) (total : Z)
  : outcome (D * D) :=
  let* vt := if two then otsu_2 O h total else otsu_1 O h total in
  let '(variance, threshold) := vt in
  let half := d_div O (d_of O 1) (d_of O 2) in
  let variance := d_add O variance (d_div O (d_of O 1) (d_of O 1000)) in
  let* adjustment := d_to O S32
    (d_add O (d_div O (d_mul O (d_mul O (d_mul O tuning threshold) tuning) threshold) variance) half) in
  let* change := if down then arith_result S32 (- adjustment) else Ok adjustment in
  let threshold := d_add O threshold (d_of O change) in
  let positive := if d_lt O threshold (d_of O 0) then d_of O 0 else threshold in
  let* r := d_to O S32 (d_add O (d_mul O scale positive) half) in
  Ok (variance, d_of O r).

(** ** Images *)

(** binary_ops.h:111-123 [ThresholdOps::computeOtsu]. *)
Definition image_otsu {D} (O : dops D) (t : ity) (g : gray Z) (mn mx : Z) (two : bool) : outcome Z :=
  let* r := arith_result (promote t) (1 + mx) in
  let* r := arith_result (promote t) (r - mn) in
  let* h := image_histogram t g mn (ga_new (int_mem U32) (u32 r)) in
  let* vt := otsu_compute O two (d_of O 0) true (d_of O 1) h (gray_total_pixels g) in
  d_to O U32 (snd vt).

(** binary_ops.h:257-260 [GlobalOtsuBinaryFilter::process]. *)
Definition global_otsu {D} (O : dops D) (t : ity) (g : gray Z) (mn mx : Z) (down : bool) (out : gray Z) : outcome (gray Z) :=
  let* th := image_otsu O t g mn mx false in
  threshold Z.leb Z.gtb g (cast t th) down out.

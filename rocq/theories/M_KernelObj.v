(** Model of the kernel containers with the growable array that holds their coefficients
    (convolve_kernels.h:14-213, 426-478).  No proofs.  Memory of arrays is not shared here (see M_GrowHeap.v for that). *)
From Verif Require Import Base M_GrowArray.

(** convolve_kernels.h:19-31: the fields of KernelBase.  [ko_two] tells Kernel2D from Kernel1D. *)
Record kobj (E : Type) := mkKobj { ko_two : bool; ko_width : Z; ko_offset : Z; ko_data : growarr E }.
Arguments mkKobj {E} _ _ _ _. Arguments ko_two {E} _. Arguments ko_width {E} _. Arguments ko_offset {E} _.
Arguments ko_data {E} _.

(** The argument of [data.resize]: convolve_kernels.h:113, 129 [width] and 162, 172, 191 [width*width], which wraps. *)
Definition ko_cells (two : bool) (w : Z) : Z := if two then u32 (w * w) else w.

(** convolve_kernels.h:32-35, 123-124, 185-186: default constructors; [data] has the size its own default constructor gives
    it (base_types.h:96-98). *)
Definition ko_default {E} (m : memtype E) (two : bool) : kobj E := mkKobj two 0 0 (ga_new_default m).

(** convolve_kernels.h:37-42, 112-114, 161-163 [Kernel1D(width,offset)], [Kernel2D(width,offset)]. *)
Definition ko_new {E} (m : memtype E) (two : bool) (w off : Z) : outcome (kobj E) :=
  if w <=? off then Throw
  else let* d := ga_resize m (ga_new_default m) (ko_cells two w) in Ok (mkKobj two w off d).

(** convolve_kernels.h:116-117, 165-166. *)
Definition ko_new_width {E} (m : memtype E) (two : bool) (w : Z) : outcome (kobj E) := ko_new m two w (w / 2).

(** convolve_kernels.h:119-121 [Kernel1D(offset,list)]. *)
Definition ko_list {E} (m : memtype E) (off : Z) (l : list E) : outcome (kobj E) :=
  if u32 (zlen l) <=? off then Throw
  else let* d := ga_setTo m (ga_new_default m) l in Ok (mkKobj false (u32 (zlen l)) off d).

(** convolve_kernels.h:179-181: [*ptr++ = y] for one row; [p] is the position of the pointer. *)
Fixpoint ko_put_row {E} (d : list (option E)) (p : Z) (r : list E) : outcome (list (option E)) :=
  match r with
  | [] => Ok d
  | y :: r => let* d := bset d p (Some y) in ko_put_row d (p + 1) r
  end.

(** convolve_kernels.h:174-182: the rows. *)
Fixpoint ko_put_rows {E} (w : Z) (d : list (option E)) (p : Z) (l : list (list E)) : outcome (list (option E)) :=
  match l with
  | [] => Ok d
  | r :: l =>
      if zlen r =? w then let* d := ko_put_row d p r in ko_put_rows w d (p + zlen r) l
      else Throw
  end.

(** convolve_kernels.h:168-183 [Kernel2D(offset,lists)]; the offset is not checked. *)
Definition ko_lists {E} (m : memtype E) (off : Z) (l : list (list E)) : outcome (kobj E) :=
  let w := u32 (zlen l) in
  let* g := ga_resize m (ga_new_default m) (u32 (w * w)) in
  let* d := ko_put_rows w (ga_data g) 0 l in
  Ok (mkKobj true w off (mkGA d (ga_size g) (ga_len g) (ga_default g) (ga_own g))).

(** convolve_kernels.h:126-130, 188-192 [reshape]. *)
Definition ko_reshape {E} (m : memtype E) (k : kobj E) (w off : Z) : outcome (kobj E) :=
  let* d := ga_resize m (ko_data k) (ko_cells (ko_two k) w) in Ok (mkKobj (ko_two k) w off d).

(** convolve_kernels.h:46-48 [radius]. *)
Definition ko_radius {E} (k : kobj E) : Z := ko_width k / 2.
(** convolve_kernels.h:140-142, 194-196 [dimension]. *)
Definition ko_dimension {E} (k : kobj E) : Z := if ko_two k then 2 else 1.

(** convolve_kernels.h:132-134 [Kernel1D::at] as a value. *)
Definition ko_at {E} (k : kobj E) (i : Z) : outcome E := ga_at (ko_data k) i.

(** convolve_kernels.h:198-202 [Kernel2D::at] as a value. *)
Definition ko_at2 {E} (k : kobj E) (x y : Z) : outcome E :=
  if (ko_width k <=? x) || (ko_width k <=? y) then Throw else ga_at (ko_data k) (u32 (y * ko_width k + x)).

(** convolve_kernels.h:132-134 [at(i) = v]. *)
Definition ko_put {E} (k : kobj E) (i : Z) (v : E) : outcome (kobj E) :=
  let* d := ga_at_set (ko_data k) i v in Ok (mkKobj (ko_two k) (ko_width k) (ko_offset k) d).

(** convolve_kernels.h:198-202 [at(x,y) = v]. *)
Definition ko_put2 {E} (k : kobj E) (x y : Z) (v : E) : outcome (kobj E) :=
  if (ko_width k <=? x) || (ko_width k <=? y) then Throw else ko_put k (u32 (y * ko_width k + x)) v.

(** convolve_kernels.h:136-138 [operator[]] of Kernel1D as a value: no check. *)
Definition ko_idx {E} (k : kobj E) (i : Z) : outcome E := ga_idx (ko_data k) i.

(** convolve_kernels.h:144-152, 204-212 [operator=] from another object. *)
Definition ko_assign {E} (m : memtype E) (k other : kobj E) : outcome (kobj E) :=
  let* d := ga_assign m (ko_data k) (ko_data other) in Ok (mkKobj (ko_two k) (ko_width other) (ko_offset other) d).

(** convolve_kernels.h:52-58 [sum] of an integer kernel. *)
Definition ko_sum (t : ity) (k : kobj Z) : outcome Z :=
  for_range 0 (ga_size (ko_data k)) (fun i s => let* c := ga_idx (ko_data k) i in arith_result (sum_type t) (s + c)) 0.

(** convolve_kernels.h:60-102: the loops that keep the first element for which no later one is better; [f] is the identity
    or [std::abs]. *)
Definition ko_best (better : Z -> Z -> bool) (f : Z -> outcome Z) (k : kobj Z) : outcome Z :=
  let* x := ga_at (ko_data k) 0 in
  let* b := f x in
  for_range 1 (ga_size (ko_data k)) (fun i b =>
    let* c := ga_idx (ko_data k) i in
    let* a := f c in
    Ok (if better a b then a else b)) b.

(** [std::abs] of an element of type [t], converted back to it (convolve_kernels.h:83, 85, 94, 96).  Elements narrower than
    [int] are promoted; [abs] of the smallest [int] or [int64_t] is undefined. *)
Definition ko_abs (t : ity) (v : Z) : outcome Z := let* a := arith_result (signed_type t) (Z.abs v) in Ok (cast t a).

(** convolve_kernels.h:60-69 [element_max]. *)
Definition ko_max := ko_best (fun a b => b <? a) (fun v => Ok v).
(** convolve_kernels.h:71-80 [element_min]. *)
Definition ko_min := ko_best (fun a b => a <? b) (fun v => Ok v).
(** convolve_kernels.h:82-91 [element_abs_max]. *)
Definition ko_abs_max (t : ity) := ko_best (fun a b => b <? a) (ko_abs t).
(** convolve_kernels.h:93-102 [element_abs_min]. *)
Definition ko_abs_min (t : ity) := ko_best (fun a b => a <? b) (ko_abs t).

(** [kernel.data[i] = v] (convolve_kernels.h:443, 453, 464, 475): no check. *)
Definition ko_raw_put {E} (k : kobj E) (i : Z) (v : E) : outcome (kobj E) :=
  let g := ko_data k in
  let* d := bset (ga_data g) i (Some v) in
  Ok (mkKobj (ko_two k) (ko_width k) (ko_offset k) (mkGA d (ga_size g) (ga_len g) (ga_default g) (ga_own g))).

(** convolve_kernels.h:437-477 [fill_uniform]; [rng i] is the i-th number the distribution yields. *)
Definition ko_fill_uniform {E} (k : kobj E) (rng : Z -> E) : outcome (kobj E) :=
  for_range 0 (ko_cells (ko_two k) (ko_width k)) (fun i k => ko_raw_put k i (rng i)) k.

(** The range of [std::uniform_int_distribution<E>(min_value, max_value-1)] (convolve_kernels.h:440, 460); [max_value-1] is
    computed in [int] or wider and converted to [E]; the distribution requires a non-empty range. *)
Definition ko_uniform_range (t : ity) (lo hi : Z) : outcome (Z * Z) :=
  let* h := arith_result (signed_type t) (hi - 1) in
  if lo <=? cast t h then Ok (lo, cast t h) else Undef.

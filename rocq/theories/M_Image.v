(** Model of [Gray] and [Interleaved] (boofcpp/src/boofcv/image_types.h) as values: an image carries the buffer it
    points to.  Two images that share a buffer are two records with the same [data]; see M_Heap.v for the model in
    which sharing and freeing are explicit. *)
From Verif Require Import Base.

(** ** Gray *)

(** image_types.h:20-33 (fields of ImageBase), 76-85 (data, data_length).  [data_length] is [zlen data]. *)
Record gray (A : Type) := mkGray {
  g_width : Z;
  g_height : Z;
  g_offset : Z;
  g_stride : Z;
  g_sub : bool;
  g_data : list A
}.
Arguments mkGray {A} _ _ _ _ _ _.
Arguments g_width {A} _.
Arguments g_height {A} _.
Arguments g_offset {A} _.
Arguments g_stride {A} _.
Arguments g_sub {A} _.
Arguments g_data {A} _.

(** The same image after its buffer changed to [d]. *)
Definition with_data {A} (g : gray A) (d : list A) : gray A :=
  mkGray (g_width g) (g_height g) (g_offset g) (g_stride g) (g_sub g) d.

(** image_types.h:87-95 [Gray(width,height)]; [new T[n]()] zero-initialises, the product is 32-bit. *)
Definition gray_new {A} (zero : A) (w h : Z) : gray A :=
  mkGray w h 0 w false (repeat zero (Z.to_nat (u32 (w * h)))).

(** image_types.h:100-108 constructor which wraps memory of the caller. *)
Definition gray_wrap {A} (data : list A) (w h offset stride : Z) : gray A :=
  mkGray w h offset stride true data.

(** image_types.h:127-129: one row of the initializer list is written at [ptr]. *)
Fixpoint write_row {A} (d : list A) (ptr : Z) (row : list A) : outcome (list A) :=
  match row with
  | [] => Ok d
  | y :: r => let* d' := bset d ptr y in write_row d' (ptr + 1) r
  end.

(** image_types.h:122-132: rows of the initializer list; [x.size()] is a 64-bit count. *)
Fixpoint write_rows {A} (w : Z) (d : list A) (ptr : Z) (rows : list (list A)) : outcome (list A) :=
  match rows with
  | [] => Ok d
  | x :: r =>
      if negb (zlen x =? w) then Throw
      else let* d' := write_row d ptr x in write_rows w d' (ptr + zlen x) r
  end.

(** image_types.h:110-133 [Gray({{...},{...}})]. *)
Definition gray_of_rows {A} (zero : A) (l : list (list A)) : outcome (gray A) :=
  let h := u32 (zlen l) in
  let w := if h =? 0 then 0 else match l with [] => 0 | r :: _ => u32 (zlen r) end in
  let* d := write_rows w (repeat zero (Z.to_nat (u32 (w * h)))) 0 l in
  Ok (mkGray w h 0 w false d).

(** image_types.h:150-166 [Gray::reshape].  The 32-bit product decides about reallocation. *)
Definition gray_reshape {A} (zero : A) (g : gray A) (w h : Z) : outcome (gray A) :=
  if (g_width g =? w) && (g_height g =? h) then Ok g
  else if g_sub g then Throw
  else
    let desired := u32 (w * h) in
    let d := if zlen (g_data g) <? desired then repeat zero (Z.to_nat desired) else g_data g in
    Ok (mkGray w h (g_offset g) w false d).

(** image_types.h:196-198 [Gray::index_of]; also the index expression of at/unsafe_at.  All operands are
    uint32_t, so the result is reduced modulo 2^32. *)
Definition gray_index {A} (g : gray A) (x y : Z) : Z :=
  u32 (g_offset g + y * g_stride g + x).

(** image_types.h:174-176 [Gray::unsafe_at] used as a value. *)
Definition gray_unsafe_get {A} (g : gray A) (x y : Z) : outcome A :=
  bget (g_data g) (gray_index g x y).

(** image_types.h:168-172 [Gray::at] used as a value. *)
Definition gray_get {A} (g : gray A) (x y : Z) : outcome A :=
  if (g_width g <=? x) || (g_height g <=? y) then Throw
  else bget (g_data g) (gray_index g x y).

(** image_types.h:168-172 [Gray::at] used as the target of an assignment. *)
Definition gray_set {A} (g : gray A) (x y : Z) (v : A) : outcome (gray A) :=
  if (g_width g <=? x) || (g_height g <=? y) then Throw
  else let* d := bset (g_data g) (gray_index g x y) v in Ok (with_data g d).

(** image_types.h:186 [std::memcpy] of [n] elements between separate buffers. *)
Definition copy_elems {A} (dst : list A) (di : Z) (src : list A) (si n : Z) : outcome (list A) :=
  for_range 0 n (fun i d => let* v := bget src (si + i) in bset d (di + i) v) dst.

(** image_types.h:178-188 [Gray::copy].  [src] and the destination are in separate buffers. *)
Definition gray_copy {A} (zero : A) (dst src : gray A) : outcome (gray A) :=
  if g_sub dst && (negb (g_width dst =? g_width src) || negb (g_height dst =? g_height src)) then Throw
  else
    let* g := gray_reshape zero dst (g_width src) (g_height src) in
    let* d := for_range 0 (g_height g)
                (fun y d => copy_elems d (u32 (g_offset g + y * g_stride g))
                              (g_data src) (u32 (g_offset src + y * g_stride src)) (g_width src))
                (g_data g) in
    Ok (with_data g d).

(** image_types.h:190-194 [Gray::makeSubimage]. *)
Definition gray_subimage {A} (g : gray A) (x0 y0 x1 y1 : Z) : outcome (gray A) :=
  if (g_width g <? x1) || (g_height g <? y1) || (x1 <? x0) || (y1 <? y0) then Throw
  else Ok (mkGray (u32 (x1 - x0)) (u32 (y1 - y0)) (u32 (g_offset g + y0 * g_stride g + x0)) (g_stride g) true
             (g_data g)).

(** image_types.h:200-216 [Gray::operator=] ([other] is a different object in a separate buffer, unless it is a
    sub-image, whose buffer is shared afterwards). *)
Definition gray_assign {A} (zero : A) (this other : gray A) : outcome (gray A) :=
  if g_sub other then Ok (mkGray (g_width other) (g_height other) (g_offset other) (g_stride other) true (g_data other))
  else gray_copy zero this other.

(** image_types.h:38-40 [ImageBase::total_pixels]. *)
Definition gray_total_pixels {A} (g : gray A) : Z := u32 (g_width g * g_height g).

(** image_types.h:42-44 [ImageBase::getWidth]. *)
Definition gray_getWidth {A} (g : gray A) : Z := g_width g.

(** image_types.h:46-48 [ImageBase::getHeight]: it returns [width]. *)
Definition gray_getHeight {A} (g : gray A) : Z := g_width g.

(** image_types.h:60-62 [ImageBase::isInBounds]. *)
Definition gray_isInBounds {A} (g : gray A) (x y : Z) : bool :=
  (x <? g_width g) && (y <? g_height g).

(** sanity_checks.cpp:9-12 [checkSameShape(a,b)]. *)
Definition checkSameShape {A B} (a : gray A) (b : gray B) : outcome unit :=
  if negb (g_width a =? g_width b) || negb (g_height a =? g_height b) then Throw else Ok tt.

(** sanity_checks.cpp:14-19 [checkSameShape(a,b,c)]. *)
Definition checkSameShape3 {A B C} (a : gray A) (b : gray B) (c : gray C) : outcome unit :=
  if negb (g_width a =? g_width b) || negb (g_height a =? g_height b) then Throw
  else if negb (g_width a =? g_width c) || negb (g_height a =? g_height c) then Throw
  else Ok tt.

(** ** Interleaved *)

(** image_types.h:328-336. *)
Record inter (A : Type) := mkInter {
  i_width : Z;
  i_height : Z;
  i_bands : Z;
  i_offset : Z;
  i_stride : Z;
  i_sub : bool;
  i_data : list A
}.
Arguments mkInter {A} _ _ _ _ _ _ _.
Arguments i_width {A} _.
Arguments i_height {A} _.
Arguments i_bands {A} _.
Arguments i_offset {A} _.
Arguments i_stride {A} _.
Arguments i_sub {A} _.
Arguments i_data {A} _.

(** The same image after its buffer changed to [d]. *)
Definition i_with_data {A} (g : inter A) (d : list A) : inter A :=
  mkInter (i_width g) (i_height g) (i_bands g) (i_offset g) (i_stride g) (i_sub g) d.

(** image_types.h:338-347 [Interleaved(width,height,num_bands)]. *)
Definition inter_new {A} (zero : A) (w h b : Z) : inter A :=
  mkInter w h b 0 (u32 (w * b)) false (repeat zero (Z.to_nat (u32 (w * h * b)))).

(** image_types.h:352-361 constructor which wraps memory of the caller. *)
Definition inter_wrap {A} (data : list A) (w h b offset stride : Z) : inter A :=
  mkInter w h b offset stride true data.

(** image_types.h:379-400 [Interleaved::reshape(width,height,bands)]. *)
Definition inter_reshape3 {A} (zero : A) (g : inter A) (w h b : Z) : outcome (inter A) :=
  if (i_width g =? w) && (i_height g =? h) && (i_bands g =? b) then Ok g
  else if i_sub g then Throw
  else
    let n := u32 (w * h * b) in
    let d := if zlen (i_data g) <? n then repeat zero (Z.to_nat n) else i_data g in
    Ok (mkInter w h b (i_offset g) (u32 (w * b)) false d).

(** image_types.h:402-418 [Interleaved::reshape(width,height)]. *)
Definition inter_reshape {A} (zero : A) (g : inter A) (w h : Z) : outcome (inter A) :=
  if (i_width g =? w) && (i_height g =? h) then Ok g
  else if i_sub g then Throw
  else
    let n := u32 (w * h * i_bands g) in
    let d := if zlen (i_data g) <? n then repeat zero (Z.to_nat n) else i_data g in
    Ok (mkInter w h (i_bands g) (i_offset g) (u32 (w * i_bands g)) false d).

(** image_types.h:430-447 [Interleaved::setNumberOfBands]. *)
Definition inter_set_bands {A} (zero : A) (g : inter A) (b : Z) : outcome (inter A) :=
  if i_bands g =? b then Ok g
  else if i_sub g then Throw
  else
    let n := u32 (i_width g * i_height g * b) in
    let d := if zlen (i_data g) <? n then repeat zero (Z.to_nat n) else i_data g in
    Ok (mkInter (i_width g) (i_height g) b (i_offset g) (u32 (i_width g * b)) false d).

(** image_types.h:473-475 [Interleaved::index_of]; also the index expression of at/unsafe_at. *)
Definition inter_index {A} (g : inter A) (x y b : Z) : Z :=
  u32 (i_offset g + y * i_stride g + x * i_bands g + b).

(** image_types.h:420-424 [Interleaved::at] used as a value.  The band is not checked. *)
Definition inter_get {A} (g : inter A) (x y b : Z) : outcome A :=
  if (i_width g <=? x) || (i_height g <=? y) then Throw
  else bget (i_data g) (inter_index g x y b).

(** image_types.h:420-424 [Interleaved::at] as the target of an assignment. *)
Definition inter_set {A} (g : inter A) (x y b : Z) (v : A) : outcome (inter A) :=
  if (i_width g <=? x) || (i_height g <=? y) then Throw
  else let* d := bset (i_data g) (inter_index g x y b) v in Ok (i_with_data g d).

(** image_types.h:463-471 [Interleaved::makeSubimage]. *)
Definition inter_subimage {A} (g : inter A) (x0 y0 x1 y1 : Z) : outcome (inter A) :=
  if (x1 <? x0) || (y1 <? y0) then Throw
  else if (i_width g <? x1) || (i_height g <? y1) then Throw
  else Ok (mkInter (u32 (x1 - x0)) (u32 (y1 - y0)) (i_bands g)
             (u32 (i_offset g + y0 * i_stride g + x0 * i_bands g)) (i_stride g) true (i_data g)).

(** The low [r] bytes of element [d] of type [t] are replaced by those of [s] (little endian). *)
Definition mix_bytes (t : ity) (r : Z) (d s : Z) : Z :=
  cast t ((d / 256 ^ r) * 256 ^ r + s mod 256 ^ r).

(** image_types.h:459 [memcpy(dst+di, src+si, nbytes)] where the pointers are of type T* for an integer type [t]:
    [nbytes / sizeof(T)] whole elements and the low [nbytes mod sizeof(T)] bytes of the next one. *)
Definition memcpy_bytes (t : ity) (dst : list Z) (di : Z) (src : list Z) (si nbytes : Z) : outcome (list Z) :=
  let q := nbytes / ity_size t in
  let r := nbytes mod ity_size t in
  let* d := copy_elems dst di src si q in
  if r =? 0 then Ok d
  else
    let* s := bget src (si + q) in
    let* o := bget d (di + q) in
    bset d (di + q) (mix_bytes t r o s).

(** image_types.h:449-461 [Interleaved::setTo]; separate buffers.  The byte count lacks [sizeof(T)];
    [data+offset+y*stride] is pointer arithmetic, only the product is 32-bit. *)
Definition inter_setTo (t : ity) (dst src : inter Z) : outcome (inter Z) :=
  if i_sub dst && (negb (i_width dst =? i_width src) || negb (i_height dst =? i_height src)
                   || negb (i_bands dst =? i_bands src)) then Throw
  else
    let* g1 := inter_set_bands 0 dst (i_bands src) in
    let* g := inter_reshape 0 g1 (i_width src) (i_height src) in
    let* d := for_range 0 (i_height g)
                (fun y d => memcpy_bytes t d (i_offset g + u32 (y * i_stride g))
                              (i_data src) (i_offset src + u32 (y * i_stride src))
                              (u32 (i_width src * i_bands g)))
                (i_data g) in
    Ok (i_with_data g d).

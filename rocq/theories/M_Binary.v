(** Model of boofcpp/src/boofcv/binary_ops.cpp:8-85 and of ThresholdOps::threshold (binary_ops.h:136-159).  No proofs. *)
From Verif Require Import Base M_Image M_Heap.

(** sanity_checks.cpp:9-12 [checkSameShape(a,b)] for objects in the heap. *)
Definition h_checkSameShape (a b : himg) : outcome unit :=
  if negb (h_width a =? h_width b) || negb (h_height a =? h_height b) then Throw else Ok tt.

(** binary_ops.cpp:11-22, 28-39: after the check, reshape the output and combine pixel by pixel.  [op] receives the two
    reads unevaluated since && and || skip the second one.  [int end] is converted back to unsigned in the comparison. *)
Definition h_pixelwise (op : outcome Z -> outcome Z -> outcome Z) (H : heap Z) (a b out : himg) : outcome (heap Z * himg) :=
  let* '(H1, o) := h_reshape 0 H out (h_width a) (h_height a) in
  let* H2 := for_range 0 (h_height a) (fun y H =>
    let indexA := u32 (h_offset a + y * h_stride a) in
    let indexB := u32 (h_offset b + y * h_stride b) in
    let indexOut := u32 (h_offset o + y * h_stride o) in
    for_range indexA (u32 (indexA + h_width a)) (fun i H =>
      let* v := op (hread H (h_block a) i) (hread H (h_block b) (u32 (indexB + (i - indexA)))) in
      hwrite H (h_block o) (u32 (indexOut + (i - indexA))) v) H) H1 in
  Ok (H2, o).

(** [static_cast<U8>(x && y)] (binary_ops.cpp:20). *)
Definition op_and (x y : outcome Z) : outcome Z :=
  let* a := x in if a =? 0 then Ok 0 else let* b := y in Ok (if b =? 0 then 0 else 1).
(** [static_cast<U8>(x || y)] (binary_ops.cpp:37). *)
Definition op_or (x y : outcome Z) : outcome Z :=
  let* a := x in if a =? 0 then let* b := y in Ok (if b =? 0 then 0 else 1) else Ok 1.

(** binary_ops.cpp:8-23 [logicAnd]. *)
Definition logicAnd (H : heap Z) (a b out : himg) : outcome (heap Z * himg) :=
  let* _ := h_checkSameShape a b in h_pixelwise op_and H a b out.
(** binary_ops.cpp:25-40 [logicOr]. *)
Definition logicOr (H : heap Z) (a b out : himg) : outcome (heap Z * himg) :=
  let* _ := h_checkSameShape a b in h_pixelwise op_or H a b out.

(** binary_ops.cpp:42-85: the loops of [erode4] and [dilate4].  [const int h], [const int w] are converted back to
    unsigned where they are used; [test] decides about the sum of the five pixels. *)
Definition morph4 (test : Z -> bool) (g out : gray Z) : outcome (gray Z) :=
  let* o := gray_reshape 0 out (g_width g) (g_height g) in
  let h := s32 (u32 (g_height g - 1)) in
  let w := s32 (u32 (g_width g - 2)) in
  let* d := for_range 1 (u32 h) (fun y d =>
    let indexIn := u32 (g_offset g + y * g_stride g + 1) in
    let indexOut := u32 (g_offset o + y * g_stride o + 1) in
    for_range indexIn (u32 (indexIn + w)) (fun i d =>
      let* c := bget (g_data g) i in
      let* l := bget (g_data g) (u32 (i - 1)) in
      let* r := bget (g_data g) (u32 (i + 1)) in
      let* u := bget (g_data g) (u32 (i - g_stride g)) in
      let* b := bget (g_data g) (u32 (i + g_stride g)) in
      bset d (u32 (indexOut + (i - indexIn))) (if test (c + l + r + u + b) then 1 else 0)) d) (g_data o) in
  Ok (with_data o d).

(** binary_ops.cpp:42-62 [erode4]. *)
Definition erode4 (g out : gray Z) : outcome (gray Z) := morph4 (fun s => s =? 5) g out.
(** binary_ops.cpp:64-85 [dilate4]. *)
Definition dilate4 (g out : gray Z) : outcome (gray Z) := morph4 (fun s => 0 <? s) g out.

(** binary_ops.h:136-159 [ThresholdOps::threshold]; input and output in separate buffers.  [le] and [gt]
    are the comparisons of the pixel type. *)
Definition threshold {E} (le : E -> E -> bool) (gt : E -> E -> bool) (g : gray E) (t : E) (down : bool) (out : gray Z)
  : outcome (gray Z) :=
  let* o := gray_reshape 0 out (g_width g) (g_height g) in
  let* d := for_range 0 (g_height g) (fun y d =>
    let ip := u32 (g_offset g + y * g_stride g) in
    let op := u32 (g_offset o + y * g_stride o) in
    for_range 0 (g_width g) (fun i d =>
      let* v := bget (g_data g) (ip + i) in
      bset d (op + i) (if (if down then le v t else gt v t) then 1 else 0)) d) (g_data o) in
  Ok (with_data o d).

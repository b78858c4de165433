(** Model of convolution for images that may share memory: every read of the input happens when the C++ code does it,
    after the writes made so far.  The loops are those of M_Convolve.v.  No proofs. *)
From Verif Require Import Base M_Image M_Border M_Convolve M_Heap M_Shared.

(** The total of one output pixel from the input as it is now, stored at index [j], e.g. convolve.h:614-620, 682-687. *)
Definition h_put {Px S} (A : arith Px S Px) (a o : himg) (j : Z) (total : gray Px -> outcome S) (H : heap Px) : outcome (heap Px) :=
  let* g := h_image H a in
  let* s := total g in
  let* r := a_out A s in
  hwrite H (h_block o) j r.
(** The same, stored with [at], e.g. convolve.h:33-38. *)
Definition h_put_at {Px S} (A : arith Px S Px) (a o : himg) (x y : Z) (total : gray Px -> outcome S) (H : heap Px) : outcome (heap Px) :=
  let* g := h_image H a in
  let* s := total g in
  let* r := a_out A s in
  h_set H o x y r.

(** convolve.h:24-81 [ConvolveNaive::horizontal]. *)
Definition h_naive_h {Px S} (A : arith Px S Px) (K : kernel S) (b : border Px) (a o : himg) (H : heap Px) : outcome (heap Px) :=
  for_range 0 (h_height a) (fun y =>
    for_range 0 (h_width a) (fun x =>
      h_put_at A a o x y (fun g =>
        acc1 A (k_width K) (k1_at K) (fun k => border_get b g (s32 (u32 (x - k_offset K + k))) (s32 y))))) H.

(** convolve.h:83-140 [ConvolveNaive::vertical]. *)
Definition h_naive_v {Px S} (A : arith Px S Px) (K : kernel S) (b : border Px) (a o : himg) (H : heap Px) : outcome (heap Px) :=
  for_range 0 (h_height a) (fun y =>
    for_range 0 (h_width a) (fun x =>
      h_put_at A a o x y (fun g =>
        acc1 A (k_width K) (k1_at K) (fun k => border_get b g (s32 x) (s32 (u32 (y - k_offset K + k))))))) H.

(** convolve.h:142-210 [ConvolveNaive::convolve]. *)
Definition h_naive_2 {Px S} (A : arith Px S Px) (K : kernel S) (b : border Px) (a o : himg) (H : heap Px) : outcome (heap Px) :=
  for_range 0 (h_height a) (fun y =>
    for_range 0 (h_width a) (fun x =>
      h_put_at A a o x y (fun g =>
        acc2 A (k_width K) (fun k l => k2_at K l k)
          (fun k l => border_get b g (s32 (u32 (x - k_offset K + l))) (s32 (u32 (y - k_offset K + k))))))) H.

(** convolve.h:595-622 and 665-689 [ConvolveImage_Inner::horizontal]. *)
Definition h_inner_h {Px S} (A : arith Px S Px) (K : kernel S) (a o : himg) (H : heap Px) : outcome (heap Px) :=
  for_range 0 (h_height a) (fun i =>
    let op := u32 (h_offset o + i * h_stride o + k_offset K) in
    let ip := u32 (h_offset a + i * h_stride a) in
    for_range 0 (u32 (h_width a - (k_width K - 1))) (fun j =>
      h_put A a o (op + j) (fun g => acc1 A (k_width K) (k_raw K) (fun k => bget (g_data g) (ip + j + k))))) H.

(** convolve.h:707-738 and 783-811 [ConvolveImage_Inner::vertical]. *)
Definition h_inner_v {Px S} (A : arith Px S Px) (K : kernel S) (a o : himg) (H : heap Px) : outcome (heap Px) :=
  let yEnd := s32 (u32 (h_height a - (k_width K - k_offset K - 1))) in
  for_range (s32 (k_offset K)) yEnd (fun y =>
    let op := u32 (h_offset o + y * h_stride o) in
    let ip := u32 (h_offset a + u32 (y - k_offset K) * h_stride a) in
    for_range 0 (h_width a) (fun i =>
      h_put A a o (op + i) (fun g => acc1 A (k_width K) (k_raw K) (fun k => bget (g_data g) (ip + i + k * h_stride a))))) H.

(** convolve.h:813-895 [ConvolveImage_Inner::convolve]. *)
Definition h_inner_2 {Px S} (A : arith Px S Px) (K : kernel S) (a o : himg) (H : heap Px) : outcome (heap Px) :=
  let offL := k_offset K in
  let offR := u32 (k_width K - k_offset K - 1) in
  for_range offL (u32 (h_height a - offR)) (fun y =>
    let dst := u32 (h_offset o + y * h_stride o + offL) in
    for_range offL (u32 (h_width a - offR)) (fun x =>
      h_put A a o (u32 (dst + (x - offL))) (fun g =>
        acc2 A (k_width K) (fun ki kj => k_raw K (ki * k_width K + kj))
          (fun ki kj => bget (g_data g) (u32 (h_offset a + u32 (y + ki - offL) * h_stride a + x - offL) + kj))))) H.

(** convolve.h:904-938 [ConvolveImage_Border::horizontal]. *)
Definition h_border_h {Px S} (A : arith Px S Px) (K : kernel S) (b : border Px) (a o : himg) (H : heap Px) : outcome (heap Px) :=
  let offset := s32 (k_offset K) in
  let borderRight := s32 (u32 (k_width K - offset - 1)) in
  for_range 0 (h_height o) (fun y H =>
    let op := u32 (h_offset o + y * h_stride o) in
    let* H := for_range 0 offset (fun x =>
      h_put A a o (op + x) (fun g =>
        acc1 A (k_width K) (k_raw K) (fun k => let* xx := coord x k offset in border_get b g xx (s32 y)))) H in
    let x0 := u32 (h_width o - borderRight) in
    let op := u32 (h_offset o + y * h_stride o + h_width o - borderRight) in
    for_range x0 (h_width o) (fun x =>
      h_put A a o (op + (x - x0)) (fun g =>
        let* xx := arith_result S32 (x - offset) in
        acc1 A (k_width K) (k_raw K) (fun k => border_get b g (s32 (u32 (xx + k))) (s32 y)))) H) H.

(** convolve.h:940-971 [ConvolveImage_Border::vertical]. *)
Definition h_border_v {Px S} (A : arith Px S Px) (K : kernel S) (b : border Px) (a o : himg) (H : heap Px) : outcome (heap Px) :=
  let borderBottom := s32 (u32 (k_width K - k_offset K - 1)) in
  for_range 0 (h_width o) (fun x H =>
    let dst := u32 (h_offset o + x) in
    let* H := for_range 0 (k_offset K) (fun y =>
      h_put A a o (u32 (dst + y * h_stride o)) (fun g =>
        acc1 A (k_width K) (k_raw K) (fun k => border_get b g (s32 x) (s32 (u32 (y + k - k_offset K)))))) H in
    let y0 := u32 (h_height o - borderBottom) in
    let dst := u32 (h_offset o + y0 * h_stride o + x) in
    for_range y0 (h_height o) (fun y =>
      h_put A a o (u32 (dst + (y - y0) * h_stride o)) (fun g =>
        acc1 A (k_width K) (k_raw K) (fun k => border_get b g (s32 x) (s32 (u32 (y + k - k_offset K)))))) H) H.

(** convolve.h:973-1040 [ConvolveImage_Border::convolve]. *)
Definition h_border_2 {Px S} (A : arith Px S Px) (K : kernel S) (b : border Px) (a o : himg) (H : heap Px) : outcome (heap Px) :=
  let offL := s32 (k_offset K) in
  let offR := s32 (u32 (k_width K - offL - 1)) in
  let n := offL + offR + 1 in
  let* H := for_range 0 (h_height o) (fun y H =>
    let dst := u32 (h_offset o + y * h_stride o) in
    let* H := for_range 0 offL (fun x =>
      h_put A a o (u32 (dst + x)) (fun g => border_total2 A K b g offL n x y)) H in
    let x0 := u32 (h_width o - offR) in
    let dst := u32 (h_offset o + y * h_stride o + h_width o - offR) in
    for_range x0 (h_width o) (fun x =>
      h_put A a o (u32 (dst + (x - x0))) (fun g => border_total2 A K b g offL n x y)) H) H in
  for_range offL (u32 (h_width o - offR)) (fun x H =>
    let dst := u32 (h_offset o + x) in
    let* H := for_range 0 offL (fun y =>
      h_put A a o (u32 (dst + y * h_stride o)) (fun g => border_total2 A K b g offL n x y)) H in
    let y0 := u32 (h_height o - offR) in
    let dst := u32 (h_offset o + y0 * h_stride o + x) in
    for_range y0 (h_height o) (fun y =>
      h_put A a o (u32 (dst + (y - y0) * h_stride o)) (fun g => border_total2 A K b g offL n x y)) H) H.

(** convolve.h:1047-1059 [ConvolveImage::horizontal]. *)
Definition h_convolve_h {Px S} (A : arith Px S Px) (t0 : Px) (K : kernel S) (b : border Px) (H : heap Px) (a out : himg) : outcome (heap Px * himg) :=
  let* '(H, o) := h_reshape t0 H out (h_width a) (h_height a) in
  let* H := if h_width o <=? k_width K then h_naive_h A K b a o H
            else let* H := h_inner_h A K a o H in h_border_h A K b a o H in
  Ok (H, o).

(** convolve.h:1061-1073 [ConvolveImage::vertical]. *)
Definition h_convolve_v {Px S} (A : arith Px S Px) (t0 : Px) (K : kernel S) (b : border Px) (H : heap Px) (a out : himg) : outcome (heap Px * himg) :=
  let* '(H, o) := h_reshape t0 H out (h_width a) (h_height a) in
  let* H := if h_height o <=? k_width K then h_naive_v A K b a o H
            else let* H := h_inner_v A K a o H in h_border_v A K b a o H in
  Ok (H, o).

(** convolve.h:1075-1087 [ConvolveImage::convolve]. *)
Definition h_convolve_2 {Px S} (A : arith Px S Px) (t0 : Px) (K : kernel S) (b : border Px) (H : heap Px) (a out : himg) : outcome (heap Px * himg) :=
  let* '(H, o) := h_reshape t0 H out (h_width a) (h_height a) in
  let* H := if (h_width o <=? k_width K) || (h_height o <=? k_width K) then h_naive_2 A K b a o H
            else let* H := h_inner_2 A K a o H in h_border_2 A K b a o H in
  Ok (H, o).

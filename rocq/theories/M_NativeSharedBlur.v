(** Model of blurring called from Java when input and output may lie in the same Java array.  The storage has an array of its
    own; calls that share it are not modelled.  See M_NativeShared.v.  No proofs. *)
From Verif Require Import Base M_Image M_Convolve M_Normalized M_Blur M_Otsu M_Kernel M_Heap M_Shared M_Native M_NativeBlur M_NativeShared.

(** image_blur.h:240-251 [BlurImageOps::gaussian] with the kernel of convolve_kernels.h:309-365; see [gaussian_blur]. *)
Definition h_gaussian {D} (O : dops D) (ex : D -> D) (ce : D -> option Z) (sigma : D) (width : Z) (H : heap Z) (a out : himg)
    (storage : gray Z) : outcome (heap Z * himg * gray Z) :=
  let* '(H, o) := h_reshape 0 H out (h_width a) (h_height a) in
  let* w := gray_reshape 0 storage (h_width a) (h_height a) in
  let* K := gaussian1D_int O ex ce (signed_type U8) sigma width in
  let* g := h_image H a in
  let* w' := normalized_h (int_narith U8) K g w in
  let* go := h_image H o in
  let* o' := normalized_v (int_narith U8) K w' go in
  Ok (upd H (h_block o) (Some (g_data o')), o, w').

(** NativeImageBlurOps.cpp:8-30 [nativeMean] and 46-70 [nativeGaussian] for 8 bit images, as in [native_blur]. *)
Definition s_native_blur (din dout pinned : bool) (f : heap Z -> himg -> himg -> gray Z -> outcome (heap Z * himg * gray Z)) (J : jvm)
    (inp out storage : jimage) : outcome jvm :=
  uncaught (
    let* i := j_wrap J inp in
    let* o := j_wrap J out in
    let* s := j_wrap J storage in
    let* '(J, i) := j_get JByte J inp i in
    let* '(J, o) := j_get JByte J out o in
    let* '(J, s) := j_get JByte J storage s in
    let one := din && dout && (ji_array inp =? ji_array out) in
    let H := if one then [Some (g_data o)] else [Some (g_data o); Some (g_data i)] in
    let hi := s_object i (if one then 0 else 1)%nat in
    let ho := s_object o 0 in
    let* '(H, _, s) := f H hi ho s in
    let* di := s_block H (h_block hi) in
    let* dd := s_block H (h_block ho) in
    let* J := s_abort din J inp di in
    let* J := j_commit JByte J out dd in
    j_scratch pinned J storage (g_data s)).

(** NativeImageBlurOps.java:18-29 [processMean] and 33-44 [processGaussian]. *)
Definition s_java_blur (din dout pinned : bool) (f : heap Z -> himg -> himg -> gray Z -> outcome (heap Z * himg * gray Z)) (J : jvm)
    (inp out : jimage) (storage : option jimage) : outcome (jvm * jimage * jimage) :=
  let* '(J, out) := j_reshape J out (ji_width inp) (ji_height inp) in
  let* '(J, storage) := j_declare J storage (ji_width inp) (ji_height inp) in
  let* J := s_native_blur din dout pinned f J inp out storage in
  Ok (J, out, storage).

(** NativeImageBlurOps.cpp:24. *)
Definition s_java_mean (din dout pinned : bool) (radius : Z) :=
  s_java_blur din dout pinned (h_blur_mean (int_narith U8) (int_marith U8) 0 1 (u32 radius)).

(** NativeImageBlurOps.cpp:53, 64. *)
Definition s_java_gaussian {D} (O : dops D) (ex : D -> D) (ce : D -> option Z) (din dout pinned : bool) (sigma : D) (radius : Z) :=
  s_java_blur din dout pinned (fun H a o s =>
    let* width := if 0 <? radius then let* d := arith_result S32 (2 * radius) in arith_result S32 (d + 1) else Ok (-1) in
    h_gaussian O ex ce sigma width H a o s).

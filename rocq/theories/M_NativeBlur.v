(** Model of blurring and normalized convolution called from Java (NativeImageBlurOps, NativeImageConvolveNormalized) for images
    with 8 bits.  See M_Native.v for the virtual machine.  No proofs. *)
From Verif Require Import Base M_Image M_Convolve M_Normalized M_Blur M_Otsu M_Kernel M_Native.

(** [InputSanityCheck.checkDeclare] of BoofCV (called at NativeImageBlurOps.java:23, 38): without an image a new one is made,
    another one is reshaped. *)
Definition j_declare (J : jvm) (im : option jimage) (w h : Z) : outcome (jvm * jimage) :=
  match im with
  | Some im => j_reshape J im w h
  | None => Ok (mkJvm (jv_arrays J ++ [repeat 0 (Z.to_nat (w * h))]) (jv_held J), mkJimage w h 0 w false (zlen (jv_arrays J)))
  end.

(** [ReleasePrimitiveArrayCritical] with JNI_ABORT of an array that was written (NativeImageBlurOps.cpp:28, 68): the elements are
    changed if the virtual machine handed out the array itself ([pinned]) and not if it handed out a copy. *)
Definition j_scratch (pinned : bool) (J : jvm) (im : jimage) (d : list Z) : outcome jvm :=
  if pinned then j_commit JByte J im d else j_abort J im.

(** NativeImageBlurOps.cpp:8-30 [nativeMean] and 46-70 [nativeGaussian] for 8 bit images; [f] is the function of BlurImageOps.
    Nothing is caught. *)
Definition native_blur (pinned : bool) (f : gray Z -> gray Z -> gray Z -> outcome (gray Z * gray Z)) (J : jvm)
    (inp out storage : jimage) : outcome jvm :=
  uncaught (
    let* i := j_wrap J inp in
    let* o := j_wrap J out in
    let* s := j_wrap J storage in
    let* '(J, i) := j_get JByte J inp i in
    let* '(J, o) := j_get JByte J out o in
    let* '(J, s) := j_get JByte J storage s in
    let* '(o, s) := f i o s in
    let* J := j_abort J inp in
    let* J := j_commit JByte J out (g_data o) in
    j_scratch pinned J storage (g_data s)).

(** NativeImageBlurOps.java:18-29 [processMean] and 33-44 [processGaussian]: the virtual machine, the output and the storage
    afterwards. *)
Definition java_blur (pinned : bool) (f : gray Z -> gray Z -> gray Z -> outcome (gray Z * gray Z)) (J : jvm)
    (inp out : jimage) (storage : option jimage) : outcome (jvm * jimage * jimage) :=
  let* '(J, out) := j_reshape J out (ji_width inp) (ji_height inp) in
  let* '(J, storage) := j_declare J storage (ji_width inp) (ji_height inp) in
  let* J := native_blur pinned f J inp out storage in
  Ok (J, out, storage).

(** NativeImageBlurOps.cpp:24: mean with the radius converted to uint32_t. *)
Definition java_mean (pinned : bool) (radius : Z) :=
  java_blur pinned (blur_mean (int_narith U8) (int_marith U8) 0 1 (u32 radius)).

(** NativeImageBlurOps.cpp:53, 64: the width is computed in int; Gaussian blur.  The width is computed before the images are
    looked at, which makes no difference to the outcome. *)
Definition java_gaussian {D} (O : dops D) (ex : D -> D) (ce : D -> option Z) (pinned : bool) (sigma : D) (radius : Z) :=
  java_blur pinned (fun i o s =>
    let* width := if 0 <? radius then let* d := arith_result S32 (2 * radius) in arith_result S32 (d + 1) else Ok (-1) in
    gaussian_blur O ex ce U8 sigma width i o s).

(** NativeImageConvolveNormalized.cpp:10-31 [nativehorizontal] and 46-67 [nativevertical] for 8 bit images.  The Java methods
    (NativeImageConvolveNormalized.java:19-36) only forward: the output is not reshaped. *)
Definition java_normalized (conv : kernel Z -> gray Z -> gray Z -> outcome (gray Z)) (J : jvm) (k : jkernel) (inp out : jimage)
  : outcome jvm :=
  uncaught (
    let* i := j_wrap J inp in
    let* o := j_wrap J out in
    let* K := j_kernel1 J k in
    let* '(J, i) := j_get JByte J inp i in
    let* '(J, o) := j_get JByte J out o in
    let* o := conv K i o in
    let* J := j_abort J inp in
    j_commit JByte J out (g_data o)).
(** NativeImageConvolveNormalized.cpp:10-31. *)
Definition java_normalized_h := java_normalized (normalized_h (int_narith U8)).
(** NativeImageConvolveNormalized.cpp:46-67. *)
Definition java_normalized_v := java_normalized (normalized_v (int_narith U8)).

(** Model of the calls from Java on images of floats: threshold filters, convolution, normalized convolution and mean blur (the
    branches for floating point images in the files of boofcpp-jni).  See M_Native.v for the integer images.  No proofs. *)
From Coq Require Import Floats.SpecFloat.
From Verif Require Import Base M_Image M_Border M_Convolve M_Normalized M_Blur M_Kernel M_Otsu M_Float M_Config M_Local M_Binary M_Native
  M_NativeBlur.

(** The virtual machine with its arrays of floats, which are numbered separately, and those of them that are handed out
    (NativeGlobalFixed.cpp:68).  Elements are copied as they are: a Java float is an F32. *)
Record fvm := mkFvm { fv_int : jvm; fv_floats : list (list spec_float); fv_held : list Z }.

(** A JNI function while arrays are handed out (NativeGlobalFixed.cpp:67-71). *)
Definition f_jni (V : fvm) : outcome unit := match jv_held (fv_int V), fv_held V with [], [] => Ok tt | _, _ => Undef end.

(** JNIBoofCPP.cpp:236-261, 275-277, 343-354 [wrapCriticalGrayF32]. *)
Definition f_wrap (V : fvm) (im : jimage) : outcome (gray spec_float) :=
  let* _ := f_jni V in
  let* _ := bget (fv_floats V) (ji_array im) in
  Ok (gray_wrap [] (u32 (ji_width im)) (u32 (ji_height im)) (u32 (ji_start im)) (u32 (ji_stride im))).

(** [wrapCriticalGrayU8] (JNIBoofCPP.cpp:304-315) of an image of bytes. *)
Definition f_wrap_byte (V : fvm) (im : jimage) : outcome (gray Z) :=
  let* _ := f_jni V in j_wrap (fv_int V) im.

(** [image.data = (F32* )GetPrimitiveArrayCritical(jdata)] (NativeGlobalFixed.cpp:68); see [j_get]. *)
Definition f_get (V : fvm) (im : jimage) (g : gray spec_float) : outcome (fvm * gray spec_float) :=
  let* a := bget (fv_floats V) (ji_array im) in
  Ok (mkFvm (fv_int V) (fv_floats V) (ji_array im :: fv_held V), with_data g a).

(** [ReleasePrimitiveArrayCritical] with JNI_ABORT (NativeGlobalFixed.cpp:71). *)
Definition f_abort (V : fvm) (im : jimage) : outcome fvm :=
  let* l := unhold (ji_array im) (fv_held V) in Ok (mkFvm (fv_int V) (fv_floats V) l).

(** [ReleasePrimitiveArrayCritical] with mode 0 (NativeImageConvolve.cpp:94). *)
Definition f_commit (V : fvm) (im : jimage) (d : list spec_float) : outcome fvm :=
  let* l := unhold (ji_array im) (fv_held V) in
  let* a := bset (fv_floats V) (ji_array im) d in
  Ok (mkFvm (fv_int V) a l).

(** [ImageGray.reshape] of BoofCV (called at NativeConvolveImage.java:35); see [j_reshape]. *)
Definition f_reshape (V : fvm) (im : jimage) (w h : Z) : outcome (fvm * jimage) :=
  if (ji_width im =? w) && (ji_height im =? h) then Ok (V, im)
  else if ji_sub im then Throw
  else
    let* a := bget (fv_floats V) (ji_array im) in
    if zlen a <? w * h
    then Ok (mkFvm (fv_int V) (fv_floats V ++ [repeat (S754_zero false) (Z.to_nat (w * h))]) (fv_held V),
             mkJimage w h (ji_start im) w false (zlen (fv_floats V)))
    else Ok (V, mkJimage w h (ji_start im) w false (ji_array im)).

(** ** Threshold filters *)

(** NativeGlobalFixed.cpp:42-80 [nativeprocess] for images of floats (lines 66-72); the five other files have the same body.
    See [native_filter]. *)
Definition f_native_filter {S} (f : S -> gray spec_float -> gray Z -> outcome (S * gray Z)) (after : S * list Z) (s : S) (V : fvm)
    (inp out : jimage) : outcome (S * fvm) :=
  let* o := f_wrap_byte V out in
  let* i := f_wrap V inp in
  let* '(V, i) := f_get V inp i in
  let* '(J, o) := j_get JByte (fv_int V) out o in
  match f s i o with
  | Ok (s, o) =>
      let* V := f_abort V inp in
      let* J := j_commit JByte J out (g_data o) in
      Ok (s, mkFvm J (fv_floats V) (fv_held V))
  | Throw => let* J := j_commit JByte J out (snd after) in Ok (fst after, mkFvm J (fv_floats V) (fv_held V))
  | Undef => Undef
  | OutOfFuel => OutOfFuel
  end.

(** NativeGlobalFixed.java:15-18 [process], the same in the five other classes. *)
Definition f_java_filter {S} (f : S -> gray spec_float -> gray Z -> outcome (S * gray Z)) (after : S * list Z) (s : S) (V : fvm)
    (inp out : jimage) : outcome (S * fvm * jimage) :=
  let* '(J, out) := j_reshape (fv_int V) out (ji_width inp) (ji_height inp) in
  let* '(s, V) := f_native_filter f after s (mkFvm J (fv_floats V) (fv_held V)) inp out in
  Ok (s, V, out).

(** A double converted to a float: [(float)threshold] (NativeGlobalFixed.cpp:21), the parameter [float scale]
    (binary_ops.h:272) given a double (NativeLocalMean.cpp:22). *)
Definition to_single (x : spec_float) : spec_float :=
  match x with S754_finite s m e => binary_round (f_prec F32) (f_emax F32) s m e | _ => x end.

(** NativeGlobalFixed.cpp:21 [new GlobalFixedBinaryFilter<F32>((float)threshold,down)]. *)
Definition f_fixed_new (threshold : spec_float) (down : bool) : spec_float * bool := (to_single threshold, down).

(** binary_ops.h:240-242 [GlobalFixedBinaryFilter<F32>::process]; [>] is [<] the other way round. *)
Definition f_fixed_process (s : spec_float * bool) (g : gray spec_float) (out : gray Z) : outcome ((spec_float * bool) * gray Z) :=
  let* o := threshold SFleb (fun a b => SFltb b a) g (fst s) (snd s) out in Ok (s, o).

(** JNIBoofCPP.cpp:356-365 [extractConfigLength] and NativeLocalMean.cpp:22 [new LocalMeanBinaryFilter<F32>]: the length and the
    fraction are copied, the scale becomes a float.  The storage images are empty (binary_ops.h:269-270). *)
Definition f_local_new (length fraction scale : spec_float) : clen spec_float * lcmp spec_float * (gray spec_float * gray spec_float) :=
  (mkClen length fraction, float_lcmp F32 (to_single scale),
   (gray_new (S754_zero false) 0 0, gray_new (S754_zero false) 0 0)).

(** binary_ops.h:279-281 [LocalMeanBinaryFilter<F32>::process]. *)
Definition f_local_process {D} (O : dops D) (L : lcmp spec_float) (width : clen D) (down : bool) (s : gray spec_float * gray spec_float)
    (g : gray spec_float) (out : gray Z) : outcome ((gray spec_float * gray spec_float) * gray Z) :=
  let* '(o, s) := local_mean O (float_narith F32) (float_marith F32) (S754_zero false) (mean_coefficient F32) L width down g out
    (fst s) (snd s) in
  Ok (s, o).

(** ** Convolution *)

(** Kernel1D_F32 and Kernel2D_F32 of BoofCV: the fields read at JNIBoofCPP.cpp:390-396, 432-438. *)
Record fkernel := mkFkernel { fk_width : Z; fk_offset : Z; fk_data : list spec_float }.

(** JNIBoofCPP.cpp:388-407 [extractKernel1D_F32]. *)
Definition f_kernel1 (V : fvm) (k : fkernel) : outcome (kernel spec_float) :=
  let* _ := f_jni V in
  let* K := kernel1_new (S754_zero false) (u32 (fk_width k)) (u32 (fk_offset k)) in
  Ok (mkKernel (k_width K) (k_offset K) (fk_data k)).

(** JNIBoofCPP.cpp:430-449 [extractKernel2D_F32]. *)
Definition f_kernel2 (V : fvm) (k : fkernel) : outcome (kernel spec_float) :=
  let* _ := f_jni V in
  let* K := kernel2_new (S754_zero false) (u32 (fk_width k)) (u32 (fk_offset k)) in
  Ok (mkKernel (k_width K) (k_offset K) (fk_data k)).

(** Borders as NativeConvolveImage.java:60-85 tells them apart for images of floats. *)
Inductive fborder := FValue (v : spec_float) | FLines (row column : jline) | FBorder.

(** NativeConvolveImage.java:60-85 [borderToType]: both zeros are equal to 0. *)
Definition f_border_to_type (b : fborder) : outcome Z :=
  match b with
  | FValue v => if SFeqb v (S754_zero false) then Ok 5 else Throw
  | FLines row column => border_to_type (JLines row column)
  | FBorder => Throw
  end.

(** NativeImageConvolve.cpp:78-96 [nativeHorizontal] for floating point images, 141-159 [nativeVertical], 204-222
    [nativeConvolve].  [ib], [ob]: bits of the elements of the input and of the output. *)
Definition f_native_convolve (extract : fvm -> fkernel -> outcome (kernel spec_float))
    (conv : kernel spec_float -> border spec_float -> gray spec_float -> gray spec_float -> outcome (gray spec_float)) (ib ob : Z)
    (V : fvm) (k : fkernel) (inp out : jimage) (border : Z) : outcome fvm :=
  uncaught (
    let* _ := f_jni V in
    let* bt := border_java border in
    let* _ := if (ib =? 32) && (ob =? 32) then Ok tt else Throw in
    let* i := f_wrap V inp in
    let* o := f_wrap V out in
    let* K := extract V k in
    let* b := create_SB (S754_zero false) bt in
    let* '(V, i) := f_get V inp i in
    let* '(V, o) := f_get V out o in
    let* o := conv K b i o in
    let* V := f_abort V inp in
    f_commit V out (g_data o)).

(** NativeConvolveImage.java:19-52: [convolve], [horizontal], [vertical] for floating point input. *)
Definition f_java_convolve (extract : fvm -> fkernel -> outcome (kernel spec_float))
    (conv : kernel spec_float -> border spec_float -> gray spec_float -> gray spec_float -> outcome (gray spec_float)) (ib ob : Z)
    (V : fvm) (k : fkernel) (inp out : jimage) (border : fborder) : outcome (fvm * jimage) :=
  let* '(V, out) := f_reshape V out (ji_width inp) (ji_height inp) in
  let* t := f_border_to_type border in
  let* V := f_native_convolve extract conv ib ob V k inp out t in
  Ok (V, out).

(** NativeImageConvolve.cpp:78-96. *)
Definition f_java_horizontal := f_java_convolve f_kernel1 (convolve_h (float_arith F32) (S754_zero false)).
(** NativeImageConvolve.cpp:141-159. *)
Definition f_java_vertical := f_java_convolve f_kernel1 (convolve_v (float_arith F32) (S754_zero false)).
(** NativeImageConvolve.cpp:204-222. *)
Definition f_java_convolve2 := f_java_convolve f_kernel2 (convolve_2 (float_arith F32) (S754_zero false)).

(** ** Normalized convolution and blur *)

(** NativeImageConvolveNormalized.cpp:30-43 [nativehorizontal] and 66-79 [nativevertical] for floating point images; see
    [java_normalized]. *)
Definition f_java_normalized (conv : kernel spec_float -> gray spec_float -> gray spec_float -> outcome (gray spec_float)) (V : fvm)
    (k : fkernel) (inp out : jimage) : outcome fvm :=
  uncaught (
    let* i := f_wrap V inp in
    let* o := f_wrap V out in
    let* K := f_kernel1 V k in
    let* '(V, i) := f_get V inp i in
    let* '(V, o) := f_get V out o in
    let* o := conv K i o in
    let* V := f_abort V inp in
    f_commit V out (g_data o)).
(** NativeImageConvolveNormalized.cpp:30-43. *)
Definition f_java_normalized_h := f_java_normalized (normalized_h (float_narith F32)).
(** NativeImageConvolveNormalized.cpp:66-79. *)
Definition f_java_normalized_v := f_java_normalized (normalized_v (float_narith F32)).

(** [InputSanityCheck.checkDeclare] of BoofCV (called at NativeImageBlurOps.java:23, 38); see [j_declare]. *)
Definition f_declare (V : fvm) (im : option jimage) (w h : Z) : outcome (fvm * jimage) :=
  match im with
  | Some im => f_reshape V im w h
  | None => Ok (mkFvm (fv_int V) (fv_floats V ++ [repeat (S754_zero false) (Z.to_nat (w * h))]) (fv_held V),
                mkJimage w h 0 w false (zlen (fv_floats V)))
  end.

(** [ReleasePrimitiveArrayCritical] with JNI_ABORT of an array that was written (NativeImageBlurOps.cpp:42); see [j_scratch]. *)
Definition f_scratch (pinned : bool) (V : fvm) (im : jimage) (d : list spec_float) : outcome fvm :=
  if pinned then f_commit V im d else f_abort V im.

(** NativeImageBlurOps.cpp:29-43 [nativeMean] and 69-83 [nativeGaussian] for floating point images; see [native_blur]. *)
Definition f_native_blur (pinned : bool)
    (f : gray spec_float -> gray spec_float -> gray spec_float -> outcome (gray spec_float * gray spec_float)) (V : fvm)
    (inp out storage : jimage) : outcome fvm :=
  uncaught (
    let* i := f_wrap V inp in
    let* o := f_wrap V out in
    let* s := f_wrap V storage in
    let* '(V, i) := f_get V inp i in
    let* '(V, o) := f_get V out o in
    let* '(V, s) := f_get V storage s in
    let* '(o, s) := f i o s in
    let* V := f_abort V inp in
    let* V := f_commit V out (g_data o) in
    f_scratch pinned V storage (g_data s)).

(** NativeImageBlurOps.java:18-28 [processMean] and 33-43 [processGaussian]. *)
Definition f_java_blur (pinned : bool)
    (f : gray spec_float -> gray spec_float -> gray spec_float -> outcome (gray spec_float * gray spec_float)) (V : fvm)
    (inp out : jimage) (storage : option jimage) : outcome (fvm * jimage * jimage) :=
  let* '(V, out) := f_reshape V out (ji_width inp) (ji_height inp) in
  let* '(V, storage) := f_declare V storage (ji_width inp) (ji_height inp) in
  let* V := f_native_blur pinned f V inp out storage in
  Ok (V, out, storage).

(** NativeImageBlurOps.cpp:38: mean with the radius converted to uint32_t; the width of the kernel is computed in uint32_t
    (image_blur.h:189-203). *)
Definition f_java_mean (pinned : bool) (radius : Z) :=
  f_java_blur pinned (blur_mean (float_narith F32) (float_marith F32) (S754_zero false) (mean_coefficient F32 (u32 (u32 radius * 2 + 1)))
    (u32 radius)).

(** NativeImageBlurOps.cpp:53, 78: Gaussian blur, for the kernel [K] that convolve_kernels.h:309-329 makes for the width. *)
Definition f_java_gaussian (pinned : bool) (K : kernel spec_float) :=
  f_java_blur pinned (blur_gaussian (float_narith F32) (S754_zero false) K).

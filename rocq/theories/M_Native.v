(** Model of the calls from Java: images and arrays of the virtual machine, the threshold filters (NativeGlobalFixed.cpp and
    the five files built the same way), convolution (NativeImageConvolve.cpp), contours (NativeChang2004.cpp), and the life of
    the objects behind them.  Java's image, kernel and enum classes are not in the repository; what is used of them is stated
    where it is used.  Looking up classes, fields and methods always succeeds.  No proofs. *)
From Verif Require Import Base M_Image M_Border M_Convolve M_Normalized M_Blur M_Kernel M_Otsu M_Config M_Local M_Binary M_PackedSet
  M_Contour M_Jni.

(** ** The virtual machine *)

(** Arrays, numbered in order of creation, and those handed out by GetPrimitiveArrayCritical (NativeGlobalFixed.cpp:62-63)
    and not yet given back. *)
Record jvm := mkJvm { jv_arrays : list (list Z); jv_held : list Z }.

(** [GrayU8], [GrayS16], [GrayS32]: fields read at JNIBoofCPP.cpp:242-255; [ji_array] is the number of [data]. *)
Record jimage := mkJimage { ji_width : Z; ji_height : Z; ji_start : Z; ji_stride : Z; ji_sub : bool; ji_array : Z }.

(** Element type of [data]: byte, short or int (JNIBoofCPP.cpp:263-273). *)
Inductive jelem := JByte | JShort | JInt.

(** The bits of a Java element read as U8, S16, S32 (the casts of the pointers, e.g. NativeGlobalFixed.cpp:62,
    NativeImageConvolve.cpp:53, 67), and back. *)
Definition to_c (t : jelem) (v : Z) : Z := match t with JByte => u8 v | JShort => s16 v | JInt => s32 v end.
(** See [to_c] (NativeGlobalFixed.cpp:63, NativeImageConvolve.cpp:53, 67). *)
Definition of_c (t : jelem) (v : Z) : Z :=
  match t with JByte => if u8 v <? 128 then u8 v else u8 v - 256 | JShort => s16 v | JInt => s32 v end.

(** Any JNI function other than the two about critical arrays: not allowed between them (NativeGlobalFixed.cpp:46-65). *)
Definition jni (J : jvm) : outcome unit := match jv_held J with [] => Ok tt | _ => Undef end.

(** JNIBoofCPP.cpp:236-261 [extractInfoCritical] and 304-354 [wrapCriticalGrayU8] and its siblings: a sub-image without data.
    The conversions from jint to uint32_t wrap. *)
Definition j_wrap (J : jvm) (im : jimage) : outcome (gray Z) :=
  let* _ := jni J in
  let* _ := bget (jv_arrays J) (ji_array im) in
  Ok (gray_wrap [] (u32 (ji_width im)) (u32 (ji_height im)) (u32 (ji_start im)) (u32 (ji_stride im))).

(** [image.data = GetPrimitiveArrayCritical(jdata)] (NativeGlobalFixed.cpp:62-63).  Two images that share an array get separate
    copies here; a virtual machine that hands out the array itself would let them overlap. *)
Definition j_get (t : jelem) (J : jvm) (im : jimage) (g : gray Z) : outcome (jvm * gray Z) :=
  let* a := bget (jv_arrays J) (ji_array im) in
  Ok (mkJvm (jv_arrays J) (ji_array im :: jv_held J), with_data g (map (to_c t) a)).

(** One array less that is handed out (NativeGlobalFixed.cpp:65, 79). *)
Fixpoint unhold (a : Z) (l : list Z) : outcome (list Z) :=
  match l with
  | [] => Undef
  | b :: r => if a =? b then Ok r else let* r := unhold a r in Ok (b :: r)
  end.

(** [ReleasePrimitiveArrayCritical] with JNI_ABORT (NativeGlobalFixed.cpp:65). *)
Definition j_abort (J : jvm) (im : jimage) : outcome jvm :=
  let* l := unhold (ji_array im) (jv_held J) in Ok (mkJvm (jv_arrays J) l).

(** [ReleasePrimitiveArrayCritical] with mode 0: the elements become those of [d] (NativeGlobalFixed.cpp:79). *)
Definition j_commit (t : jelem) (J : jvm) (im : jimage) (d : list Z) : outcome jvm :=
  let* l := unhold (ji_array im) (jv_held J) in
  let* a := bset (jv_arrays J) (ji_array im) (map (of_c t) d) in
  Ok (mkJvm a l).

(** [ImageGray.reshape] of BoofCV (called at NativeGlobalFixed.java:16, NativeConvolveImage.java:25, NativeChang2004.java:41):
    sub-images cannot change, the array is replaced if it is too short. *)
Definition j_reshape (J : jvm) (im : jimage) (w h : Z) : outcome (jvm * jimage) :=
  if (ji_width im =? w) && (ji_height im =? h) then Ok (J, im)
  else if ji_sub im then Throw
  else
    let* a := bget (jv_arrays J) (ji_array im) in
    if zlen a <? w * h
    then Ok (mkJvm (jv_arrays J ++ [repeat 0 (Z.to_nat (w * h))]) (jv_held J),
             mkJimage w h (ji_start im) w false (zlen (jv_arrays J)))
    else Ok (J, mkJimage w h (ji_start im) w false (ji_array im)).

(** ** Threshold filters *)

(** NativeGlobalFixed.cpp:42-80 [nativeprocess] for 8 bit images; NativeGlobalOtsu.cpp, NativeBlockMean.cpp,
    NativeBlockMinMax.cpp, NativeBlockOtsu.cpp and NativeLocalMean.cpp have the same body.  [f] is the filter's process with
    its state.  An exception is swallowed (lines 73-76): then [after] is the state and what the filter had left in the
    output array. *)
Definition native_filter {S} (f : S -> gray Z -> gray Z -> outcome (S * gray Z)) (after : S * list Z) (s : S) (J : jvm)
    (inp out : jimage) : outcome (S * jvm) :=
  let* o := j_wrap J out in
  let* i := j_wrap J inp in
  let* '(J, i) := j_get JByte J inp i in
  let* '(J, o) := j_get JByte J out o in
  match f s i o with
  | Ok (s, o) =>
      let* J := j_abort J inp in
      let* J := j_commit JByte J out (g_data o) in
      Ok (s, J)
  | Throw => let* J := j_commit JByte J out (snd after) in Ok (fst after, J)
  | Undef => Undef
  | OutOfFuel => OutOfFuel
  end.

(** NativeGlobalFixed.java:15-18 [process], the same in the five other classes: the output image as Java sees it afterwards. *)
Definition java_filter {S} (f : S -> gray Z -> gray Z -> outcome (S * gray Z)) (after : S * list Z) (s : S) (J : jvm)
    (inp out : jimage) : outcome (S * jvm * jimage) :=
  let* '(J, out) := j_reshape J out (ji_width inp) (ji_height inp) in
  let* '(s, J) := native_filter f after s J inp out in
  Ok (s, J, out).

(** NativeGlobalFixed.cpp:19 [new GlobalFixedBinaryFilter<U8>((U8)threshold,down)]; binary_ops.h:229-243. *)
Definition fixed_new {D} (O : dops D) (threshold : D) (down : bool) : outcome (Z * bool) :=
  let* t := d_to O U8 threshold in Ok (t, down).

(** binary_ops.h:229-243 [GlobalFixedBinaryFilter<U8>::process]. *)
Definition fixed_process (s : Z * bool) (g out : gray Z) : outcome ((Z * bool) * gray Z) :=
  let* o := threshold Z.leb Z.gtb g (fst s) (snd s) out in Ok (s, o).

(** NativeGlobalOtsu.cpp:16 [new GlobalOtsuBinaryFilter<U8>((U8)minValue,(U8)maxValue,down)]; binary_ops.h:246-255. *)
Definition otsu_new {D} (O : dops D) (mn mx : D) (down : bool) : outcome (Z * Z * bool) :=
  let* a := d_to O U8 mn in
  let* b := d_to O U8 mx in
  Ok (a, b, down).

(** binary_ops.h:257-260 [GlobalOtsuBinaryFilter<U8>::process]. *)
Definition otsu_process {D} (O : dops D) (s : Z * Z * bool) (g out : gray Z) : outcome ((Z * Z * bool) * gray Z) :=
  let '(mn, mx, down) := s in
  let* o := global_otsu O U8 g mn mx down out in Ok (s, o).

(** binary_ops.h:279-281 [LocalMeanBinaryFilter<U8>::process]; the state are the two storage images. *)
Definition local_process {D} (O : dops D) (L : lcmp Z) (width : clen D) (down : bool) (s : gray Z * gray Z) (g out : gray Z)
  : outcome ((gray Z * gray Z) * gray Z) :=
  let* '(o, s) := local_mean O (int_narith U8) (int_marith U8) 0 (fun _ => 1) L width down g out (fst s) (snd s) in Ok (s, o).

(** ** Convolution *)

(** An exception that leaves a native function has no defined meaning (NativeImageConvolve.cpp:30-97 catches nothing). *)
Definition uncaught {A} (m : outcome A) : outcome A := match m with Throw => Undef | _ => m end.

(** Kernel1D_S32 and Kernel2D_S32 of BoofCV: the fields read at JNIBoofCPP.cpp:369-375, 411-417. *)
Record jkernel := mkJkernel { jk_width : Z; jk_offset : Z; jk_data : list Z }.

(** JNIBoofCPP.cpp:367-386 [extractKernel1D_S32]: [data.set] gives the GrowArray the length of the Java array. *)
Definition j_kernel1 (J : jvm) (k : jkernel) : outcome (kernel Z) :=
  let* _ := jni J in
  let* K := kernel1_new 0 (u32 (jk_width k)) (u32 (jk_offset k)) in
  Ok (mkKernel (k_width K) (k_offset K) (jk_data k)).

(** JNIBoofCPP.cpp:409-428 [extractKernel2D_S32]. *)
Definition j_kernel2 (J : jvm) (k : jkernel) : outcome (kernel Z) :=
  let* _ := jni J in
  let* K := kernel2_new 0 (u32 (jk_width k)) (u32 (jk_offset k)) in
  Ok (mkKernel (k_width K) (k_offset K) (jk_data k)).

(** Borders of BoofCV as far as NativeConvolveImage.java:60-85 tells them apart: a constant, one rule for rows and one for
    columns, or something else. *)
Inductive jline := LExtend | LReflect | LWrap | LOther.
(** See [jline] (NativeConvolveImage.java:60-85). *)
Inductive jborder := JValue (v : Z) | JLines (row column : jline) | JBorder.

(** NativeConvolveImage.java:60-85 [borderToType], with the ordinals of BoofCV's BorderType that borderJavaToCpp expects
    (NativeImageConvolve.cpp:13-28).  Only the rule for rows is looked at. *)
Definition border_to_type (b : jborder) : outcome Z :=
  match b with
  | JValue v => if v =? 0 then Ok 5 else Throw
  | JLines LExtend _ => Ok 1
  | JLines LReflect _ => Ok 3
  | JLines LWrap _ => Ok 4
  | JLines LOther _ => Throw
  | JBorder => Throw
  end.

(** NativeImageConvolve.cpp:13-28 [borderJavaToCpp]. *)
Definition border_java (t : Z) : outcome border_type :=
  if t =? 1 then Ok EXTENDED else if t =? 3 then Ok REFLECT else if t =? 4 then Ok WRAP else if t =? 5 then Ok ZERO else Throw.

(** NativeImageConvolve.cpp:30-97 [nativeHorizontal] for integer images, 99-160 [nativeVertical], 162-223 [nativeConvolve].
    [bits] is the size of the output elements, [conv t] the convolution that writes pixels of type [t], [extract] gets the
    kernel.  The border refers to the input image, whose data is set afterwards. *)
Definition native_convolve (extract : jvm -> jkernel -> outcome (kernel Z))
    (conv : ity -> kernel Z -> border Z -> gray Z -> gray Z -> outcome (gray Z)) (bits : Z) (J : jvm) (k : jkernel)
    (inp out : jimage) (border : Z) : outcome jvm :=
  uncaught (
    let* _ := jni J in
    let* bt := border_java border in
    let* K := extract J k in
    let* b := create_SB 0 bt in
    let* i := j_wrap J inp in
    let* '(te, tc) := if bits =? 16 then Ok (JShort, S16) else if bits =? 32 then Ok (JInt, S32) else Throw in
    let* o := j_wrap J out in
    let* '(J, i) := j_get JByte J inp i in
    let* '(J, o) := j_get te J out o in
    let* o := conv tc K b i o in
    let* J := j_commit te J out (g_data o) in
    j_abort J inp).

(** NativeConvolveImage.java:19-52: [convolve], [horizontal], [vertical] for U8 input. *)
Definition java_convolve (extract : jvm -> jkernel -> outcome (kernel Z))
    (conv : ity -> kernel Z -> border Z -> gray Z -> gray Z -> outcome (gray Z)) (bits : Z) (J : jvm) (k : jkernel)
    (inp out : jimage) (border : jborder) : outcome (jvm * jimage) :=
  let* '(J, out) := j_reshape J out (ji_width inp) (ji_height inp) in
  let* t := border_to_type border in
  let* J := native_convolve extract conv bits J k inp out t in
  Ok (J, out).

(** [horizontal] (NativeImageConvolve.cpp:30-97), [vertical] (99-160) and [convolve] (162-223) of U8 images. *)
Definition java_horizontal := java_convolve j_kernel1 (fun r => convolve_h (int_arith U8 r) 0).
(** NativeImageConvolve.cpp:99-160. *)
Definition java_vertical := java_convolve j_kernel1 (fun r => convolve_v (int_arith U8 r) 0).
(** NativeImageConvolve.cpp:162-223. *)
Definition java_convolve2 := java_convolve j_kernel2 (fun r => convolve_2 (int_arith U8 r) 0).

(** ** Contours *)

(** NativeChang2004.java:21-35: the Java object and what it owns; [nc_lb] is the C++ object behind it. *)
Record jfinder := mkJf { nc_lb : labeler; nc_contours : list contour; nc_points : jpacked }.

(** NativeChang2004.cpp:12-22 [native_init] and the field initialisers NativeChang2004.java:24-25. *)
Definition nc_new : jfinder := mkJf (lb_set (lb_new Four) Four 0 2147483647 true) [] (mkJp 4000 [] []).

(** NativeChang2004.java:37-43 [process] and NativeChang2004.cpp:36-73 [native_process].  [reset] of the packed points
    keeps the blocks for reuse.  [q] is the queue storagePoints with what earlier calls left in it. *)
Definition nc_process (grow : Z -> Z) (q : jqueue) (fuel : nat) (F : jfinder) (J : jvm) (binary labeled : jimage)
  : outcome (jfinder * jvm * jimage) :=
  let* '(J, labeled) := j_reshape J labeled (ji_width binary) (ji_height binary) in
  uncaught (
    let* i := j_wrap J binary in
    let* l := j_wrap J labeled in
    let* '(J, i) := j_get JByte J binary i in
    let* '(J, l) := j_get JInt J labeled l in
    let* '(lb, l) := process fuel (nc_lb F) i l in
    let* J := j_abort J binary in
    let* J := j_commit JInt J labeled (g_data l) in
    let* _ := jni J in
    let* cs := j_contours grow q (lb_contours lb) in
    let* pts := copy_into_java (lb_pts lb) (nc_points F) in
    Ok (mkJf lb cs pts, J, labeled)).

(** NativeChang2004.cpp:75-188: the settings.  Sizes pass as jint; the rule by its ordinal.  A labeller is changed by
    [lb_set]. *)
Inductive nc_setting :=
| SetInner (b : bool)      (* NativeChang2004.cpp:75-83 *)
| SetMin (n : Z)           (* NativeChang2004.cpp:95-103 *)
| SetMax (n : Z)           (* NativeChang2004.cpp:115-123 *)
| SetRule (ordinal : Z).   (* NativeChang2004.cpp:135-159 *)

(** See the constructors of [nc_setting] (NativeChang2004.cpp:75-159). *)
Definition nc_set (lb : labeler) (s : nc_setting) : outcome labeler :=
  match s with
  | SetInner b => Ok (lb_set lb (lb_rule lb) (lb_min lb) (lb_max lb) b)
  | SetMin n => Ok (lb_set lb (lb_rule lb) (u32 n) (lb_max lb) (lb_save lb))
  | SetMax n => Ok (lb_set lb (lb_rule lb) (lb_min lb) (u32 n) (lb_save lb))
  | SetRule o =>
      if o =? 0 then Ok (lb_set lb Four (lb_min lb) (lb_max lb) (lb_save lb))
      else if o =? 1 then Ok (lb_set lb Eight (lb_min lb) (lb_max lb) (lb_save lb))
      else uncaught Throw
  end.

(** NativeChang2004.cpp:85-93 [isSaveInternalContours], 105-113 [getMinContour], 125-133 [getMaxContour], 161-188
    [getConnectRule] (as ordinal of Java's FOUR and EIGHT). *)
Definition nc_get_inner (lb : labeler) : bool := lb_save lb.
(** NativeChang2004.cpp:105-113. *)
Definition nc_get_min (lb : labeler) : Z := s32 (lb_min lb).
(** NativeChang2004.cpp:125-133. *)
Definition nc_get_max (lb : labeler) : Z := s32 (lb_max lb).
(** NativeChang2004.cpp:161-188. *)
Definition nc_get_rule (lb : labeler) : Z := match lb_rule lb with Four => 0 | Eight => 1 end.

(** Several settings one after the other (NativeChang2004.cpp:75-159). *)
Fixpoint nc_sets (lb : labeler) (l : list nc_setting) : outcome labeler :=
  match l with [] => Ok lb | s :: r => let* lb := nc_set lb s in nc_sets lb r end.

(** ** Life of the objects *)

(** C++ objects made for Java: [Some i] exists and was made for integer images ([i]) or floating point ones, [None] was
    deleted.  The Java objects: [nativePtr] (0 or number of the C++ object plus one) and [isInteger] (NativeBase.java:12-13). *)
Record natives := mkNat { nt_cpp : list (option bool); nt_java : list (Z * bool) }.

(** What Java does with objects, which are numbered in order of creation. *)
Inductive jop :=
| JNew (integer : bool)            (* constructor and nativeinit: NativeGlobalFixed.java:9-12, NativeGlobalFixed.cpp:10-25 *)
| JUse (i : nat)                   (* nativeprocess: NativeGlobalFixed.cpp:42-80 *)
| JDestroy (i : nat)               (* nativedestroy, public: NativeGlobalFixed.cpp:27-40 *)
| JFinalize (i : nat)              (* finalize: NativeGlobalFixed.java:20-23 *)
| JType (i : nat) (integer : bool). (* setImageType, public: NativeBase.java:23-28 *)

(** [delete] of the object at [ptr] with the type given by [integer] (NativeGlobalFixed.cpp:35-39): nothing for null, undefined
    for a deleted object and for one of the other type. *)
Definition cpp_delete (c : list (option bool)) (ptr : Z) (integer : bool) : outcome (list (option bool)) :=
  if ptr =? 0 then Ok c
  else
    let* o := bget c (ptr - 1) in
    match o with
    | Some b => if Bool.eqb b integer then Ok (upd c (Z.to_nat (ptr - 1)) None) else Undef
    | None => Undef
    end.

(** [nativedestroy]; [zeroes] tells whether the pointer is set to null afterwards: not for the threshold filters
    (NativeGlobalFixed.cpp:27-40), but for the contour finder (NativeChang2004.cpp:24-34). *)
Definition nt_destroy (zeroes : bool) (N : natives) (i : nat) : outcome natives :=
  match nth_error (nt_java N) i with
  | None => Undef
  | Some (ptr, integer) =>
      let* c := cpp_delete (nt_cpp N) ptr integer in
      Ok (mkNat c (if zeroes then upd (nt_java N) i (0, integer) else nt_java N))
  end.

(** See the constructors of [jop] (NativeGlobalFixed.cpp:10-80, NativeChang2004.cpp:12-73, NativeBase.java:23-28). *)
Definition nt_step (zeroes : bool) (N : natives) (o : jop) : outcome natives :=
  match o with
  | JNew integer => Ok (mkNat (nt_cpp N ++ [Some integer]) (nt_java N ++ [(zlen (nt_cpp N) + 1, integer)]))
  | JUse i =>
      match nth_error (nt_java N) i with
      | None => Undef
      | Some (ptr, integer) =>
          let* c := bget (nt_cpp N) (ptr - 1) in
          match c with Some b => if Bool.eqb b integer then Ok N else Undef | None => Undef end
      end
  | JDestroy i => nt_destroy zeroes N i
  | JFinalize i => nt_destroy zeroes N i
  | JType i integer =>
      match nth_error (nt_java N) i with
      | None => Undef
      | Some (ptr, _) => Ok (mkNat (nt_cpp N) (upd (nt_java N) i (ptr, integer)))
      end
  end.

(** A sequence of them (NativeGlobalFixed.java, NativeChang2004.java). *)
Fixpoint nt_run (zeroes : bool) (N : natives) (l : list jop) : outcome natives :=
  match l with [] => Ok N | o :: r => let* N := nt_step zeroes N o in nt_run zeroes N r end.

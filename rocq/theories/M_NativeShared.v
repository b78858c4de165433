(** Model of the threshold filters called from Java when input and output may lie in the same Java array.  The virtual machine
    hands out each array itself or a copy of it ([direct]); M_Native.v knows separate copies only.  See M_Shared.v for the
    filters on shared memory.  No proofs. *)
From Verif Require Import Base M_Image M_Convolve M_Normalized M_Blur M_Otsu M_Config M_Local M_Binary M_Block M_Heap M_Shared M_Native.

(** The C++ image around an array that was handed out, in block [b] (JNIBoofCPP.cpp:304-316, NativeGlobalFixed.cpp:62-63). *)
Definition s_object (g : gray Z) (b : nat) : himg :=
  mkHimg (g_width g) (g_height g) (g_offset g) (g_stride g) (g_sub g) b (zlen (g_data g)).

(** The elements in a block (image_types.h:76-85). *)
Definition s_block (H : heap Z) (b : nat) : outcome (list Z) :=
  match nth_error H b with Some (Some d) => Ok d | _ => Undef end.

(** [ReleasePrimitiveArrayCritical] with JNI_ABORT (NativeGlobalFixed.cpp:65): a copy is dropped, an array that was handed out
    itself has the elements that its memory has. *)
Definition s_abort (direct : bool) (J : jvm) (im : jimage) (d : list Z) : outcome jvm :=
  if direct then j_commit JByte J im d else j_abort J im.

(** NativeGlobalFixed.cpp:42-80 [nativeprocess] for 8 bit images, as in [native_filter].  Input and output are one block of
    memory if they have one array and it is handed out itself both times; otherwise they are two. *)
Definition s_native_filter {S} (din dout : bool) (f : S -> heap Z -> himg -> himg -> outcome (S * heap Z)) (after : S * list Z)
    (s : S) (J : jvm) (inp out : jimage) : outcome (S * jvm) :=
  let* o := j_wrap J out in
  let* i := j_wrap J inp in
  let* '(J, i) := j_get JByte J inp i in
  let* '(J, o) := j_get JByte J out o in
  let one := din && dout && (ji_array inp =? ji_array out) in
  let H := if one then [Some (g_data o)] else [Some (g_data o); Some (g_data i)] in
  let hi := s_object i (if one then 0 else 1)%nat in
  let ho := s_object o 0 in
  match f s H hi ho with
  | Ok (s, H) =>
      let* di := s_block H (h_block hi) in
      let* dd := s_block H (h_block ho) in
      let* J := s_abort din J inp di in
      let* J := j_commit JByte J out dd in
      Ok (s, J)
  | Throw => let* J := j_commit JByte J out (snd after) in Ok (fst after, J)
  | Undef => Undef
  | OutOfFuel => OutOfFuel
  end.

(** NativeGlobalFixed.java:15-18 [process], the same in the five other classes. *)
Definition s_java_filter {S} (din dout : bool) (f : S -> heap Z -> himg -> himg -> outcome (S * heap Z)) (after : S * list Z)
    (s : S) (J : jvm) (inp out : jimage) : outcome (S * jvm * jimage) :=
  let* '(J, out) := j_reshape J out (ji_width inp) (ji_height inp) in
  let* '(s, J) := s_native_filter din dout f after s J inp out in
  Ok (s, J, out).

(** binary_ops.h:229-243 [GlobalFixedBinaryFilter<U8>::process]. *)
Definition s_fixed_process (s : Z * bool) (H : heap Z) (a o : himg) : outcome ((Z * bool) * heap Z) :=
  let* '(H, _) := h_threshold H a (fst s) (snd s) o in Ok (s, H).

(** binary_ops.h:257-260 [GlobalOtsuBinaryFilter<U8>::process]. *)
Definition s_otsu_process {D} (O : dops D) (s : Z * Z * bool) (H : heap Z) (a o : himg) : outcome ((Z * Z * bool) * heap Z) :=
  let '(mn, mx, down) := s in
  let* '(H, _) := h_global_otsu O H a mn mx down o in Ok (s, H).

(** binary_ops.h:279-281 [LocalMeanBinaryFilter<U8>::process]. *)
Definition s_local_process {D} (O : dops D) (L : lcmp Z) (width : clen D) (down : bool) (s : gray Z * gray Z) (H : heap Z) (a o : himg)
  : outcome ((gray Z * gray Z) * heap Z) :=
  let* '(H, _, s) := h_local_mean O (int_narith U8) (int_marith U8) (fun _ => 1) L width down H a o (fst s) (snd s) in Ok (s, H).

(** Model of the part of the Java binding that hands the results of the labelling to Java (JNIBoofCPP.cpp:8-142,
    NativeChang2004.cpp:54-70, NativeChang2004.java:38-52).  The classes GrowQueue_I32, FastQueue and
    PackedSetsPoint2D_I32 are not in the repository; what is used of them is stated where it is used.  Looking up fields and
    methods is not modelled (it always succeeds).  No proofs. *)
From Verif Require Import Base M_PackedSet M_Contour.

(** ** Java queue of integers *)

(** [GrowQueue_I32]: an array with a length of its own and the number of elements in use.  Arrays are numbered in order of
    creation since JNIBoofCPP.h:17 keeps a reference to one. *)
Record jqueue := mkJq { jq_arrays : list (list Z); jq_data : Z; jq_size : Z }.

(** [resize(n)] of the queue (called at JNIBoofCPP.cpp:81): a new array if the current one is too short.  [grow n] is the
    length of the new array. *)
Definition jq_resize (grow : Z -> Z) (q : jqueue) (n : Z) : outcome jqueue :=
  let* a := bget (jq_arrays q) (jq_data q) in
  if zlen a <? n then Ok (mkJq (jq_arrays q ++ [repeat 0 (Z.to_nat (grow n))]) (zlen (jq_arrays q)) n)
  else Ok (mkJq (jq_arrays q) (jq_data q) n).

(** The elements in use, as read by [setTo] of another queue (NativeChang2004.java:51). *)
Definition jq_content (q : jqueue) : outcome (list Z) :=
  let* a := bget (jq_arrays q) (jq_data q) in
  if (jq_size q <? 0) || (zlen a <? jq_size q) then Throw else Ok (firstn (Z.to_nat (jq_size q)) a).

(** JNIBoofCPP.h:12-41: fields of WrapJGrowQueue_I32 that matter: the array, its length, the size.  [data] is null outside
    [setTo], so that the exception of JNIBoofCPP.cpp:75-77 cannot occur. *)
Record jwrap := mkJw { jw_array : Z; jw_length : Z; jw_size : Z }.

(** JNIBoofCPP.cpp:8-26: constructor. *)
Definition jw_new (q : jqueue) : outcome jwrap :=
  let* a := bget (jq_arrays q) (jq_data q) in
  Ok (mkJw (jq_data q) (zlen a) (jq_size q)).

(** JNIBoofCPP.cpp:72-92 [resize]. *)
Definition jw_resize (grow : Z -> Z) (q : jqueue) (w : jwrap) (desired : Z) : outcome (jqueue * jwrap) :=
  if desired =? u32 (jw_size w) then Ok (q, w)
  else
    let* q := jq_resize grow q (s32 desired) in
    let size := s32 desired in
    if u32 (jw_length w) <? desired then
      let* a := bget (jq_arrays q) (jq_data q) in
      Ok (q, mkJw (jq_data q) (zlen a) size)
    else Ok (q, mkJw (jw_array w) (jw_length w) size).

(** JNIBoofCPP.cpp:52-70 [setTo]; [input.size()] is a 64 bit number. *)
Definition jw_setTo (grow : Z -> Z) (q : jqueue) (w : jwrap) (input : list Z) : outcome (jqueue * jwrap) :=
  let* '(q, w) := if negb (zlen input =? jw_size w) then jw_resize grow q w (u32 (zlen input)) else Ok (q, w) in
  let* a := bget (jq_arrays q) (jw_array w) in
  let* a := for_range 0 (jw_size w) (fun i a => let* v := bget input i in bset a i (s32 v)) a in
  let* l := bset (jq_arrays q) (jw_array w) a in
  Ok (mkJq l (jq_data q) (jq_size q), w).

(** ** Contours *)

(** NativeChang2004.java:47-52 [addContour]: Java's ContourPacked with a copy of the queue. *)
Definition j_addContour (q : jqueue) (l : list contour) (id ext : Z) : outcome (list contour) :=
  let* c := jq_content q in Ok (l ++ [mkCo id ext c]).

(** NativeChang2004.cpp:56-66: one call for each contour; the list was emptied at NativeChang2004.java:39. *)
Definition j_contours (grow : Z -> Z) (q : jqueue) (cs : list contour) : outcome (list contour) :=
  let* w := jw_new q in
  let* '(_, _, l) := for_range 0 (zlen cs) (fun i s =>
    let '(q, w, l) := s in
    let* c := bget cs i in
    let* '(q, w) := jw_setTo grow q w (co_int c) in
    let* l := j_addContour q l (s32 (co_id c)) (s32 (co_ext c)) in
    Ok (q, w, l)) (q, w, []) in
  Ok l.

(** ** Points *)

(** [PackedSetsPoint2D_I32]: length of its blocks, the blocks, and (start, length, block) of each set. *)
Record jpacked := mkJp { jp_length : Z; jp_blocks : list (list Z); jp_sets : list (Z * Z * Z) }.

(** [FastQueue.resize]: elements are kept, missing ones are created by [new int[blockLength]] and
    [new BlockIndexLength()] (called at JNIBoofCPP.cpp:117-118). *)
Definition fq_resize {A} (dflt : A) (l : list A) (n : Z) : list A :=
  firstn (Z.to_nat n) l ++ repeat dflt (Z.to_nat n - length l).

(** JNIBoofCPP.cpp:94-142 [copy_into_java].  An element of a block that was never written is the point (0,0)
    (geometry_types.h:26-29). *)
Definition copy_into_java (src : pset (Z * Z)) (dst : jpacked) : outcome jpacked :=
  if negb (u32 (jp_length dst) =? u32 (ps_bs src * 2)) then Throw
  else
    let bl := fq_resize (repeat 0 (Z.to_nat (jp_length dst))) (jp_blocks dst) (zlen (ps_blocks src)) in
    let sets := fq_resize (0, 0, 0) (jp_sets dst) (zlen (ps_info src)) in
    let* bl := for_range 0 (zlen (ps_blocks src)) (fun b bl =>
      let* array_dst := bget bl b in
      let* array_src := bget (ps_blocks src) b in
      let* a := for_range 0 (ps_bs src) (fun j a =>
        let* c := bget array_src j in
        let p := match c with Some p => p | None => (0, 0) end in
        let* a := bset a (u32 (j * 2)) (fst p) in
        bset a (u32 (j * 2 + 1)) (snd p)) array_dst in
      bset bl b a) bl in
    let* sets := for_range 0 (zlen (ps_info src)) (fun i sets =>
      let* s := bget (ps_info src) i in
      bset sets i (s32 (u32 (pi_offset s * 2)), s32 (pi_size s), s32 (pi_block s))) sets in
    Ok (mkJp (jp_length dst) bl sets).

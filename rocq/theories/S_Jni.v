(** How Java reads the packed points, and its view of a list of points. *)
From Verif Require Import Base M_PackedSet M_Contour M_Jni.

(** [PackedSetsPoint2D_I32.getSet(which, list)] of BoofCV (called at NativeChang2004.java:61), in Java's int arithmetic: element
    i is at index start+2i counted from the beginning of its first block.  [None]: an exception. *)
Definition java_point (p : jpacked) (start block i : Z) : option (Z * Z) :=
  let index := start + i * 2 in
  match znth (jp_blocks p) (block + Z.quot index (jp_length p)) with
  | None => None
  | Some b =>
      match znth b (Z.rem index (jp_length p)), znth b (Z.rem index (jp_length p) + 1) with
      | Some x, Some y => Some (x, y)
      | _, _ => None
      end
  end.

(** The list [l] is what Java obtains for set [k]. *)
Definition java_set (p : jpacked) (k : Z) (l : list (Z * Z)) : Prop :=
  exists start size block, znth (jp_sets p) k = Some (start, size, block) /\ size = zlen l /\
    forall i, 0 <= i < size -> start + i * 2 <= 2147483647 /\ java_point p start block i = znth l i.

(** A queue whose array is long enough for its size. *)
Definition queue_ok (q : jqueue) : Prop :=
  exists a, znth (jq_arrays q) (jq_data q) = Some a /\ 0 <= jq_size q <= zlen a /\ zlen a <= 2147483647.

(** Numbers of a contour that fit in Java's int. *)
Definition int_contour (c : contour) : Prop :=
  0 <= co_id c <= 2147483647 /\ 0 <= co_ext c <= 2147483647 /\ zlen (co_int c) <= 2147483647 /\
  forall v, In v (co_int c) -> 0 <= v <= 2147483647.

(** Specification vocabulary for a threshold followed by the search for contours. *)
From Coq Require Import QArith.
From Verif Require Import Base M_Image S_Image M_PackedSet S_PackedSet M_Contour S_Contour M_Jni S_Jni M_Native S_Native.
Open Scope Z_scope.

(** Pixels on one side of a threshold: not above it ([down]), or above it. *)
Definition chosen (px : Z -> Z -> option Z) (th : Q) (down : bool) (p : point) : Prop :=
  exists v, px (fst p) (snd p) = Some v /\ if down then (inject_Z v <= th)%Q else (th < inject_Z v)%Q.

(** [label] numbers the connected parts of the set [S] in a picture: 0 outside of [S], the same number exactly within a part,
    the numbers from 1 to [n] in the order of the first pixels of the parts. *)
Record parts (a : point -> point -> Prop) (picture S : point -> Prop) (label : Z -> Z -> option Z) (n : Z) : Prop := {
  pa_pixels : forall p, picture p -> exists k, label (fst p) (snd p) = Some k /\ 0 <= k <= n /\ (k = 0 <-> ~ S p);
  pa_same : forall p q k k', S p -> S q -> label (fst p) (snd p) = Some k -> label (fst q) (snd q) = Some k' -> (k = k' <-> conn a S p q);
  pa_all : forall k, 1 <= k <= n -> exists p, first_of a S p /\ label (fst p) (snd p) = Some k;
  pa_order : forall p q k k', first_of a S p -> first_of a S q -> label (fst p) (snd p) = Some k -> label (fst q) (snd q) = Some k' ->
    (k < k' <-> before p q) }.

(** A picture, an image for the result of the threshold and one for the labels, in three arrays; queue and sizes as for contours. *)
Record scan_args (grow : Z -> Z) (q : jqueue) (fuel : nat) (J : jvm) (inp bin lab : jimage) : Prop := {
  sc_images : jargs JByte JByte J inp bin;
  sc_labels : jvalid JInt J lab;
  sc_apart : ji_array lab <> ji_array inp /\ ji_array lab <> ji_array bin;
  sc_shape : ji_sub lab = false \/ (ji_width lab = ji_width inp /\ ji_height lab = ji_height inp);
  sc_size : 4 * (ji_width inp + 2) * (ji_height inp + 2) <= 1000000000;
  sc_stride : ji_stride lab < 2147483647;
  sc_grow : forall n, 0 <= n <= 2147483647 -> n <= grow n <= 2147483647;
  sc_queue : queue_ok q;
  sc_fuel : 4 * ji_width inp * ji_height inp <= Z.of_nat fuel }.

(** After both calls: the picture is as before, the binary image holds [F], the labels number the connected parts of the ones
    of [F], there is a contour for each, all arrays are given back and no other array has changed. *)
Record scanned (r : crule) (J : jvm) (inp bin lab : jimage) (F' : jfinder) (J' : jvm) (bin' lab' : jimage) (F : Z -> Z -> option Z) : Prop := {
  sn_size : ji_width bin' = ji_width inp /\ ji_height bin' = ji_height inp /\ ji_width lab' = ji_width inp /\ ji_height lab' = ji_height inp;
  sn_input : forall x y, jpixel JByte J' inp x y = jpixel JByte J inp x y;
  sn_binary : forall x y, jinside inp x y -> jpixel JByte J' bin' x y = F x y;
  sn_parts : parts (adj r) (fun p => jinside inp (fst p) (snd p)) (fun p => F (fst p) (snd p) = Some 1) (jpixel JInt J' lab') (zlen (nc_contours F'));
  sn_valid : jvalid JByte J' inp /\ jvalid JByte J' bin' /\ jvalid JInt J' lab';
  sn_apart : ji_array inp <> ji_array bin' /\ ji_array inp <> ji_array lab' /\ ji_array bin' <> ji_array lab';
  sn_free : jv_held J' = [];
  sn_others : forall a, 0 <= a < zlen (jv_arrays J) -> a <> ji_array bin -> a <> ji_array lab -> znth (jv_arrays J') a = znth (jv_arrays J) a }.

(** What a Java program sees of a blur. *)
From Verif Require Import Base M_Image S_Image M_Native S_Native M_NativeBlur.

(** Input, output and storage: separate arrays, the storage has the size of the input, can get it or is absent. *)
Record jargs3 (J : jvm) (inp out : jimage) (storage : option jimage) : Prop := {
  j3_images : jargs JByte JByte J inp out;
  j3_storage : match storage with
    | None => True
    | Some s => jvalid JByte J s /\ ji_array s <> ji_array inp /\ ji_array s <> ji_array out /\
        (ji_sub s = false \/ (ji_width s = ji_width inp /\ ji_height s = ji_height inp))
    end }.

(** Effect: [out'] has the size of the input and the pixels [F]; all arrays are given back; apart from the output and the
    storage nothing changes, and the array of an output image of the right size only at its pixels. *)
Record jblurred (J : jvm) (inp out : jimage) (storage : option jimage) (J' : jvm) (out' storage' : jimage)
    (F : Z -> Z -> option Z) : Prop := {
  jb_size : ji_width out' = ji_width inp /\ ji_height out' = ji_height inp;
  jb_pixels : forall x y, jinside inp x y -> jpixel JByte J' out' x y = F x y;
  jb_free : jv_held J' = [];
  jb_others : forall a, a <> ji_array out' -> a <> ji_array storage' -> 0 <= a < zlen (jv_arrays J) ->
    znth (jv_arrays J') a = znth (jv_arrays J) a;
  jb_valid : jvalid JByte J' out' /\ jvalid JByte J' storage' /\ ji_array storage' <> ji_array out';
  jb_storage : match storage with
    | Some s => ji_array storage' = ji_array s \/ zlen (jv_arrays J) <= ji_array storage'
    | None => zlen (jv_arrays J) <= ji_array storage'
    end;
  jb_same : ji_width out = ji_width inp -> ji_height out = ji_height inp -> out' = out /\
    exists a a', znth (jv_arrays J) (ji_array out) = Some a /\ znth (jv_arrays J') (ji_array out) = Some a' /\
      zlen a' = zlen a /\ forall j, (forall x y, jinside out x y -> jpos out x y <> j) -> znth a' j = znth a j;
  jb_array : ji_array out' = ji_array out \/ zlen (jv_arrays J) <= ji_array out' }.

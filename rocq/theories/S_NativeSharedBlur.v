(** Arguments of a blur whose input and output may lie in the same array. *)
From Verif Require Import Base M_Image S_Image M_Native S_Native S_NativeShared.

(** As [jargs3], but input and output may have the same array. *)
Record jshare3 (J : jvm) (inp out : jimage) (storage : option jimage) : Prop := {
  s3_images : jshare J inp out;
  s3_storage : match storage with
    | None => True
    | Some s => jvalid JByte J s /\ ji_array s <> ji_array inp /\ ji_array s <> ji_array out /\
        (ji_sub s = false \/ (ji_width s = ji_width inp /\ ji_height s = ji_height inp))
    end }.

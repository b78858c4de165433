(** What a Java program may rely on when input and output of a call lie in the same array. *)
From Verif Require Import Base M_Image S_Image M_Native S_Native S_Shared.

(** Input and output as in [jargs], but they may have the same array. *)
Record jshare (J : jvm) (inp out : jimage) : Prop := {
  js_in : jvalid JByte J inp;
  js_out : jvalid JByte J out;
  js_free : jv_held J = [];
  js_shape : ji_sub out = false \/ (ji_width out = ji_width inp /\ ji_height out = ji_height inp);
  js_area : ji_width inp * ji_height inp <= 2147483647 }.

(** Position of pixel (x,y) of the output once it has the size of the input, if it keeps its array. *)
Definition jplace (inp out : jimage) (x y : Z) : Z :=
  if (ji_width out =? ji_width inp) && (ji_height out =? ji_height inp) then jpos out x y
  else ji_start out + y * ji_width inp + x.

(** In a common array, no pixel of the output lies in the place of a later pixel of the input. *)
Definition jbehind (inp out : jimage) : Prop := ji_array inp = ji_array out -> forall x y x' y',
  jinside inp x y -> jinside inp x' y' -> jpos inp x y = jplace inp out x' y' -> ~ before x' y' x y.

(** In a common array, a place belongs to the same pixel of both. *)
Definition jaligned (inp out : jimage) : Prop := ji_array inp = ji_array out -> forall x y x' y',
  jinside inp x y -> jinside inp x' y' -> jpos inp x y = jplace inp out x' y' -> x = x' /\ y = y'.

(** [part] is the window of [im] whose upper left pixel is (x0,y0) ([subimage] of BoofCV). *)
Definition jwindow (im part : jimage) (x0 y0 : Z) : Prop :=
  0 <= x0 /\ 0 <= y0 /\ x0 + ji_width part <= ji_width im /\ y0 + ji_height part <= ji_height im /\
  ji_start part = jpos im x0 y0 /\ ji_stride part = ji_stride im /\ ji_array part = ji_array im.

(** What a Java program sees of its images of floats. *)
From Coq Require Import Reals Floats.SpecFloat.
From Verif Require Import Base M_Image S_Image M_Border S_Border M_Convolve M_Float S_Ieee M_Native S_Native M_NativeF.
Open Scope Z_scope.

(** Java's [get(x,y)]. *)
Definition fpixel (V : fvm) (im : jimage) (x y : Z) : option spec_float :=
  if (0 <=? x) && (x <? ji_width im) && (0 <=? y) && (y <? ji_height im) then
    match znth (fv_floats V) (ji_array im) with Some a => znth a (jpos im x y) | None => None end
  else None.

(** An image whose rows lie one after the other inside its array. *)
Record fvalid (V : fvm) (im : jimage) : Prop := {
  fq_size : 0 <= ji_width im /\ 0 <= ji_height im <= 2147483647 /\ 0 <= ji_start im;
  fq_stride : ji_width im <= ji_stride im <= 2147483647;
  fq_start : ji_start im <= 2147483647;
  fq_own : ji_sub im = false -> ji_start im = 0 /\ ji_stride im = ji_width im;
  fq_array : exists a, znth (fv_floats V) (ji_array im) = Some a /\ zlen a <= 2147483647 /\
    (0 < ji_width im -> 0 < ji_height im -> ji_start im + (ji_height im - 1) * ji_stride im + ji_width im <= zlen a) }.

(** No array is handed out. *)
Definition all_back (V : fvm) : Prop := jv_held (fv_int V) = [] /\ fv_held V = [].

(** The output has the size of the input or can be given it; the pixels of the input fit into an array. *)
Definition shaped (inp out : jimage) : Prop :=
  (ji_sub out = false \/ (ji_width out = ji_width inp /\ ji_height out = ji_height inp)) /\ ji_width inp * ji_height inp <= 2147483647.

(** Floats in, floats out: separate arrays. *)
Record fargs (V : fvm) (inp out : jimage) : Prop := {
  fa_in : fvalid V inp;
  fa_out : fvalid V out;
  fa_free : all_back V;
  fa_apart : ji_array inp <> ji_array out;
  fa_shape : shaped inp out }.

(** Floats in, bytes out. *)
Record fbargs (V : fvm) (inp out : jimage) : Prop := {
  fb_in : fvalid V inp;
  fb_out : jvalid JByte (fv_int V) out;
  fb_free : all_back V;
  fb_shape : shaped inp out }.

(** The C++ image [g] shows the Java image. *)
Definition fshows (V : fvm) (im : jimage) (g : gray spec_float) : Prop :=
  wf g /\ g_width g = ji_width im /\ g_height g = ji_height im /\ forall x y, pixel g x y = fpixel V im x y.

(** Effect of a call that writes floats: see [jeffect].  The integer arrays do not change. *)
Record feffect (V : fvm) (inp out : jimage) (V' : fvm) (out' : jimage) (F : Z -> Z -> option spec_float) : Prop := {
  fe_size : ji_width out' = ji_width inp /\ ji_height out' = ji_height inp;
  fe_pixels : forall x y, jinside inp x y -> fpixel V' out' x y = F x y;
  fe_free : fv_held V' = [];
  fe_int : fv_int V' = fv_int V;
  fe_others : forall a, a <> ji_array out' -> 0 <= a < zlen (fv_floats V) -> znth (fv_floats V') a = znth (fv_floats V) a;
  fe_valid : fvalid V' out';
  fe_same : ji_width out = ji_width inp -> ji_height out = ji_height inp -> out' = out /\
    exists a a', znth (fv_floats V) (ji_array out) = Some a /\ znth (fv_floats V') (ji_array out) = Some a' /\
      zlen a' = zlen a /\ forall j, (forall x y, jinside out x y -> jpos out x y <> j) -> znth a' j = znth a j;
  fe_array : ji_array out' = ji_array out \/ zlen (fv_floats V) <= ji_array out' }.

(** Effect of a call that writes bytes: see [jeffect]; the arrays of floats do not change. *)
Definition fbeffect (V : fvm) (inp out : jimage) (V' : fvm) (out' : jimage) (F : Z -> Z -> option Z) : Prop :=
  jeffect JByte (fv_int V) inp out (fv_int V') out' F /\ fv_floats V' = fv_floats V /\ fv_held V' = [].

(** The pixels of the output are numbers and are [D] up to [e]. *)
Definition fnear (inp : jimage) (F : Z -> Z -> option spec_float) (D e : Z -> Z -> R) : Prop :=
  forall x y, jinside inp x y -> exists v, F x y = Some v /\ finite F32 v /\ (Rabs (val v - D x y) <= e x y)%R.

(** The largest float. *)
Definition largest : spec_float := S754_finite false 16777215 104.

(** Pixels are numbers of magnitude at most [M]. *)
Definition fbounded (V : fvm) (im : jimage) (M : R) : Prop :=
  forall x y p, fpixel V im x y = Some p -> finite F32 p /\ (Rabs (val p) <= M)%R.

(** ** Convolution *)

(** The image continued to the whole plane by the border. *)
Definition fsample (b : fborder) (V : fvm) (im : jimage) (x y : Z) : option spec_float :=
  match b with
  | FValue v => if (0 <=? x) && (x <? ji_width im) && (0 <=? y) && (y <? ji_height im) then fpixel V im x y else Some v
  | FLines row column => fpixel V im (line_at row (ji_width im) x) (line_at column (ji_height im) y)
  | FBorder => None
  end.

(** Borders that are passed on: zero, and the same rule for rows and columns. *)
Definition f_passed_on (b : fborder) : Prop := b = FValue (S754_zero false) \/ exists l, b = FLines l l /\ l <> LOther.

(** Along a side of length [n] the kernel reaches no further than the rule supports. *)
Definition f_line_fits (b : fborder) (n : Z) (k : fkernel) : Prop :=
  match b with
  | FLines LReflect _ => fk_offset k < n /\ fk_width k - fk_offset k <= n
  | FLines LWrap _ => fk_offset k <= n /\ fk_width k - fk_offset k - 1 <= n
  | _ => True
  end.

(** Java's kernels: one line, or a square stored row by row. *)
Definition fkernel1_ok (k : fkernel) : Prop :=
  0 <= fk_offset k < fk_width k /\ fk_width k <= 1073741824 /\ zlen (fk_data k) = fk_width k.
Definition fkernel2_ok (k : fkernel) : Prop :=
  0 <= fk_offset k < fk_width k /\ fk_width k < 65536 /\ zlen (fk_data k) = fk_width k * fk_width k.

(** ** Blur *)

(** Input, output and storage: separate arrays, the storage has the size of the input, can get it or is absent. *)
Record fargs3 (V : fvm) (inp out : jimage) (storage : option jimage) : Prop := {
  f3_images : fargs V inp out;
  f3_storage : match storage with
    | None => True
    | Some s => fvalid V s /\ ji_array s <> ji_array inp /\ ji_array s <> ji_array out /\
        (ji_sub s = false \/ (ji_width s = ji_width inp /\ ji_height s = ji_height inp))
    end }.

(** Effect: see [jblurred]. *)
Record fblurred (V : fvm) (inp out : jimage) (storage : option jimage) (V' : fvm) (out' storage' : jimage)
    (F : Z -> Z -> option spec_float) : Prop := {
  fl_size : ji_width out' = ji_width inp /\ ji_height out' = ji_height inp;
  fl_pixels : forall x y, jinside inp x y -> fpixel V' out' x y = F x y;
  fl_free : fv_held V' = [];
  fl_int : fv_int V' = fv_int V;
  fl_others : forall a, a <> ji_array out' -> a <> ji_array storage' -> 0 <= a < zlen (fv_floats V) ->
    znth (fv_floats V') a = znth (fv_floats V) a;
  fl_valid : fvalid V' out' /\ fvalid V' storage' /\ ji_array storage' <> ji_array out';
  fl_storage : match storage with
    | Some s => ji_array storage' = ji_array s \/ zlen (fv_floats V) <= ji_array storage'
    | None => zlen (fv_floats V) <= ji_array storage'
    end;
  fl_same : ji_width out = ji_width inp -> ji_height out = ji_height inp -> out' = out /\
    exists a a', znth (fv_floats V) (ji_array out) = Some a /\ znth (fv_floats V') (ji_array out) = Some a' /\
      zlen a' = zlen a /\ forall j, (forall x y, jinside out x y -> jpos out x y <> j) -> znth a' j = znth a j;
  fl_array : ji_array out' = ji_array out \/ zlen (fv_floats V) <= ji_array out' }.

(** Storage images that a filter of local means keeps. *)
Definition f_storage_ok (s : gray spec_float * gray spec_float) : Prop :=
  wf (fst s) /\ wf (snd s) /\ g_sub (fst s) = false /\ g_sub (snd s) = false.

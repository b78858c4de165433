(** What a Java program sees: pixels of its images, and which sequences of operations on objects it can perform. *)
From Coq Require Import QArith.
From Verif Require Import Base M_Image S_Image M_Border S_Border M_Contour M_Jni S_Jni M_Native.
Open Scope Z_scope.

(** Range of Java's byte, short and int. *)
Definition jrange (t : jelem) (v : Z) : Prop :=
  match t with
  | JByte => -128 <= v <= 127
  | JShort => -32768 <= v <= 32767
  | JInt => -2147483648 <= v <= 2147483647
  end.

(** Value of a pixel: bytes are unsigned in GrayU8 ([data[i] & 0xFF]). *)
Definition jvalue (t : jelem) (v : Z) : Z := match t with JByte => if v <? 0 then v + 256 else v | _ => v end.
Definition jvalue_range (t : jelem) (v : Z) : Prop := match t with JByte => 0 <= v <= 255 | _ => jrange t v end.

(** Java's [get(x,y)]. *)
Definition jinside (im : jimage) (x y : Z) : Prop := 0 <= x < ji_width im /\ 0 <= y < ji_height im.
Definition jpos (im : jimage) (x y : Z) : Z := ji_start im + y * ji_stride im + x.
Definition jpixel (t : jelem) (J : jvm) (im : jimage) (x y : Z) : option Z :=
  if (0 <=? x) && (x <? ji_width im) && (0 <=? y) && (y <? ji_height im) then
    match znth (jv_arrays J) (ji_array im) with
    | Some a => match znth a (jpos im x y) with Some v => Some (jvalue t v) | None => None end
    | None => None
    end
  else None.

(** An image whose rows lie one after the other inside its array. *)
Record jvalid (t : jelem) (J : jvm) (im : jimage) : Prop := {
  jv_size : 0 <= ji_width im /\ 0 <= ji_height im <= 2147483647 /\ 0 <= ji_start im;
  jv_stride : ji_width im <= ji_stride im <= 2147483647;
  jv_start : ji_start im <= 2147483647;
  jv_own : ji_sub im = false -> ji_start im = 0 /\ ji_stride im = ji_width im;
  jv_array : exists a, znth (jv_arrays J) (ji_array im) = Some a /\ zlen a <= 2147483647 /\ Forall (jrange t) a /\
    (0 < ji_width im -> 0 < ji_height im -> ji_start im + (ji_height im - 1) * ji_stride im + ji_width im <= zlen a) }.

(** Input and output of a call: separate arrays; the output has the size of the input or can be given it. *)
Record jargs (tin tout : jelem) (J : jvm) (inp out : jimage) : Prop := {
  ja_in : jvalid tin J inp;
  ja_out : jvalid tout J out;
  ja_free : jv_held J = [];
  ja_apart : ji_array inp <> ji_array out;
  ja_shape : ji_sub out = false \/ (ji_width out = ji_width inp /\ ji_height out = ji_height inp);
  ja_area : ji_width inp * ji_height inp <= 2147483647 }.

(** The C++ image [g] shows the Java image. *)
Definition shows (t : jelem) (J : jvm) (im : jimage) (g : gray Z) : Prop :=
  wf g /\ g_width g = ji_width im /\ g_height g = ji_height im /\ forall x y, pixel g x y = jpixel t J im x y.

(** Effect of a call: [out'] is the output image afterwards, has the size of the input and the pixels [F]; all arrays are
    given back; nothing else changes, and the array of an output image of the right size only at its pixels.  The output keeps
    its array or has a new one. *)
Record jeffect (t : jelem) (J : jvm) (inp out : jimage) (J' : jvm) (out' : jimage) (F : Z -> Z -> option Z) : Prop := {
  je_size : ji_width out' = ji_width inp /\ ji_height out' = ji_height inp;
  je_pixels : forall x y, jinside inp x y -> jpixel t J' out' x y = F x y;
  je_free : jv_held J' = [];
  je_others : forall a, a <> ji_array out' -> 0 <= a < zlen (jv_arrays J) -> znth (jv_arrays J') a = znth (jv_arrays J) a;
  je_valid : jvalid t J' out';
  je_same : ji_width out = ji_width inp -> ji_height out = ji_height inp -> out' = out /\
    exists a a', znth (jv_arrays J) (ji_array out) = Some a /\ znth (jv_arrays J') (ji_array out) = Some a' /\
      zlen a' = zlen a /\ forall j, (forall x y, jinside out x y -> jpos out x y <> j) -> znth a' j = znth a j;
  je_array : ji_array out' = ji_array out \/ zlen (jv_arrays J) <= ji_array out' }.

(** Storage images that a filter of local means keeps. *)
Definition storage_ok (s : gray Z * gray Z) : Prop := wf (fst s) /\ wf (snd s) /\ g_sub (fst s) = false /\ g_sub (snd s) = false.

(** ** Convolution *)

(** Output elements with 16 or 32 bits. *)
Definition out_bits (t : jelem) : Z := match t with JByte => 8 | JShort => 16 | JInt => 32 end.
Definition out_type (t : jelem) : ity := match t with JByte => U8 | JShort => S16 | JInt => S32 end.

(** The image continued to the whole plane by the border: each coordinate has its own rule. *)
Definition line_at (l : jline) (n x : Z) : Z :=
  match l with LExtend => nearest n x | LReflect => mirrored n x | LWrap => periodic n x | LOther => x end.
Definition jsample (b : jborder) (J : jvm) (im : jimage) (x y : Z) : Z :=
  match b with
  | JValue v => match jpixel JByte J im x y with Some p => p | None => v end
  | JLines row column =>
      match jpixel JByte J im (line_at row (ji_width im) x) (line_at column (ji_height im) y) with Some p => p | None => 0 end
  | JBorder => 0
  end.

(** Borders that are passed on: zero, and the same rule for rows and columns. *)
Definition passed_on (b : jborder) : Prop := b = JValue 0 \/ exists l, b = JLines l l /\ l <> LOther.

(** Along a side of length [n] the kernel reaches no further than the rule supports. *)
Definition line_fits (b : jborder) (n : Z) (k : jkernel) : Prop :=
  match b with
  | JLines LReflect _ => jk_offset k < n /\ jk_width k - jk_offset k <= n
  | JLines LWrap _ => jk_offset k <= n /\ jk_width k - jk_offset k - 1 <= n
  | _ => True
  end.

(** Java's kernels: one line, or a square stored row by row. *)
Definition jkernel1_ok (k : jkernel) : Prop :=
  0 <= jk_offset k < jk_width k /\ jk_width k <= 1073741824 /\ zlen (jk_data k) = jk_width k.
Definition jkernel2_ok (k : jkernel) : Prop :=
  0 <= jk_offset k < jk_width k /\ jk_width k < 65536 /\ zlen (jk_data k) = jk_width k * jk_width k.

(** ** Objects *)

(** Objects that an operation refers to. *)
Definition op_object (o : jop) : option nat :=
  match o with JNew _ => None | JUse i => Some i | JDestroy i => Some i | JFinalize i => Some i | JType i _ => Some i end.

(** Java finalizes an object at most once and does nothing with it afterwards; an operation refers to an existing object.
    [n] objects exist, those in [dead] were finalized. *)
Fixpoint java_order (n : nat) (dead : list nat) (l : list jop) : Prop :=
  match l with
  | [] => True
  | o :: r =>
      match op_object o with
      | None => java_order (S n) dead r
      | Some i => (i < n)%nat /\ ~ In i dead /\ java_order n (match o with JFinalize _ => i :: dead | _ => dead end) r
      end
  end.

(** Destroyed objects are not used any more. *)
Fixpoint unused_after_destroy (gone : list nat) (l : list jop) : Prop :=
  match l with
  | [] => True
  | JUse i :: r => ~ In i gone /\ unused_after_destroy gone r
  | JDestroy i :: r => unused_after_destroy (i :: gone) r
  | _ :: r => unused_after_destroy gone r
  end.

(** Number of objects made. *)
Definition objects (l : list jop) : nat := length (filter (fun o => match o with JNew _ => true | _ => false end) l).

Definition no_destroy (l : list jop) : Prop := forall i, ~ In (JDestroy i) l.
Definition no_retype (l : list jop) : Prop := forall i b, ~ In (JType i b) l.

(** ** Contours *)

(** Inputs of a call: a 0/1 image, and a label image that has its size or can get it. *)
Record nc_args (grow : Z -> Z) (q : jqueue) (fuel : nat) (J : jvm) (binary labeled : jimage) : Prop := {
  na_images : jargs JByte JInt J binary labeled;
  na_binary : forall x y v, jpixel JByte J binary x y = Some v -> v = 0 \/ v = 1;
  na_size : 4 * (ji_width binary + 2) * (ji_height binary + 2) <= 1000000000;
  na_stride : ji_stride labeled < 2147483647;
  na_grow : forall n, 0 <= n <= 2147483647 -> n <= grow n <= 2147483647;
  na_queue : queue_ok q;
  na_fuel : 4 * ji_width binary * ji_height binary <= Z.of_nat fuel }.

(** A setting with Java's ints; the rule is one of the two. *)
Definition nc_valid (s : nc_setting) : Prop :=
  match s with
  | SetInner _ => True
  | SetMin n => -2147483648 <= n <= 2147483647
  | SetMax n => -2147483648 <= n <= 2147483647
  | SetRule o => o = 0 \/ o = 1
  end.

(** Contour finders that a Java program can hold. *)
Inductive jused : jfinder -> Prop :=
| ju_new : jused nc_new
| ju_set F s lb : jused F -> nc_valid s -> nc_set (nc_lb F) s = Ok lb -> jused (mkJf lb (nc_contours F) (nc_points F))
| ju_process grow q fuel F J binary labeled F' J' labeled' : jused F -> nc_args grow q fuel J binary labeled ->
    nc_process grow q fuel F J binary labeled = Ok (F', J', labeled') -> jused F'.

(** What the getters return, and what a setting makes of it. *)
Record jsettings := mkSet { js_inner : bool; js_min : Z; js_max : Z; js_rule : Z }.
Definition settings (lb : labeler) : jsettings := mkSet (nc_get_inner lb) (nc_get_min lb) (nc_get_max lb) (nc_get_rule lb).
Definition set_step (s : jsettings) (c : nc_setting) : jsettings :=
  match c with
  | SetInner b => mkSet b (js_min s) (js_max s) (js_rule s)
  | SetMin n => mkSet (js_inner s) n (js_max s) (js_rule s)
  | SetMax n => mkSet (js_inner s) (js_min s) n (js_rule s)
  | SetRule o => mkSet (js_inner s) (js_min s) (js_max s) o
  end.

(** The rule with an ordinal. *)
Definition jrule (s : jsettings) : crule := if js_rule s =? 0 then Four else Eight.

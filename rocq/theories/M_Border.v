(** Model of image borders (boofcpp/src/boofcv/image_border.h). *)
From Verif Require Import Base M_Image.

(** The four concrete border classes: image_border.h:61-78 (value), 83-92 (extend), 97-106 (reflect), 111-120 (wrap). *)
Inductive border (A : Type) :=
| BValue (v : A)
| BExtend
| BReflect
| BWrap.
Arguments BValue {A} v.
Arguments BExtend {A}.
Arguments BReflect {A}.
Arguments BWrap {A}.

(** image_border.h:86-91 [ImageBorderExtend::adjust].  [x] is int32_t, [m] uint32_t: with a non-negative [x] the
    comparison is exact, [max_value-1] is computed in 32 bits and converted back. *)
Definition adjust_extend (x m : Z) : outcome Z :=
  if x <? 0 then Ok 0 else if m <=? x then Ok (s32 (u32 (m - 1))) else Ok x.

(** image_border.h:100-105 [ImageBorderReflect::adjust].  [-x] overflows for the smallest int. *)
Definition adjust_reflect (x m : Z) : outcome Z :=
  if x <? 0 then arith_result S32 (- x) else if m <=? x then Ok (s32 (u32 (m - 2 - (x - m)))) else Ok x.

(** image_border.h:114-119 [ImageBorderWrap::adjust]. *)
Definition adjust_wrap (x m : Z) : outcome Z :=
  if x <? 0 then Ok (s32 (u32 (m + x))) else if m <=? x then Ok (s32 (u32 (x - m))) else Ok x.

(** image_border.h:47-51 [ImageBorderIndex::outside_get] for a given [adjust]. *)
Definition outside_index {A} (adjust : Z -> Z -> outcome Z) (g : gray A) (x y : Z) : outcome A :=
  let* x' := adjust x (g_width g) in
  let* y' := adjust y (g_height g) in
  gray_unsafe_get g x' y'.

(** image_border.h:75-77 and 47-51 [outside_get]. *)
Definition outside_get {A} (b : border A) (g : gray A) (x y : Z) : outcome A :=
  match b with
  | BValue v => Ok v
  | BExtend => outside_index adjust_extend g x y
  | BReflect => outside_index adjust_reflect g x y
  | BWrap => outside_index adjust_wrap g x y
  end.

(** image_border.h:34-39 [ImageBorder::get] for a border whose image is [g]. *)
Definition border_get {A} (b : border A) (g : gray A) (x y : Z) : outcome A :=
  if (0 <=? x) && (0 <=? y) && (x <? g_width g) && (y <? g_height g) then gray_get g x y
  else outside_get b g x y.

(** image_border.h:122-159 [BorderType]. *)
Inductive border_type := SKIP | EXTENDED | NORMALIZED | REFLECT | WRAP | ZERO.

(** image_border.h:165-180 [FactoryImageBorder::create_SB]. *)
Definition create_SB {A} (zero : A) (t : border_type) : outcome (border A) :=
  match t with
  | EXTENDED => Ok BExtend
  | REFLECT => Ok BReflect
  | WRAP => Ok BWrap
  | ZERO => Ok (BValue zero)
  | SKIP => Throw
  | NORMALIZED => Throw
  end.

(** image_border.h:22-24, 26-28 [ImageBorder::getWidth], [ImageBorder::getHeight]. *)
Definition border_size {A} (g : gray A) : Z * Z := (g_width g, g_height g).

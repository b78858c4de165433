(** What thresholding by local means should compute. *)
From Coq Require Import QArith.
From Verif Require Import Base M_Image S_Image S_Blur.
Open Scope Z_scope.

(** Binary value of pixel value [v] where the mean of the region is [m]. *)
Definition local_value (down : bool) (scale : Q) (v m : Z) : Z :=
  if down then if Qle_bool (inject_Z v) (inject_Z m * scale) then 1 else 0
  else if Qle_bool (inject_Z v * scale) (inject_Z m) then 0 else 1.

(** Binary value of the pixel at (x,y) for square regions of radius [r]. *)
Definition local_pixel (down : bool) (scale : Q) (g : gray Z) (r x y : Z) : option Z :=
  match pixel g x y with Some v => Some (local_value down scale v (mean_box g r x y)) | None => None end.

(** Model of ConfigLength (config_types.h:20-62, config_types.cpp).  No proofs. *)
From Verif Require Import Base M_Otsu.

(** config_types.h:22-30 [length], [fraction]. *)
Record clen (D : Type) := mkClen { cl_length : D; cl_fraction : D }.
Arguments mkClen {D} _ _.
Arguments cl_length {D} _.
Arguments cl_fraction {D} _.

(** config_types.h:24, 29 and config_types.cpp:12: default constructor. *)
Definition clen_default {D} (O : dops D) : clen D := mkClen (d_of O (-1)) (d_of O (-1)).

(** config_types.cpp:14-16 [fixed]. *)
Definition clen_fixed {D} (O : dops D) (pixels : D) : clen D := mkClen pixels (d_of O (-1)).

(** config_types.cpp:18-20 [relative]. *)
Definition clen_relative {D} (O : dops D) (fraction : D) (minimum : Z) : clen D := mkClen (d_of O minimum) fraction.

(** [fmax] (config_types.cpp:26): the larger argument, the other one if one is NaN. *)
Definition d_max {D} (O : dops D) (a b : D) : D :=
  if d_le O a a then if d_lt O a b then b else a else b.

(** config_types.cpp:22-32 [compute]. *)
Definition clen_compute {D} (O : dops D) (c : clen D) (total : D) : D :=
  if d_le O (d_of O 0) (cl_fraction c) then d_max O (d_mul O (cl_fraction c) total) (cl_length c)
  else cl_length c.

(** config_types.cpp:34-36 [isRelative]. *)
Definition clen_isRelative {D} (O : dops D) (c : clen D) : bool := d_le O (d_of O 0) (cl_fraction c).

(** config_types.cpp:38-40 [isFixed]. *)
Definition clen_isFixed {D} (O : dops D) (c : clen D) : bool := d_lt O (cl_fraction c) (d_of O 0).

(** The literal 0.5 (config_types.cpp:45, 51). *)
Definition d_half {D} (O : dops D) : D := d_div O (d_of O 1) (d_of O 2).

(** config_types.cpp:42-48 [computeI]. *)
Definition clen_computeI {D} (O : dops D) (c : clen D) (total : D) : outcome Z :=
  let size := clen_compute O c total in
  if d_le O (d_of O 0) size then d_to O S32 (d_add O size (d_half O)) else Ok (-1).

(** config_types.cpp:50-52 [getLengthI]. *)
Definition clen_getLengthI {D} (O : dops D) (c : clen D) : outcome Z :=
  d_to O S32 (d_add O (cl_length c) (d_half O)).

(** config_types.cpp:54-57 [checkValidity]. *)
Definition clen_checkValidity {D} (O : dops D) (c : clen D) : outcome unit :=
  if d_lt O (cl_length c) (d_of O 0) && d_lt O (cl_fraction c) (d_of O 0) then Throw else Ok tt.

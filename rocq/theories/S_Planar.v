(** Specification vocabulary for planar images. *)
From Verif Require Import Base M_Image S_Image M_Planar.

(** A size that fits. *)
Definition size_ok (w h : Z) : Prop := 0 <= w < 4294967296 /\ 0 <= h < 4294967296 /\ w * h < 4294967296.

(** Nothing but the bands differs. *)
Definition same_header {A} (P P' : planar A) : Prop :=
  p_width P' = p_width P /\ p_height P' = p_height P /\ p_offset P' = p_offset P /\ p_stride P' = p_stride P /\
  p_sub P' = p_sub P /\ p_num P' = p_num P /\ p_ptr P' = p_ptr P.

(** Planar images that a program can make: created, reshaped, pixels of a band written, a band reshaped on its own. *)
Inductive planar_of {A} (zero : A) : planar A -> Prop :=
| PO_new M w h n : size_ok w h -> 0 <= n < 4294967296 -> planar_of zero (snd (p_new zero M w h n))
| PO_reshape P w h P' : planar_of zero P -> size_ok w h -> p_reshape zero P w h = Ok P' -> planar_of zero P'
| PO_set P k x y v P' : planar_of zero P -> 0 <= k -> 0 <= x -> 0 <= y ->
    p_on_band (fun g => gray_set g x y v) P k = Ok P' -> planar_of zero P'
| PO_band P k w h P' : planar_of zero P -> 0 <= k -> size_ok w h ->
    p_on_band (fun g => gray_reshape zero g w h) P k = Ok P' -> planar_of zero P'.

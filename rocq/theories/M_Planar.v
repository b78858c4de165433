(** Model of [Planar]: an image that is an array of [Gray] images.  No proofs. *)
From Verif Require Import Base M_Image.

(** image_types.h:222-227: the fields.  The band objects belong to the planar image, so they are written in place of the
    pointers to them; [p_ptr] is the array [bands] itself, see [blocks]. *)
Record planar (A : Type) := mkPlanar {
  p_width : Z;
  p_height : Z;
  p_offset : Z;
  p_stride : Z;
  p_sub : bool;
  p_num : Z;
  p_bands : list (gray A);
  p_ptr : nat
}.
Arguments mkPlanar {A} _ _ _ _ _ _ _ _.
Arguments p_width {A} _.
Arguments p_height {A} _.
Arguments p_offset {A} _.
Arguments p_stride {A} _.
Arguments p_sub {A} _.
Arguments p_num {A} _.
Arguments p_bands {A} _.
Arguments p_ptr {A} _.

(** ** Memory *)

(** How a block was obtained (image_types.h:236 [new T*[n]], 238 [new T(width,height)]). *)
Inductive origin := ByNew | ByNewArray.

(** Blocks in order of allocation; [None] was freed (image_types.h:244-256).  Blocks are not reused. *)
Definition blocks := list (option origin).

(** [delete] and [delete []] (image_types.h:250, 252): the block must exist and come from the matching [new]. *)
Definition b_delete (M : blocks) (b : nat) (o : origin) : outcome blocks :=
  match nth_error M b, o with
  | Some (Some ByNew), ByNew => Ok (upd M b None)
  | Some (Some ByNewArray), ByNewArray => Ok (upd M b None)
  | _, _ => Undef
  end.

(** ** Members *)

(** image_types.h:228-240 [Planar(width,height,num_bands)]; [M] is the memory before. *)
Definition p_new {A} (zero : A) (M : blocks) (w h n : Z) : blocks * planar A :=
  (M ++ Some ByNewArray :: repeat (Some ByNew) (Z.to_nat n),
   mkPlanar w h 0 w false n (repeat (gray_new zero w h) (Z.to_nat n)) (length M)).

(** image_types.h:242-243 [Planar()]. *)
Definition p_default {A} (zero : A) (M : blocks) : blocks * planar A := p_new zero M 0 0 0.

(** image_types.h:245-256 [~Planar]: the loop says [delete bands], not [delete bands[i]]. *)
Definition p_destroy {A} (M : blocks) (P : planar A) : outcome blocks :=
  let* M := for_range 0 (p_num P) (fun _ M => b_delete M (p_ptr P) ByNew) M in
  b_delete M (p_ptr P) ByNewArray.

(** image_types.h:258-268 [reshape]. *)
Definition p_reshape {A} (zero : A) (P : planar A) (w h : Z) : outcome (planar A) :=
  if p_sub P then Throw
  else
    let* bands := for_range 0 (p_num P) (fun i bands =>
                    let* g := bget bands i in
                    let* g' := gray_reshape zero g w h in
                    bset bands i g') (p_bands P) in
    Ok (mkPlanar w h (p_offset P) w (p_sub P) (p_num P) bands (p_ptr P)).

(** image_types.h:314-318 [getBand] as a value. *)
Definition p_band {A} (P : planar A) (k : Z) : outcome (gray A) :=
  if p_num P <=? k then Throw else bget (p_bands P) k.

(** image_types.h:314-318 [getBand] when a member function [f] of [Gray] that changes the image is applied to the result. *)
Definition p_on_band {A} (f : gray A -> outcome (gray A)) (P : planar A) (k : Z) : outcome (planar A) :=
  let* g := p_band P k in
  let* g' := f g in
  let* bands := bset (p_bands P) k g' in
  Ok (mkPlanar (p_width P) (p_height P) (p_offset P) (p_stride P) (p_sub P) (p_num P) bands (p_ptr P)).

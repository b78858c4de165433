(** Properties of functions whose output image shares memory with the input: C121. *)
From Coq Require Import QArith Floats.SpecFloat.
From Verif Require Import BaseFacts M_Image S_Image M_Convolve M_GrowArray M_PackedSet M_Normalized M_Blur M_Float
  M_Stats M_Misc M_Otsu M_Config M_Heap S_Heap M_Binary M_Local M_Block M_Shared S_Shared L_Shared L_SharedTop.
Open Scope Z_scope.

(** C121.  [good H a g]: object [a] shows image [g] in heap [H].  [may_take a out]: no pixel of the output lies in the
    place of a later pixel of the input.  The result is that of the same call on separate copies. *)
Theorem C121_threshold : forall H a out g go t down, good H a g -> good H out go -> may_take a out ->
  as_copies H out (only (threshold Z.leb Z.gtb g t down go)) (only (h_threshold H a t down out)).
Proof. exact threshold_shared. Qed.
Print Assumptions C121_threshold.

Theorem C121_otsu : forall D (O : dops D) H a out g go mn mx down, good H a g -> good H out go -> may_take a out ->
  as_copies H out (only (global_otsu O U8 g mn mx down go)) (only (h_global_otsu O H a mn mx down out)).
Proof. exact @otsu_shared. Qed.
Print Assumptions C121_otsu.

Theorem C121_local : forall D S T (O : dops D) (N : narith Z S) (M : marith Z T) c (L : lcmp Z) width down H a out g go s1 s2,
  good H a g -> good H out go -> may_take a out ->
  as_copies H out (local_mean O N M 0 c L width down g go s1 s2) (h_local_mean O N M c L width down H a out s1 s2).
Proof. exact @local_shared. Qed.
Print Assumptions C121_local.

(** The block filters visit the pixels block by block; an output that shares memory must do so pixel on pixel. *)
Theorem C121_block_mean : forall S D (M : bmean Z S) local down (O : dops D) request stats H a out g go,
  good H a g -> good H out go -> aligned a out ->
  as_copies H out (let* '(st, g') := block_process (block_mean M 0 local down) O request stats g go in Ok (g', st))
    (let* '(st, H') := h_block_process (block_mean M 0 local down) (mean_rule M local down) false O request stats H a out in
     Ok (H', out, st)).
Proof. exact @block_mean_shared. Qed.
Print Assumptions C121_block_mean.

Theorem C121_block_minmax : forall A D (M : bminmax Z A) local down (O : dops D) request stats H a out g go,
  good H a g -> good H out go -> aligned a out ->
  as_copies H out (let* '(st, g') := block_process (block_minmax M 0 local down) O request stats g go in Ok (g', st))
    (let* '(st, H') := h_block_process (block_minmax M 0 local down) (minmax_rule M local down) false O request stats H a out in
     Ok (H', out, st)).
Proof. exact @block_minmax_shared. Qed.
Print Assumptions C121_block_minmax.

Theorem C121_block_otsu : forall D (O : dops D) u8 two tuning scale local down (O' : dops D) request stats H a out g go,
  good H a g -> good H out go -> aligned a out ->
  as_copies H out (let* '(st, g') := block_process (block_otsu O u8 two tuning scale local down) O' request stats g go in Ok (g', st))
    (let* '(st, H') := h_block_process (block_otsu O u8 two tuning scale local down)
                         (otsu_rule O u8 two tuning scale local down) true O' request stats H a out in
     Ok (H', out, st)).
Proof. exact @block_otsu_shared. Qed.
Print Assumptions C121_block_otsu.

(** Blur: any overlap of input and output. *)
Theorem C121_blur_mean : forall Px (t0 : Px) H a out g go, good H a g -> good H out go ->
  h_width out = h_width a /\ h_height out = h_height a \/ h_sub out = false ->
  forall S T (N : narith Px S) (M : marith Px T) c radius storage,
  as_copies H out (blur_mean N M t0 c radius g go storage) (h_blur_mean N M t0 c radius H a out storage).
Proof. exact @blur_mean_shared. Qed.
Print Assumptions C121_blur_mean.

Theorem C121_blur_gaussian : forall Px (t0 : Px) H a out g go, good H a g -> good H out go ->
  h_width out = h_width a /\ h_height out = h_height a \/ h_sub out = false ->
  forall S (N : narith Px S) K storage,
  as_copies H out (blur_gaussian N t0 K g go storage) (h_blur_gaussian N t0 K H a out storage).
Proof. exact @blur_gaussian_shared. Qed.
Print Assumptions C121_blur_gaussian.

(** Erosion and dilation: images without a common pixel. *)
Theorem C121_morph : forall test H a out g go, good H a g -> good H out go ->
  h_width out = h_width a /\ h_height out = h_height a \/ h_sub out = false -> apart a (target a out) ->
  0 < h_width a <= 2147483648 -> 0 < h_height a <= 2147483648 ->
  as_copies H out (only (morph4 test g go)) (only (h_morph4 test H a out)).
Proof. exact morph_shared. Qed.
Print Assumptions C121_morph.

(** Uses that meet the conditions: in place, other memory, a sub-image into the image that it is part of. *)
Theorem C121_in_place : forall H a (g : gray Z), good H a g -> may_take a a /\ aligned a a.
Proof. exact take_self. Qed.
Print Assumptions C121_in_place.

Theorem C121_other : forall a out, h_width out = h_width a /\ h_height out = h_height a \/ h_sub out = false ->
  h_block a <> h_block out -> may_take a out /\ aligned a out /\ apart a (target a out).
Proof. exact take_other. Qed.
Print Assumptions C121_other.

Theorem C121_parent : forall H p (gp : gray Z) x0 y0 x1 y1 s, good H p gp -> h_sub p = false ->
  is32 x0 -> is32 y0 -> is32 x1 -> is32 y1 -> h_subimage p x0 y0 x1 y1 = Ok s ->
  exists gs, good H s gs /\ may_take s p.
Proof. exact take_parent. Qed.
Print Assumptions C121_parent.

(** Thresholding an image in place, in terms of its pixels. *)
Theorem C121_pixels : forall H a g t down, good H a g ->
  exists H' g', h_threshold H a t down a = Ok (H', a) /\ good H' a g' /\
    (forall x y v, pixel g x y = Some v -> pixel g' x y = Some (if (if down then v <=? t else v >? t) then 1 else 0)) /\
    (forall j, outside_window g j -> znth (g_data g') j = znth (g_data g) j) /\
    (forall k, k <> h_block a -> (k < length H)%nat -> nth_error H' k = nth_error H k).
Proof. exact threshold_in_place. Qed.
Print Assumptions C121_pixels.

(** Without the conditions the results differ. *)
Theorem C121_overlap_refuted : exists H a out g go t, good H a g /\ good H out go /\
  h_width out = h_width a /\ h_height out = h_height a /\
  ~ as_copies H out (only (threshold Z.leb Z.gtb g t true go)) (only (h_threshold H a t true out)).
Proof. exact threshold_overlap. Qed.
Print Assumptions C121_overlap_refuted.

Theorem C121_dilate_refuted : exists H a g, good H a g /\ ~ as_copies H a (only (dilate4 g g)) (only (h_dilate4 H a a)).
Proof. exact dilate_in_place. Qed.
Print Assumptions C121_dilate_refuted.

Theorem C121_erode_refuted : exists H a g, good H a g /\ ~ as_copies H a (only (erode4 g g)) (only (h_erode4 H a a)).
Proof. exact erode_in_place. Qed.
Print Assumptions C121_erode_refuted.

(** An image of 4x2 pixels with its right half as sub-image. *)
Definition sh_heap : heap Z := [Some [10;20;30;40; 50;60;70;80]].
Definition sh_img : himg := mkHimg 4 2 0 4 false 0 8.
Definition sh_right : himg := mkHimg 2 2 2 4 true 0 8.
Definition sh_g : gray Z := mkGray 4 2 0 4 false [10;20;30;40; 50;60;70;80].
Example C121_hypotheses : good sh_heap sh_img sh_g /\ may_take sh_img sh_img /\
  h_subimage sh_img 2 0 4 2 = Ok sh_right /\ may_take sh_right sh_img /\
  h_threshold sh_heap sh_img 35 true sh_img = Ok ([Some [1;1;1;0; 0;0;0;0]], sh_img) /\
  h_threshold sh_heap sh_right 35 true sh_img = Ok ([Some [1;0;0;0; 50;60;70;80]], mkHimg 2 2 0 2 false 0 8) /\
  (exists st st' H', block_init (block_mean (int_bmean exact U8 1%Q) 0 false true) = Ok st /\
     h_block_process (block_mean (int_bmean exact U8 1%Q) 0 false true) (mean_rule (int_bmean exact U8 1%Q) false true) false
       exact (clen_fixed exact 2%Q) st sh_heap sh_img sh_img = Ok (st', H') /\ H' = [Some [1;1;1;1; 0;0;0;0]]).
Proof.
  assert (G : good sh_heap sh_img sh_g) by good_tac.
  assert (E : h_subimage sh_img 2 0 4 2 = Ok sh_right) by reflexivity.
  split; [exact G|]. split; [exact (proj1 (take_self _ _ _ G))|]. split; [exact E|]. split.
  { destruct (take_parent sh_heap sh_img sh_g 2 0 4 2 sh_right G eq_refl) as (gs & _ & T); auto; unfold is32; lia. }
  split; [reflexivity|]. split; [reflexivity|]. eexists _, _, _. split; [vm_compute; reflexivity|]. split; [vm_compute; reflexivity|]. reflexivity.
Qed.

(** Left and right half of an image: no common pixel. *)
Definition sh_wide : heap Z := [Some (repeat 1 24)].
Definition sh_left3 : himg := mkHimg 3 4 0 6 true 0 24.
Definition sh_right3 : himg := mkHimg 3 4 3 6 true 0 24.
(** Blur of floats in place. *)
Definition sh_float : list spec_float := map (float_of_Z F32) [3;6;9;30;33].
Example C121_float_hypotheses : good [Some sh_float] (mkHimg 5 1 0 5 false 0 5) (mkGray 5 1 0 5 false sh_float) /\
  exists s, h_blur_gaussian (float_narith F32) (float_of_Z F32 0) (mkKernel 3 1 (map (float_of_Z F32) [1;2;1])) [Some sh_float]
    (mkHimg 5 1 0 5 false 0 5) (mkHimg 5 1 0 5 false 0 5) (mkGray 0 0 0 0 false []) =
    Ok ([Some (map (float_of_Z F32) [4;6] ++ [fdiv F32 (float_of_Z F32 54) (float_of_Z F32 4); fdiv F32 (float_of_Z F32 102) (float_of_Z F32 4); float_of_Z F32 32])],
      mkHimg 5 1 0 5 false 0 5, s).
Proof. split; [good_tac|]. eexists. vm_compute. reflexivity. Qed.
Example C121_morph_hypotheses : good sh_wide sh_left3 (mkGray 3 4 0 6 true (repeat 1 24)) /\
  good sh_wide sh_right3 (mkGray 3 4 3 6 true (repeat 1 24)) /\ apart sh_left3 (target sh_left3 sh_right3) /\
  h_erode4 sh_wide sh_left3 sh_right3 = Ok ([Some (repeat 1 24)], sh_right3).
Proof.
  split; [good_tac|]. split; [good_tac|]. split; [|reflexivity]. unfold target, sh_left3, sh_right3; cbn. intros _ x y x' y'; cbn. lia.
Qed.

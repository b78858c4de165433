(** Convolution of images that share memory: C129. *)
From Coq Require Import Floats.SpecFloat.
From Verif Require Import BaseFacts M_Image S_Image M_Float M_Border S_Border M_Convolve S_Convolve M_Heap S_Heap M_Shared S_Shared L_Shared L_SharedTop M_SharedConv L_SharedConv.

Theorem C129_horizontal : forall Px S (t0 : Px) (A : arith Px S Px) (K : kernel S) (b : border Px) H a out g go, good H a g -> good H out go ->
  h_width out = h_width a /\ h_height out = h_height a \/ h_sub out = false -> apart a (target a out) ->
  h_width a <= 1073741824 -> h_height a <= 1073741824 -> kernel1_ok K -> fits b (h_width a) K ->
  as_copies H out (only (convolve_h A t0 K b g go)) (only (h_convolve_h A t0 K b H a out)).
Proof. exact @convolve_h_shared. Qed.
Print Assumptions C129_horizontal.

Theorem C129_vertical : forall Px S (t0 : Px) (A : arith Px S Px) (K : kernel S) (b : border Px) H a out g go, good H a g -> good H out go ->
  h_width out = h_width a /\ h_height out = h_height a \/ h_sub out = false -> apart a (target a out) ->
  h_width a <= 1073741824 -> h_height a <= 1073741824 -> kernel1_ok K -> fits b (h_height a) K ->
  as_copies H out (only (convolve_v A t0 K b g go)) (only (h_convolve_v A t0 K b H a out)).
Proof. exact @convolve_v_shared. Qed.
Print Assumptions C129_vertical.

Theorem C129_square : forall Px S (t0 : Px) (A : arith Px S Px) (K : kernel S) (b : border Px) H a out g go, good H a g -> good H out go ->
  h_width out = h_width a /\ h_height out = h_height a \/ h_sub out = false -> apart a (target a out) ->
  h_width a <= 1073741824 -> h_height a <= 1073741824 -> kernel2_ok K -> fits b (h_width a) K -> fits b (h_height a) K ->
  as_copies H out (only (convolve_2 A t0 K b g go)) (only (h_convolve_2 A t0 K b H a out)).
Proof. exact @convolve_2_shared. Qed.
Print Assumptions C129_square.

(** Two windows of one image that do not overlap meet the conditions. *)
Theorem C129_windows : forall Px (H : heap Px) p (gp : gray Px) x0 y0 x1 y1 s u0 v0 u1 v1 t, good H p gp -> h_sub p = false ->
  is32 x0 -> is32 y0 -> is32 x1 -> is32 y1 -> is32 u0 -> is32 v0 -> is32 u1 -> is32 v1 ->
  h_subimage p x0 y0 x1 y1 = Ok s -> h_subimage p u0 v0 u1 v1 = Ok t ->
  u1 - u0 = x1 - x0 -> v1 - v0 = y1 - y0 -> x1 <= u0 \/ u1 <= x0 \/ y1 <= v0 \/ v1 <= y0 ->
  (exists gs, good H s gs) /\ (exists gt, good H t gt) /\ h_width t = h_width s /\ h_height t = h_height s /\ apart s (target s t).
Proof. exact @windows_apart. Qed.
Print Assumptions C129_windows.

(** Left and right half of an image of 8x2 pixels. *)
Definition cs_data : list Z := [1;2;4;8;0;0;0;0; 3;5;7;9;0;0;0;0].
Definition cs_heap : heap Z := [Some cs_data].
Definition cs_img : himg := mkHimg 8 2 0 8 false 0 16.
Definition cs_left : himg := mkHimg 4 2 0 8 true 0 16.
Definition cs_right : himg := mkHimg 4 2 4 8 true 0 16.
Definition cs_k : kernel Z := mkKernel 3 1 [1;2;1].
Definition cs_k2 : kernel Z := mkKernel 1 0 [3].
Example C129_ex : good cs_heap cs_img (mkGray 8 2 0 8 false cs_data) /\ good cs_heap cs_left (mkGray 4 2 0 8 true cs_data) /\
  good cs_heap cs_right (mkGray 4 2 4 8 true cs_data) /\ h_subimage cs_img 0 0 4 2 = Ok cs_left /\ h_subimage cs_img 4 0 8 2 = Ok cs_right /\
  apart cs_left (target cs_left cs_right) /\ kernel1_ok cs_k /\ fits (@BReflect Z) 4 cs_k /\ fits (@BReflect Z) 2 cs_k /\ kernel2_ok cs_k2 /\
  h_convolve_h (int_arith U8 U8) 0 cs_k BReflect cs_heap cs_left cs_right = Ok ([Some [1;2;4;8;6;9;18;24; 3;5;7;9;16;20;28;32]], cs_right) /\
  h_convolve_v (int_arith U8 U8) 0 cs_k BReflect cs_heap cs_left cs_right = Ok ([Some [1;2;4;8;8;14;22;34; 3;5;7;9;8;14;22;34]], cs_right) /\
  h_convolve_2 (int_arith U8 U8) 0 cs_k2 BReflect cs_heap cs_left cs_right = Ok ([Some [1;2;4;8;3;6;12;24; 3;5;7;9;9;15;21;27]], cs_right).
Proof.
  assert (G : good cs_heap cs_img (mkGray 8 2 0 8 false cs_data)) by good_tac.
  split; [exact G|]. split; [good_tac|]. split; [good_tac|]. split; [reflexivity|]. split; [reflexivity|]. split.
  { apply (windows_apart cs_heap cs_img _ 0 0 4 2 cs_left 4 0 8 2 cs_right G); auto; try (unfold is32; lia); try reflexivity; lia. }
  do 4 (split; [unfold kernel1_ok, kernel2_ok, fits; cbn; repeat split; reflexivity || lia|]).
  split; [vm_compute; reflexivity|]. split; vm_compute; reflexivity.
Qed.

(** The same for floats: left and right half of a row of 8 pixels. *)
Definition cf (n : Z) : spec_float := float_of_Z F32 n.
Definition cf_data : list spec_float := [cf 1; cf 2; cf 4; cf 8; cf 0; cf 0; cf 0; cf 0].
Example C129_float_ex : good [Some cf_data] (mkHimg 4 1 0 8 true 0 8) (mkGray 4 1 0 8 true cf_data) /\
  good [Some cf_data] (mkHimg 4 1 4 8 true 0 8) (mkGray 4 1 4 8 true cf_data) /\
  apart (mkHimg 4 1 0 8 true 0 8) (target (mkHimg 4 1 0 8 true 0 8) (mkHimg 4 1 4 8 true 0 8)) /\
  kernel1_ok (mkKernel 3 1 [cf 1; cf 2; cf 1]) /\ fits (@BExtend spec_float) 4 (mkKernel 3 1 [cf 1; cf 2; cf 1]) /\
  h_convolve_h (float_arith F32) (cf 0) (mkKernel 3 1 [cf 1; cf 2; cf 1]) BExtend [Some cf_data] (mkHimg 4 1 0 8 true 0 8) (mkHimg 4 1 4 8 true 0 8) =
    Ok ([Some [cf 1; cf 2; cf 4; cf 8; cf 5; cf 9; cf 18; cf 28]], mkHimg 4 1 4 8 true 0 8).
Proof.
  split; [good_tac|]. split; [good_tac|]. split.
  { intros _ x y x' y'. cbn. lia. }
  split; [unfold kernel1_ok; cbn; repeat split; reflexivity || lia|]. split; [exact I|]. vm_compute. reflexivity.
Qed.

(** In place the results are others than with copies. *)
Definition cs_row : himg := mkHimg 5 1 0 5 false 0 5.
Definition cs_row_g : gray Z := mkGray 5 1 0 5 false [10;20;30;40;50].
Definition cs_col : himg := mkHimg 1 5 0 1 false 0 5.
Definition cs_col_g : gray Z := mkGray 1 5 0 1 false [10;20;30;40;50].
Theorem C129_horizontal_refuted : exists (K : kernel Z) H a g, kernel1_ok K /\ good H a g /\ fits (@BExtend Z) (h_width a) K /\
  ~ as_copies H a (only (convolve_h (int_arith U8 U8) 0 K BExtend g g)) (only (h_convolve_h (int_arith U8 U8) 0 K BExtend H a a)).
Proof.
  exists cs_k, [Some [10;20;30;40;50]], cs_row, cs_row_g. split; [unfold kernel1_ok; cbn; repeat split; reflexivity || lia|]. split; [good_tac|].
  split; [exact I|]. vm_compute. intros (_ & E & _). discriminate.
Qed.
Print Assumptions C129_horizontal_refuted.
Theorem C129_vertical_refuted : exists (K : kernel Z) H a g, kernel1_ok K /\ good H a g /\ fits (@BExtend Z) (h_height a) K /\
  ~ as_copies H a (only (convolve_v (int_arith U8 U8) 0 K BExtend g g)) (only (h_convolve_v (int_arith U8 U8) 0 K BExtend H a a)).
Proof.
  exists cs_k, [Some [10;20;30;40;50]], cs_col, cs_col_g. split; [unfold kernel1_ok; cbn; repeat split; reflexivity || lia|]. split; [good_tac|].
  split; [exact I|]. vm_compute. intros (_ & E & _). discriminate.
Qed.
Print Assumptions C129_vertical_refuted.
Theorem C129_square_refuted : exists (K : kernel Z) H a g, kernel2_ok K /\ good H a g /\ fits (@BExtend Z) (h_width a) K /\ fits (@BExtend Z) (h_height a) K /\
  ~ as_copies H a (only (convolve_2 (int_arith U8 U8) 0 K BExtend g g)) (only (h_convolve_2 (int_arith U8 U8) 0 K BExtend H a a)).
Proof.
  exists (mkKernel 3 1 [0;0;0;1;2;1;0;0;0]), [Some [10;20;30;40;50]], cs_row, cs_row_g. split; [unfold kernel2_ok; cbn; repeat split; reflexivity || lia|]. split; [good_tac|].
  split; [exact I|]. split; [exact I|]. vm_compute. intros (_ & E & _). discriminate.
Qed.
Print Assumptions C129_square_refuted.

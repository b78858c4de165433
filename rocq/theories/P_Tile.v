(** Processing a part of an image on its own: C136. *)
From Coq Require Import Reals Lra.
From Verif Require Import Base BaseFacts M_Image S_Image L_Image M_Border S_Border M_Convolve S_Convolve M_Normalized S_Normalized M_Blur S_Blur M_Binary S_Binary M_Otsu M_Block M_Config M_Local
  L_Local M_Kernel S_Kernel S_Symmetry S_Morph S_Tile L_Tile.
Open Scope Z_scope.

Theorem C136_mean : forall x0 y0 t r M1 M2 g out work s out2 work2,
  mean_ready t r M1 g out work -> mean_ready t r M2 s out2 work2 -> tile x0 y0 g s ->
  exists o w p v, blur_mean (int_narith t) (int_marith t) 0 1 r g out work = Ok (o, w) /\
    blur_mean (int_narith t) (int_marith t) 0 1 r s out2 work2 = Ok (p, v) /\
    forall x y, sees r x0 y0 g s x y -> agrees x0 y0 o p x y.
Proof. exact tile_mean. Qed.
Print Assumptions C136_mean.

Theorem C136_gauss : forall x0 y0 t sigma sg width w g out work s out2 work2,
  gauss_ready t sigma width sg w g out work -> gauss_ready t sigma width sg w s out2 work2 -> tile x0 y0 g s ->
  exists o q p v, gaussian_blur reals exp real_ceil t sigma width g out work = Ok (o, q) /\
    gaussian_blur reals exp real_ceil t sigma width s out2 work2 = Ok (p, v) /\
    forall x y, sees (w / 2) x0 y0 g s x y -> agrees x0 y0 o p x y.
Proof. exact tile_gauss. Qed.
Print Assumptions C136_gauss.

(** The local threshold, when the width of the region is the same for both images. *)
Theorem C136_local : forall x0 y0 D (O : dops D) t (L : lcmp Z) width down n M1 M2 g out s1 s2 s out2 q1 q2,
  clen_computeI O width (d_of O (Z.min (g_width g) (g_height g))) = Ok n ->
  clen_computeI O width (d_of O (Z.min (g_width s) (g_height s))) = Ok n -> 2 <= n ->
  local_input t (n / 2) g out M1 -> local_input t (n / 2) s out2 M2 -> wf s1 /\ wf s2 /\ wf q1 /\ wf q2 ->
  g_sub s1 = false /\ g_sub s2 = false /\ g_sub q1 = false /\ g_sub q2 = false -> tile x0 y0 g s ->
  exists o st p st', local_mean O (int_narith t) (int_marith t) 0 (fun _ => 1) L width down g out s1 s2 = Ok (o, st) /\
    local_mean O (int_narith t) (int_marith t) 0 (fun _ => 1) L width down s out2 q1 q2 = Ok (p, st') /\
    forall x y, sees (n / 2) x0 y0 g s x y -> agrees x0 y0 o p x y.
Proof. exact @tile_local. Qed.
Print Assumptions C136_local.

Theorem C136_morph : forall x0 y0 g out o s out2 o2, bin_image g -> bin_image s -> wf out -> wf out2 -> tile x0 y0 g s ->
  gray_reshape 0 out (g_width g) (g_height g) = Ok o -> gray_reshape 0 out2 (g_width s) (g_height s) = Ok o2 ->
  exists e f d k, erode4 g out = Ok e /\ erode4 s out2 = Ok f /\ dilate4 g out = Ok d /\ dilate4 s out2 = Ok k /\
    forall x y, interior s x y -> agrees x0 y0 e f x y /\ agrees x0 y0 d k x y.
Proof. exact tile_morph. Qed.
Print Assumptions C136_morph.

Theorem C136_convolve_h : forall x0 y0 E S R (A : arith E S R) (zero : R) (K : kernel S) (b : border E) (g s : gray E) (out out2 : gray R),
  tile x0 y0 g s -> kernel1_ok K -> fits b (g_width g) K -> fits b (g_width s) K ->
  conv_ready g out (value_h A K b g) -> conv_ready s out2 (value_h A K b s) ->
  exists o p, convolve_h A zero K b g out = Ok o /\ convolve_h A zero K b s out2 = Ok p /\
    forall x y, inside s x y -> k_offset K <= x -> x - k_offset K + k_width K <= g_width s -> agrees x0 y0 o p x y.
Proof. exact @tile_conv_h. Qed.
Print Assumptions C136_convolve_h.

Theorem C136_convolve_v : forall x0 y0 E S R (A : arith E S R) (zero : R) (K : kernel S) (b : border E) (g s : gray E) (out out2 : gray R),
  tile x0 y0 g s -> kernel1_ok K -> fits b (g_height g) K -> fits b (g_height s) K ->
  conv_ready g out (value_v A K b g) -> conv_ready s out2 (value_v A K b s) ->
  exists o p, convolve_v A zero K b g out = Ok o /\ convolve_v A zero K b s out2 = Ok p /\
    forall x y, inside s x y -> k_offset K <= y -> y - k_offset K + k_width K <= g_height s -> agrees x0 y0 o p x y.
Proof. exact @tile_conv_v. Qed.
Print Assumptions C136_convolve_v.

Theorem C136_convolve_2 : forall x0 y0 E S R (A : arith E S R) (zero : R) (K : kernel S) (b : border E) (g s : gray E) (out out2 : gray R),
  tile x0 y0 g s -> kernel2_ok K -> fits b (g_width g) K -> fits b (g_height g) K -> fits b (g_width s) K -> fits b (g_height s) K ->
  conv_ready g out (value_2 A K b g) -> conv_ready s out2 (value_2 A K b s) ->
  exists o p, convolve_2 A zero K b g out = Ok o /\ convolve_2 A zero K b s out2 = Ok p /\
    forall x y, inside s x y -> k_offset K <= x -> x - k_offset K + k_width K <= g_width s ->
      k_offset K <= y -> y - k_offset K + k_width K <= g_height s -> agrees x0 y0 o p x y.
Proof. exact @tile_conv_2. Qed.
Print Assumptions C136_convolve_2.

(** An image and the sub-image of its last four columns and rows. *)
Definition ti_d : list Z := [9;1;2;7;3; 4;8;8;1;6; 0;5;9;2;2; 7;3;1;4;5; 6;6;2;8;0].
Definition ti_g : gray Z := mkGray 5 5 0 5 false ti_d.
Definition ti_s : gray Z := mkGray 4 4 6 5 true ti_d.
Definition ti_k : kernel Z := mkKernel 3 1 [1; 10; 100].
Definition ti_k2 : kernel Z := mkKernel 3 1 [1; 2; 3; 4; 5; 6; 7; 8; 9].
Definition ti_b : gray Z := mkGray 5 5 0 5 false [0;1;1;0;1; 1;1;1;1;0; 1;1;1;1;1; 0;1;1;1;1; 0;0;1;1;0].
Definition ti_c : gray Z := mkGray 4 4 6 5 true (g_data ti_b).
Lemma ti_wf : wf ti_g /\ wf ti_s /\ wf ti_b /\ wf ti_c.
Proof. repeat split; cbn; try lia; intros; try discriminate; auto. Qed.
Ltac ti_cases x y := assert (x = 0 \/ x = 1 \/ x = 2 \/ x = 3 \/ x = 4) as [-> | [-> | [-> | [-> | ->]]]] by lia;
  assert (y = 0 \/ y = 1 \/ y = 2 \/ y = 3 \/ y = 4) as [-> | [-> | [-> | [-> | ->]]]] by lia; try lia.
Ltac ti_pixels := intros x y v E; pose proof (pixel_Some _ _ _ _ E) as [[? ?] [? ?]]; cbn in *; ti_cases x y; vm_compute in E; injection E as <-; cbn; try lia.
Ltac ti_conv := split; [apply ti_wf|]; split; [apply wf_new; lia|]; do 2 (split; [cbn; lia|]); split; [now left|];
  intros x y [[? ?] [? ?]]; cbn in *; ti_cases x y; vm_compute; eauto.
Example C136_tile : tile 1 1 ti_g ti_s /\ tile 1 1 ti_b ti_c /\ sees 1 1 1 ti_g ti_s 3 2 /\ sees 2 1 1 ti_g ti_s 3 2 /\ interior ti_c 2 1.
Proof.
  split; [|split; [|split; [|split]]].
  - repeat split; try (cbn; lia). intros x y [[? ?] [? ?]]. cbn in *. ti_cases x y; reflexivity.
  - repeat split; try (cbn; lia). intros x y [[? ?] [? ?]]. cbn in *. ti_cases x y; reflexivity.
  - split; [unfold inside; cbn; lia|]. cbn. split; intros; lia.
  - split; [unfold inside; cbn; lia|]. cbn. split; intros; lia.
  - unfold interior. cbn. lia.
Qed.
Lemma ti_mean g n : (g = ti_g /\ n = 5) \/ (g = ti_s /\ n = 4) -> mean_ready U8 1 9 g (gray_new 0 n n) (gray_new 0 n n).
Proof.
  intros [[-> ->]|[-> ->]]; unfold mean_ready; do 2 (split; [lia|]); (split; [apply ti_wf|]); do 2 (split; [apply wf_new; lia|]); do 3 (split; [cbn; lia|]);
    (split; [ti_pixels|]); (split; [cbn; lia|]); (split; [now left|]); (split; [left; split; [reflexivity|cbn; lia]|]); right; cbn; lia.
Qed.
Lemma ti_gauss g n : (g = ti_g /\ n = 5) \/ (g = ti_s /\ n = 4) -> gauss_ready U8 2 5 2 5 g (gray_new 0 n n) (gray_new 0 n n).
Proof.
  intros [[-> ->]|[-> ->]]; unfold gauss_ready; (split; [now left|]); (split; [left; split; [lra|]; split; [reflexivity|]; left; lia|]); (split; [cbn; lia|]);
    (split; [apply ti_wf|]); do 2 (split; [apply wf_new; lia|]); do 2 (split; [cbn; lia|]); (split; [ti_pixels|]); split; now left.
Qed.
Example C136_blur_case : mean_ready U8 1 9 ti_g (gray_new 0 5 5) (gray_new 0 5 5) /\ mean_ready U8 1 9 ti_s (gray_new 0 4 4) (gray_new 0 4 4) /\
  gauss_ready U8 2 5 2 5 ti_g (gray_new 0 5 5) (gray_new 0 5 5) /\ gauss_ready U8 2 5 2 5 ti_s (gray_new 0 4 4) (gray_new 0 4 4) /\
  exists o w p v, blur_mean (int_narith U8) (int_marith U8) 0 1 1 ti_g (gray_new 0 5 5) (gray_new 0 5 5) = Ok (o, w) /\
    blur_mean (int_narith U8) (int_marith U8) 0 1 1 ti_s (gray_new 0 4 4) (gray_new 0 4 4) = Ok (p, v) /\
    pixel o 4 3 = Some 4 /\ pixel p 3 2 = Some 4.
Proof.
  do 2 (split; [apply ti_mean; auto|]). do 2 (split; [apply ti_gauss; auto|]). do 4 eexists. split; [vm_compute; reflexivity|]. split; [vm_compute; reflexivity|].
  split; reflexivity.
Qed.
Example C136_local_case : let L := int_lcmp single (d_of single 1) in let three := clen_fixed double (d_of double 3) in
  clen_computeI double three (d_of double 5) = Ok 3 /\ clen_computeI double three (d_of double 4) = Ok 3 /\
  local_input U8 (3 / 2) ti_g (gray_new 0 5 5) 9 /\ local_input U8 (3 / 2) ti_s (gray_new 0 4 4) 9 /\ wf (gray_new 0 0 0) /\
  exists o st p st', local_mean double (int_narith U8) (int_marith U8) 0 (fun _ => 1) L three true ti_g (gray_new 0 5 5) (gray_new 0 0 0) (gray_new 0 0 0) = Ok (o, st) /\
    local_mean double (int_narith U8) (int_marith U8) 0 (fun _ => 1) L three true ti_s (gray_new 0 4 4) (gray_new 0 0 0) (gray_new 0 0 0) = Ok (p, st') /\
    pixel o 3 3 = Some 0 /\ pixel p 2 2 = Some 0 /\ pixel o 3 2 = Some 1 /\ pixel p 2 1 = Some 1.
Proof.
  cbn zeta. do 2 (split; [vm_compute; reflexivity|]).
  do 2 (split; [split; try (cbn; lia); try apply ti_wf; try (apply wf_new; lia); ti_pixels|]).
  split; [apply wf_new; lia|]. do 4 eexists. split; [vm_compute; reflexivity|]. split; [vm_compute; reflexivity|]. repeat split; reflexivity.
Qed.
Example C136_morph_case : bin_image ti_b /\ bin_image ti_c /\
  (exists o p, erode4 ti_b (gray_new 0 5 5) = Ok o /\ erode4 ti_c (gray_new 0 4 4) = Ok p /\ pixel o 3 2 = Some 1 /\ pixel p 2 1 = Some 1) /\
  gray_reshape 0 (gray_new 0 5 5) 5 5 = Ok (gray_new 0 5 5) /\ gray_reshape 0 (gray_new 0 4 4) 4 4 = Ok (gray_new 0 4 4).
Proof.
  do 2 (split; [split; [apply ti_wf|]; split; [|cbn; lia]; ti_pixels; auto|]).
  split; [do 2 eexists; split; [vm_compute; reflexivity|]; split; [vm_compute; reflexivity|]; split; reflexivity|]. split; vm_compute; reflexivity.
Qed.
Example C136_convolve_case : let A := int_arith U8 S32 in
  kernel1_ok ti_k /\ kernel2_ok ti_k2 /\ fits (@BReflect Z) 5 ti_k /\ fits (@BReflect Z) 4 ti_k /\ fits (@BReflect Z) 5 ti_k2 /\ fits (@BReflect Z) 4 ti_k2 /\
  conv_ready ti_g (gray_new 0 5 5) (value_h A ti_k BReflect ti_g) /\ conv_ready ti_s (gray_new 0 4 4) (value_h A ti_k BReflect ti_s) /\
  conv_ready ti_g (gray_new 0 5 5) (value_v A ti_k BReflect ti_g) /\ conv_ready ti_s (gray_new 0 4 4) (value_v A ti_k BReflect ti_s) /\
  conv_ready ti_g (gray_new 0 5 5) (value_2 A ti_k2 BReflect ti_g) /\ conv_ready ti_s (gray_new 0 4 4) (value_2 A ti_k2 BReflect ti_s).
Proof.
  cbn zeta. split; [unfold kernel1_ok; cbn; unfold zlen; cbn; lia|]. split; [unfold kernel2_ok; cbn; unfold zlen; cbn; lia|]. do 4 (split; [cbn; lia|]).
  do 5 (split; [ti_conv|]). ti_conv.
Qed.

(** Next to an edge of the part that is not an edge of the image the results differ. *)
Theorem C136_edge_refuted : exists g out work s out2 work2 o w p v,
  mean_ready U8 1 9 g out work /\ mean_ready U8 1 9 s out2 work2 /\ tile 1 1 g s /\
  blur_mean (int_narith U8) (int_marith U8) 0 1 1 g out work = Ok (o, w) /\
  blur_mean (int_narith U8) (int_marith U8) 0 1 1 s out2 work2 = Ok (p, v) /\ ~ agrees 1 1 o p 1 0.
Proof.
  exists ti_g, (gray_new 0 5 5), (gray_new 0 5 5), ti_s, (gray_new 0 4 4), (gray_new 0 4 4). do 4 eexists. do 2 (split; [apply ti_mean; auto|]).
  split; [apply C136_tile|]. do 2 (split; [vm_compute; reflexivity|]). discriminate.
Qed.
Print Assumptions C136_edge_refuted.

(** A region whose width is a fraction of the size of the image: the part is processed with another region. *)
Definition ti_wide : gray Z := mkGray 9 9 0 9 false (repeat 10 20 ++ [50;50;50;50;50] ++ repeat 10 4 ++ [50;20;20;20;50] ++ repeat 10 4 ++
  [50;20;30;20;50] ++ repeat 10 4 ++ [50;20;20;20;50] ++ repeat 10 4 ++ [50;50;50;50;50] ++ repeat 10 20).
Definition ti_mid : gray Z := mkGray 5 5 20 9 true (g_data ti_wide).
Theorem C136_relative_refuted : exists g s width o st p st',
  local_input U8 2 g (gray_new 0 9 9) 50 /\ local_input U8 1 s (gray_new 0 5 5) 50 /\ tile 2 2 g s /\ sees 2 2 2 g s 2 2 /\
  clen_computeI double width (d_of double 9) = Ok 5 /\ clen_computeI double width (d_of double 5) = Ok 3 /\
  local_mean double (int_narith U8) (int_marith U8) 0 (fun _ => 1) (int_lcmp single (d_of single 1)) width true g (gray_new 0 9 9) (gray_new 0 0 0) (gray_new 0 0 0) = Ok (o, st) /\
  local_mean double (int_narith U8) (int_marith U8) 0 (fun _ => 1) (int_lcmp single (d_of single 1)) width true s (gray_new 0 5 5) (gray_new 0 0 0) (gray_new 0 0 0) = Ok (p, st') /\
  ~ agrees 2 2 o p 2 2.
Proof.
  assert (Wg : wf ti_wide) by (repeat split; cbn; try lia; intros; try discriminate; auto).
  assert (Ws : wf ti_mid) by (repeat split; cbn; try lia; intros; try discriminate; auto).
  assert (P : forall z, Forall (fun v => 10 <= v <= 50) (g_data ti_wide) -> forall v, znth (g_data ti_wide) z = Some v -> 10 <= v <= 50).
  { intros z F v H. apply znth_In in H. rewrite Forall_forall in F. auto. }
  assert (F : Forall (fun v => 10 <= v <= 50) (g_data ti_wide)) by (cbn; repeat constructor; lia).
  exists ti_wide, ti_mid, (clen_relative double (d_div double (d_of double 1) (d_of double 2)) 0). do 4 eexists.
  split; [split; try (cbn; lia); auto; try (apply wf_new; lia); intros x y v E; unfold pixel in E; destruct (_ && _); [|discriminate]; apply (P _ F) in E; cbn; lia|].
  split; [split; try (cbn; lia); auto; try (apply wf_new; lia); intros x y v E; unfold pixel in E; destruct (_ && _); [|discriminate]; apply (P _ F) in E; cbn; lia|].
  split; [repeat split; try (cbn; lia); intros x y [[? ?] [? ?]]; cbn in *; ti_cases x y; reflexivity|].
  split; [split; [unfold inside; cbn; lia|]; cbn; split; intros; lia|].
  do 4 (split; [vm_compute; reflexivity|]). vm_compute. discriminate.
Qed.
Print Assumptions C136_relative_refuted.

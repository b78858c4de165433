(** C119: a threshold followed by the search for contours. *)
From Coq Require Import QArith Floats.SpecFloat Lia.
From Verif Require Import BaseFacts M_Image S_Image L_Image M_Convolve S_Convolve M_Float M_Otsu M_Config S_Config M_Block S_Block M_Local M_Binary
  M_PackedSet S_PackedSet M_Contour S_Contour M_Jni S_Jni M_Native S_Native S_Pipeline L_Pipeline.
Open Scope Z_scope.

(** In C++: the labels number the connected parts of the pixels of the original image on the chosen side of the threshold. *)
Theorem C119_cpp : forall fuel st g th down out o lab, used st -> wf g -> wf out -> gray_reshape 0 out (g_width g) (g_height g) = Ok o ->
  4 * (g_width g + 2) * (g_height g + 2) < 4294967296 -> wf lab ->
  (g_sub lab = true -> g_width lab = g_width g /\ g_height lab = g_height g /\ g_stride lab < 2147483647) ->
  4 * g_width g * g_height g <= Z.of_nat fuel ->
  exists bin st' lab', threshold Z.leb Z.gtb g th down out = Ok bin /\ process fuel st bin lab = Ok (st', lab') /\
    g_width lab' = g_width g /\ g_height lab' = g_height g /\
    parts (adj (lb_rule st)) (fun p => inside g (fst p) (snd p)) (chosen (pixel g) (inject_Z th) down) (pixel lab') (zlen (lb_contours st')).
Proof. exact cpp_threshold. Qed.
Print Assumptions C119_cpp.

(** Two dark spots that touch at a corner, in a window of a larger image. *)
Definition spots : gray Z := mkGray 3 2 1 5 true [9; 40;10;90; 9;9; 10;80;70; 9].
Example C119_cpp_ex : used (lb_new Four) /\ wf spots /\ wf (gray_new 0 0 0) /\
  (exists o, gray_reshape 0 (gray_new 0 0 0) (g_width spots) (g_height spots) = Ok o) /\
  chosen (pixel spots) (inject_Z 40) true (1, 0) /\ ~ chosen (pixel spots) (inject_Z 40) true (2, 0) /\
  exists bin st' lab', threshold Z.leb Z.gtb spots 40 true (gray_new 0 0 0) = Ok bin /\
    process 24 (lb_new Four) bin (gray_new 0 1 1) = Ok (st', lab') /\ g_data lab' = [1; 1; 0; 1; 0; 0].
Proof.
  split; [constructor|]. split; [unfold wf; cbn; repeat split; try lia; intros; discriminate|]. split; [apply wf_new; lia|]. split; [eexists; reflexivity|].
  split; [exists 10; split; [reflexivity|vm_compute; discriminate]|]. split; [intros (v & E & C); cbn in E; injection E as <-; vm_compute in C; auto|].
  do 3 eexists. split; [vm_compute; reflexivity|]. split; [vm_compute; reflexivity|]. reflexivity.
Qed.

(** From Java: any threshold filter that makes a binary image, followed by the search for contours with a finder of any
    settings and past.  Neither call fails, and what the first one leaves behind is what the second one needs. *)
Theorem C119_any : forall S (f : S -> gray Z -> gray Z -> outcome (S * gray Z)) (after : S * list Z) (s : S) (Q : S -> Prop) grow q fuel K J inp bin lab F,
  jused K -> scan_args grow q fuel J inp bin lab ->
  (forall g o, shows JByte J inp g -> wf o -> g_sub o = true -> g_width o = g_width g -> g_height o = g_height g ->
     exists s' o', f s g o = Ok (s', o') /\ Q s' /\ holds g o o' F) ->
  (forall x y, jinside inp x y -> F x y = Some 0 \/ F x y = Some 1) -> (forall x y, F x y <> None -> jinside inp x y) ->
  exists s' J1 bin' K' J' lab', java_filter f after s J inp bin = Ok (s', J1, bin') /\ Q s' /\
    nc_args grow q fuel J1 bin' lab /\ nc_process grow q fuel K J1 bin' lab = Ok (K', J', lab') /\ jused K' /\ scanned (jrule (settings (nc_lb K))) J inp bin lab K' J' bin' lab' F.
Proof. exact @scan_any. Qed.
Print Assumptions C119_any.

(** With a fixed threshold: the labels in terms of the original picture. *)
Theorem C119_fixed : forall x th down after grow q fuel K J inp bin lab, jused K -> scan_args grow q fuel J inp bin lab ->
  float_value x = Some th -> (0 <= th)%Q -> (th < 256)%Q ->
  exists s J1 bin' K' J' lab', fixed_new double x down = Ok s /\ java_filter fixed_process after s J inp bin = Ok (s, J1, bin') /\
    nc_args grow q fuel J1 bin' lab /\ nc_process grow q fuel K J1 bin' lab = Ok (K', J', lab') /\ jused K' /\
    scanned (jrule (settings (nc_lb K))) J inp bin lab K' J' bin' lab' (fun x y => match jpixel JByte J inp x y with
      | Some v => Some (side down (Qle_bool (inject_Z v) th)) | None => None end) /\
    parts (adj (jrule (settings (nc_lb K)))) (fun p => jinside inp (fst p) (snd p)) (chosen (jpixel JByte J inp) th down)
      (jpixel JInt J' lab') (zlen (nc_contours K')).
Proof. exact scan_fixed. Qed.
Print Assumptions C119_fixed.

(** A dark ring around a dark pixel; both result images are too small and get new arrays. *)
Definition pj : jvm := mkJvm [[9;9;9;9;9; 9;-6;-6;-6;9; 9;-6;20;-6;9; 9;-6;-6;-6;9; 9;9;9;9;9]; [7]; [5]] [].
Definition pin : jimage := mkJimage 5 5 0 5 false 0.
Definition pbin : jimage := mkJimage 1 1 0 1 false 1.
Definition plab : jimage := mkJimage 1 1 0 1 false 2.
Definition pqueue : jqueue := mkJq [[7; 7]] 0 1.
Ltac parray := eexists; split; [reflexivity|]; split; [vm_compute; discriminate|];
  split; [repeat apply Forall_cons; try apply Forall_nil; cbn; lia|intros _ _; vm_compute; discriminate].
Ltac pvalid := split; [cbn; lia|cbn; lia|cbn; lia|cbn; try discriminate; auto|parray].
Lemma pargs : scan_args (fun n => n) pqueue 100 pj pin pbin plab.
Proof.
  split; [split; [pvalid|pvalid|reflexivity|discriminate|cbn; tauto|cbn; lia]|pvalid|cbn; lia|cbn; tauto|cbn; lia|cbn; lia|intros; lia
    |exists [7; 7]; vm_compute; intuition congruence|cbn; lia].
Qed.
Example C119_fixed_ex : jused nc_new /\ scan_args (fun n => n) pqueue 100 pj pin pbin plab /\
  (exists q, float_value (d_div double (d_of double 41) (d_of double 2)) = Some q /\ (q == 41 # 2)%Q) /\
  forall after, exists J1, java_filter fixed_process after (20, true) pj pin pbin = Ok (20, true, J1, mkJimage 5 5 0 5 false 3) /\
    znth (jv_arrays J1) 3 = Some [1;1;1;1;1; 1;0;0;0;1; 1;0;1;0;1; 1;0;0;0;1; 1;1;1;1;1].
Proof.
  split; [constructor|]. split; [exact pargs|]. split; [eexists; split; [vm_compute; reflexivity|reflexivity]|].
  intros after. eexists. split; [vm_compute; reflexivity|]. reflexivity.
Qed.
Example C119_any_ex : jused nc_new /\ scan_args (fun n => n) pqueue 100 pj pin pbin plab /\
  let F := fun x y => match jpixel JByte pj pin x y with Some v => Some (if v <=? 20 then 1 else 0) | None => None end in
  (forall g o, shows JByte pj pin g -> wf o -> g_sub o = true -> g_width o = g_width g -> g_height o = g_height g ->
     exists s' o', fixed_process (20, true) g o = Ok (s', o') /\ s' = (20, true) /\ holds g o o' F) /\
  F 2 2 = Some 1 /\ F 1 1 = Some 0.
Proof. split; [constructor|]. split; [exact pargs|]. split; [exact (fixed_is_one 20 true pj pin)|]. split; reflexivity. Qed.

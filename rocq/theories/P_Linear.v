(** Convolution is linear: C137. *)
From Verif Require Import Base BaseFacts M_Image S_Image L_Image M_Border S_Border M_Convolve S_Convolve M_Normalized S_Blur S_Symmetry S_Linear L_Linear.
Open Scope Z_scope.

(** In the image. *)
Theorem C137_image : forall s t r p q K b1 b2 b3 M1 M2 M3 g o1 h o2 c o3,
  sum_ready t K b1 M1 g o1 -> sum_ready t K b2 M2 h o2 -> sum_ready t K b3 M3 c o3 ->
  kernel_for s K b1 g -> border_sum p q b1 b2 b3 -> image_sum p q g h c ->
  exists og oh oc, convolve s (int_arith t r) 0 K b1 g o1 = Ok og /\ convolve s (int_arith t r) 0 K b2 h o2 = Ok oh /\
    convolve s (int_arith t r) 0 K b3 c o3 = Ok oc /\ output_sum r p q og oh oc.
Proof. exact linear_image. Qed.
Print Assumptions C137_image.

(** In the kernel. *)
Theorem C137_kernel : forall s t r p q K L C b M g o1 o2 o3,
  sum_ready t K b M g o1 -> sum_ready t L b M g o2 -> sum_ready t C b M g o3 -> kernel_for s K b g -> kernel_sum p q K L C ->
  exists og oh oc, convolve s (int_arith t r) 0 K b g o1 = Ok og /\ convolve s (int_arith t r) 0 L b g o2 = Ok oh /\
    convolve s (int_arith t r) 0 C b g o3 = Ok oc /\ output_sum r p q og oh oc.
Proof. exact linear_kernel. Qed.
Print Assumptions C137_kernel.

(** A single coefficient one shows the image shifted; at the offset, the image itself. *)
Theorem C137_unit : forall s t r K b M g out n, sum_ready t K b M g out -> kernel_for s K b g -> unit_at n (k_data K) ->
  exists o, convolve s (int_arith t r) 0 K b g out = Ok o /\ same_size g o /\
    forall x y, inside g x y -> exists v, extended b g (x + place_x s K n) (y + place_y s K n) = Some v /\ pixel o x y = Some (cast r v).
Proof. exact unit_kernel. Qed.
Print Assumptions C137_unit.

Theorem C137_constant : forall s t r K b M g out v, sum_ready t K b M g out -> kernel_for s K b g ->
  (forall x y, inside g x y -> pixel g x y = Some v) -> (forall u, b = BValue u -> u = v) ->
  exists o, convolve s (int_arith t r) 0 K b g out = Ok o /\ same_size g o /\
    forall x y, inside g x y -> pixel o x y = Some (cast r (v * zsum (k_data K))).
Proof. exact constant_image. Qed.
Print Assumptions C137_constant.

(** Image and kernel turned around: the result is turned around. *)
Theorem C137_turned : forall s t r K L b M M' g o1 h o2,
  sum_ready t K b M g o1 -> sum_ready t L b M' h o2 -> kernel_for s K b g -> kernel_for s L b h -> turned s g h -> turned_kernel K L ->
  exists og oh, convolve s (int_arith t r) 0 K b g o1 = Ok og /\ convolve s (int_arith t r) 0 L b h o2 = Ok oh /\ turned s og oh.
Proof. exact turn_conv. Qed.
Print Assumptions C137_turned.

(** Three images with c = 2g - h, the images turned around, and kernels. *)
Definition ln (l : list Z) : gray Z := mkGray 3 2 1 4 true (99 :: l).
Definition ln_g := ln [1;2;3;99;4;5;6].
Definition ln_h := ln [9;0;3;99;7;7;1].
Definition ln_c := ln [-7;4;3;99;1;3;11].
Definition ln_x := ln [3;2;1;99;6;5;4].
Definition ln_y := ln [4;5;6;99;1;2;3].
Definition ln_xy := ln [6;5;4;99;3;2;1].
Definition ln_k : kernel Z := mkKernel 2 0 [5; -1].
Definition ln_l : kernel Z := mkKernel 2 1 [-1; 5].
Definition ln_m : kernel Z := mkKernel 2 0 [1; 1].
Definition ln_n : kernel Z := mkKernel 2 0 [9; -3].
Definition ln_q : kernel Z := mkKernel 2 0 [1;2;3;4].
Definition ln_r : kernel Z := mkKernel 2 1 [4;3;2;1].
Definition ln_u : kernel Z := mkKernel 2 0 [0; 1].
Definition ln_o : gray Z := gray_new 0 3 2.
Ltac ln_cases x y := assert (x = 0 \/ x = 1 \/ x = 2) as [-> | [-> | ->]] by lia; assert (y = 0 \/ y = 1) as [-> | ->] by lia.
Ltac ln_ready := split; [repeat split; cbn; try lia; intros; try discriminate; auto|]; split; [apply wf_new; lia|]; do 2 (split; [cbn; lia|]);
  split; [intros x y v E; pose proof (pixel_Some _ _ _ _ E) as [[? ?] [? ?]]; cbn in *; ln_cases x y; vm_compute in E; injection E as <-; lia|];
  split; [intros v [= <-]; lia|]; split; [cbn; lia|]; now left.
Example C137_ready : sum_ready U8 ln_k (BValue 4) 20 ln_g ln_o /\ sum_ready U8 ln_k (BValue 1) 20 ln_h ln_o /\ sum_ready U8 ln_k (BValue 7) 20 ln_c ln_o /\
  sum_ready U8 ln_k BReflect 20 ln_g ln_o /\ sum_ready U8 ln_m BReflect 20 ln_g ln_o /\ sum_ready U8 ln_n BReflect 20 ln_g ln_o /\
  sum_ready U8 ln_l BReflect 20 ln_x ln_o /\ sum_ready U8 ln_l BReflect 20 ln_y ln_o /\ sum_ready U8 ln_q BWrap 20 ln_g ln_o /\
  sum_ready U8 ln_r BWrap 20 ln_xy ln_o /\ sum_ready U8 ln_u BReflect 20 ln_g ln_o.
Proof. do 10 (split; [ln_ready|]). ln_ready. Qed.
Example C137_hypotheses : image_sum 2 (-1) ln_g ln_h ln_c /\ border_sum 2 (-1) (BValue 4) (BValue 1) (BValue 7) /\ kernel_sum 2 (-1) ln_k ln_m ln_n /\
  unit_at 1 (k_data ln_u) /\ kernel_for Row ln_k (BValue 4) ln_g /\ kernel_for Row ln_k BReflect ln_g /\ kernel_for Column ln_k BReflect ln_g /\
  kernel_for Row ln_l BReflect ln_x /\ kernel_for Column ln_l BReflect ln_y /\ kernel_for Square ln_q BWrap ln_g /\ kernel_for Square ln_r BWrap ln_xy /\
  turned Row ln_g ln_x /\ turned Column ln_g ln_y /\ turned Square ln_g ln_xy /\ turned_kernel ln_k ln_l /\ turned_kernel ln_q ln_r.
Proof.
  split.
  { split; [split; reflexivity|]. split; [split; reflexivity|]. intros x y u v E F. pose proof (pixel_Some _ _ _ _ E) as [[? ?] [? ?]]. cbn in *.
    ln_cases x y; vm_compute in E, F; injection E as <-; injection F as <-; reflexivity. }
  split; [reflexivity|]. split.
  { repeat (split; [reflexivity|]). intros i u v E F. pose proof (znth_Some_range _ _ _ E) as ZR. unfold zlen in ZR. cbn in ZR, E |- *. assert (i = 0 \/ i = 1) as [-> | ->] by lia;
    cbn in E, F; injection E as <-; injection F as <-; reflexivity. }
  split.
  { split; [reflexivity|]. intros i c N E. pose proof (znth_Some_range _ _ _ E) as ZR. unfold zlen in ZR. cbn in ZR, E |- *. assert (i = 0) as -> by lia. cbn in E. now injection E. }
  do 7 (split; [unfold kernel_for, kernel1_ok, kernel2_ok, fits, zlen; cbn; lia|]).
  do 3 (split; [split; [split; reflexivity|]; intros x y [[? ?] [? ?]]; cbn in *; ln_cases x y; reflexivity|]).
  split; repeat split; reflexivity.
Qed.
Example C137_values : convolve Row (int_arith U8 S16) 0 ln_k (BValue 4) ln_g ln_o = Ok (mkGray 3 2 0 3 false [3;7;11; 15;19;26]) /\
  convolve Row (int_arith U8 S16) 0 ln_k (BValue 1) ln_h ln_o = Ok (mkGray 3 2 0 3 false [45;-3;14; 28;34;4]) /\
  convolve Row (int_arith U8 S16) 0 ln_k (BValue 7) ln_c ln_o = Ok (mkGray 3 2 0 3 false [-39;17;8; 2;4;48]) /\
  convolve Square (int_arith U8 U8) 0 ln_q BWrap ln_g ln_o = Ok (mkGray 3 2 0 3 false [37;47;39; 25;35;27]).
Proof. repeat split; vm_compute; reflexivity. Qed.

(** The kernel is not turned around as in a mathematical convolution: a single bright pixel shows the kernel backwards. *)
Theorem C137_impulse_refuted : exists g K o, kernel_for Row K (BValue 0) g /\ pixel g 1 0 = Some 1 /\ (forall x v, x <> 1 -> pixel g x 0 = Some v -> v = 0) /\
  k_offset K = 1 /\ k_data K = [5; 6; 7] /\ convolve Row (int_arith U8 U8) 0 K (BValue 0) g (gray_new 0 3 1) = Ok o /\
  [pixel o 0 0; pixel o 1 0; pixel o 2 0] = [Some 7; Some 6; Some 5].
Proof.
  exists (mkGray 3 1 0 3 false [0;1;0]), (mkKernel 3 1 [5;6;7]). eexists. split; [unfold kernel_for, kernel1_ok, zlen; cbn; lia|]. split; [reflexivity|]. split.
  { intros x v N E. pose proof (pixel_Some _ _ _ _ E) as [[? ?] _]. cbn in *. assert (x = 0 \/ x = 2) as [-> | ->] by lia; vm_compute in E; now injection E. }
  do 2 (split; [reflexivity|]). split; [vm_compute; reflexivity|reflexivity].
Qed.
Print Assumptions C137_impulse_refuted.

(** Normalized convolution of integers rounds, so it is not linear. *)
Theorem C137_normalized_refuted : exists g c K o p, image_sum 1 1 g g c /\
  normalized_h (int_narith U8) K g (gray_new 0 3 1) = Ok o /\ normalized_h (int_narith U8) K c (gray_new 0 3 1) = Ok p /\ ~ output_sum U8 1 1 o o p.
Proof.
  exists (mkGray 3 1 0 3 false [1;0;0]), (mkGray 3 1 0 3 false [2;0;0]), (mkKernel 3 1 [1;1;1]). do 2 eexists. split.
  { split; [split; reflexivity|]. split; [split; reflexivity|]. intros x y u v E F. pose proof (pixel_Some _ _ _ _ E) as [[? ?] [? ?]]. cbn in *.
    assert (x = 0 \/ x = 1 \/ x = 2) as [-> | [-> | ->]] by lia; assert (y = 0) as -> by lia; vm_compute in E, F; injection E as <-; injection F as <-; reflexivity. }
  split; [vm_compute; reflexivity|]. split; [vm_compute; reflexivity|]. intros (_ & _ & H). specialize (H 1 0 0 0 eq_refl eq_refl). discriminate.
Qed.
Print Assumptions C137_normalized_refuted.

(** Theorems about blurring and normalized convolution called from Java (C91-C94). *)
From Coq Require Import Reals Lra Lia.
From Verif Require Import Base BaseFacts M_Image S_Image M_Convolve S_Convolve M_Normalized S_Normalized M_Blur S_Blur M_Otsu M_Kernel S_Kernel
  M_Native S_Native M_NativeBlur S_NativeBlur L_NormalizedInt L_NativeBlur.
Open Scope Z_scope.

(** ** C91: normalized convolution *)
Theorem C91_horizontal : forall J k inp out, jargs JByte JByte J inp out -> ji_width out = ji_width inp -> ji_height out = ji_height inp ->
  jkernel1_ok k -> 0 < ji_width inp <= 1073741824 -> 0 < ji_height inp <= 1073741824 -> zabs_sum (jk_data k) * 256 <= 2147483647 ->
  (forall x y, jinside inp x y -> snd (zcovered (jk_data k) (fun i => jpixel JByte J inp (x - jk_offset k + i) y) 0) <> 0) ->
  exists J', java_normalized_h J k inp out = Ok J' /\
    jeffect JByte J inp out J' out (fun x y =>
      Some (cast U8 (rounded (zcovered (jk_data k) (fun i => jpixel JByte J inp (x - jk_offset k + i) y) 0)))).
Proof. exact java_normalized_h_ok. Qed.
Print Assumptions C91_horizontal.

Theorem C91_vertical : forall J k inp out, jargs JByte JByte J inp out -> ji_width out = ji_width inp -> ji_height out = ji_height inp ->
  jkernel1_ok k -> 0 < ji_width inp <= 1073741824 -> 0 < ji_height inp <= 1073741824 -> zabs_sum (jk_data k) * 256 <= 2147483647 ->
  (ji_height inp <= jk_width k -> forall c, In c (jk_data k) -> 0 <= c <= 255) ->
  (forall x y, jinside inp x y -> snd (zcovered (jk_data k) (fun i => jpixel JByte J inp x (y - jk_offset k + i)) 0) <> 0) ->
  exists J', java_normalized_v J k inp out = Ok J' /\
    jeffect JByte J inp out J' out (fun x y =>
      Some (cast U8 (rounded (zcovered (jk_data k) (fun i => jpixel JByte J inp x (y - jk_offset k + i)) 0)))).
Proof. exact java_normalized_v_ok. Qed.
Print Assumptions C91_vertical.

(** A 3 x 3 image with the values 10, 200, 255, ... as Java bytes; the output is a window of a larger image. *)
Definition qj : jvm := mkJvm [[10; -56; -1; 0; 20; 30; 90; 100; 110]; [7;7;7;7;7;7;7;7;7;7;7;7;7]; [5]] [].
Definition qin : jimage := mkJimage 3 3 0 3 false 0.
Definition qout : jimage := mkJimage 3 3 1 4 true 1.
Definition qown : jimage := mkJimage 1 1 0 1 false 1.
Definition qstore : jimage := mkJimage 1 1 0 1 false 2.
Definition qk : jkernel := mkJkernel 3 1 [1; 2; 4].
Ltac jarray := eexists; split; [reflexivity|]; split; [vm_compute; discriminate|];
  split; [repeat apply Forall_cons; try apply Forall_nil; cbn; lia|intros _ _; vm_compute; discriminate].
Ltac jvalid_tac := split; [cbn; lia|cbn; lia|cbn; lia|cbn; try discriminate; auto|jarray].
Ltac jargs_tac := split; [jvalid_tac|jvalid_tac|reflexivity|discriminate|cbn; tauto|cbn; lia].
Lemma qargs : jargs JByte JByte qj qin qout /\ jargs JByte JByte qj qin qown.
Proof. split; jargs_tac. Qed.
Lemma qargs3 : jargs3 qj qin qout (Some qstore) /\ jargs3 qj qin qown None.
Proof.
  split; (split; [apply qargs|]); auto. split; [jvalid_tac|]. split; [discriminate|]. split; [discriminate|]. left. reflexivity.
Qed.

Example C91_ex : jkernel1_ok qk /\ zabs_sum (jk_data qk) * 256 <= 2147483647 /\
  (forall x y, jinside qin x y -> snd (zcovered (jk_data qk) (fun i => jpixel JByte qj qin (x - jk_offset qk + i) y) 0) <> 0) /\
  (forall x y, jinside qin x y -> snd (zcovered (jk_data qk) (fun i => jpixel JByte qj qin x (y - jk_offset qk + i)) 0) <> 0) /\
  (exists J', java_normalized_h qj qk qin qout = Ok J' /\ znth (jv_arrays J') 1 = Some [7; -119;-52;-19; 7; 13;23;27; 7; 97;104;107; 7]) /\
  exists J', java_normalized_v qj qk qin qout = Ok J' /\ znth (jv_arrays J') 1 = Some [7; 3;80;105; 7; 53;91;108; 7; 60;73;83; 7].
Proof.
  split; [split; [cbn; lia|split; [cbn; lia|reflexivity]]|]. split; [vm_compute; discriminate|].
  split; [|split]; try (intros x y [I1 I2]; cbn in I1, I2; assert (x = 0 \/ x = 1 \/ x = 2) as X by lia; assert (y = 0 \/ y = 1 \/ y = 2) as Y by lia;
    destruct X as [->|[->| ->]], Y as [->|[->| ->]]; vm_compute; discriminate).
  split; (eexists; split; [vm_compute; reflexivity|]); reflexivity.
Qed.

(** ** C92: mean blur *)
Theorem C92_mean : forall pinned r J inp out storage g, jargs3 J inp out storage -> shows JByte J inp g ->
  0 < ji_width inp <= 1073741824 -> 0 < ji_height inp <= 1073741824 ->
  0 < r -> (2 * r + 1) * 256 <= 2147483647 -> ji_width inp < 2 * r + 1 \/ 2 * r + 1 <= ji_height inp ->
  exists J' out' storage', java_mean pinned r J inp out storage = Ok (J', out', storage') /\
    jblurred J inp out storage J' out' storage' (fun x y => Some (mean_box g r x y)).
Proof. exact java_mean_ok. Qed.
Print Assumptions C92_mean.

Definition qg : gray Z := mkGray 3 3 0 3 false [10;200;255;0;20;30;90;100;110].
Lemma qshows : shows JByte qj qin qg.
Proof.
  split; [unfold wf; cbn; repeat split; try lia; intros; discriminate|]. split; [reflexivity|]. split; [reflexivity|].
  intros x y. unfold pixel, jpixel, pos, jpos. cbn [g_width g_height g_offset g_stride g_data ji_width ji_height ji_start ji_stride qin qg].
  destruct (_ && _) eqn:I; [|reflexivity]. assert (x = 0 \/ x = 1 \/ x = 2) as X by lia. assert (y = 0 \/ y = 1 \/ y = 2) as Y by lia.
  destruct X as [->|[->| ->]], Y as [->|[->| ->]]; reflexivity.
Qed.
Example C92_ex : jargs3 qj qin qout (Some qstore) /\ jargs3 qj qin qown None /\ shows JByte qj qin qg /\ (2 * 1 + 1) * 256 <= 2147483647 /\
  2 * 1 + 1 <= ji_height qin /\
  (exists J' st, java_mean true 1 qj qin qout (Some qstore) = Ok (J', qout, st) /\
     znth (jv_arrays J') 1 = Some [7; 58;86;127; 7; 70;91;119; 7; 53;59;65; 7] /\ znth (jv_arrays J') (ji_array st) = Some [105;-101;-28;10;17;25;95;100;105]) /\
  exists J' st, java_mean false 1 qj qin qown None = Ok (J', mkJimage 3 3 0 3 false 1, st) /\
     znth (jv_arrays J') 1 = Some [58;86;127; 70;91;119; 53;59;65; 7;7;7;7] /\ znth (jv_arrays J') (ji_array st) = Some [0;0;0;0;0;0;0;0;0].
Proof.
  split; [apply qargs3|]. split; [apply qargs3|]. split; [apply qshows|]. split; [lia|]. split; [cbn; lia|].
  split; do 2 eexists; (split; [vm_compute; reflexivity|]; split; reflexivity).
Qed.

(** ** C93: Gaussian blur, over real numbers *)
Theorem C93_gaussian : forall pinned sigma r s w J inp out storage g, jargs3 J inp out storage -> shows JByte J inp g ->
  0 < ji_width inp <= 1073741824 -> 0 < ji_height inp <= 1073741824 ->
  r < 1073741824 -> chosen sigma (if 0 <? r then 2 * r + 1 else -1) s w -> 100 * w * 256 <= 2147483647 ->
  exists J' out' storage', java_gaussian reals exp real_ceil pinned sigma r J inp out storage = Ok (J', out', storage') /\
    jblurred J inp out storage J' out' storage' (fun x y => Some (two_pass (table w (gauss_int s w)) (w / 2) g x y)).
Proof. exact java_gaussian_ok. Qed.
Print Assumptions C93_gaussian.

Example C93_ex : jargs3 qj qin qout (Some qstore) /\ shows JByte qj qin qg /\ 1 < 1073741824 /\
  chosen 2 (if 0 <? 1 then 2 * 1 + 1 else -1) 2 3 /\ 100 * 3 * 256 <= 2147483647.
Proof.
  split; [apply qargs3|]. split; [apply qshows|]. split; [lia|]. split; [|lia]. left. split; [lra|]. split; [reflexivity|]. left. cbn. lia.
Qed.

(** ** C94: failures *)

(** The filter refuses its arguments with an exception that leaves the native code. *)
Theorem C94_mean_refuted : exists J inp out storage r, jargs3 J inp out storage /\
  (forall g o s, blur_mean (int_narith U8) (int_marith U8) 0 1 (u32 r) g o s = Throw) /\
  forall pinned, java_mean pinned r J inp out storage = Undef.
Proof.
  exists qj, qin, qout, (Some qstore), 0. split; [apply qargs3|]. split; [reflexivity|]. intros [|]; vm_compute; reflexivity.
Qed.
Print Assumptions C94_mean_refuted.

(** A negative radius is not refused but taken as a large one. *)
Theorem C94_negative_refuted : exists J inp out storage r, jargs3 J inp out storage /\ r < 0 /\
  (exists g, shows JByte J inp g /\ blur_mean (int_narith U8) (int_marith U8) 0 1 (u32 r) g (gray_new 0 0 0) (gray_new 0 0 0) = Undef) /\
  forall pinned, java_mean pinned r J inp out storage = Undef.
Proof.
  exists qj, qin, qout, (Some qstore), (-2147483648). split; [apply qargs3|]. split; [lia|]. split.
  - exists qg. split; [apply qshows|]. vm_compute. reflexivity.
  - intros [|]; vm_compute; reflexivity.
Qed.
Print Assumptions C94_negative_refuted.

Theorem C94_gaussian_refuted : exists J inp out storage, jargs3 J inp out storage /\
  forall ex ce pinned,
    (forall g o s, g_sub o = false -> g_sub s = false -> gaussian_blur double ex ce U8 (d_of double 0) (-1) g o s = Throw) /\
    java_gaussian double ex ce pinned (d_of double 0) 0 J inp out storage = Undef /\
    (forall sigma, java_gaussian double ex ce pinned sigma 1073741824 J inp out storage = Undef).
Proof.
  exists qj, qin, qout, (Some qstore). split; [apply qargs3|]. intros ex ce pinned. split; [|split].
  - intros g o s So Ss. unfold gaussian_blur, gray_reshape. rewrite So, Ss. destruct (_ && _); cbn [bind]; destruct (_ && _); cbn [bind]; reflexivity.
  - destruct pinned; vm_compute; reflexivity.
  - intros sigma. destruct pinned; vm_compute; reflexivity.
Qed.
Print Assumptions C94_gaussian_refuted.

(** An output of another size could be given the right one, as the other calls do. *)
Theorem C94_normalized_refuted : exists J k inp out, jargs JByte JByte J inp out /\ jkernel1_ok k /\ ji_sub out = false /\
  (forall g o, shows JByte J inp g -> g_width o = ji_width out -> normalized_h (int_narith U8) (mkKernel (jk_width k) (jk_offset k) (jk_data k)) g o = Throw) /\
  java_normalized_h J k inp out = Undef /\ java_normalized_v J k inp out = Undef.
Proof.
  exists qj, qk, qin, qown. split; [apply qargs|]. split; [split; [cbn; lia|split; [cbn; lia|reflexivity]]|]. split; [reflexivity|].
  split; [|split; vm_compute; reflexivity].
  intros g o (_ & Gw & _) Ow. apply normalized_throws. left. now rewrite Gw, Ow.
Qed.
Print Assumptions C94_normalized_refuted.

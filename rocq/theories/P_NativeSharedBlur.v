(** Properties of blurring called from Java with input and output in one array: C123. *)
From Coq Require Import Reals Lra Lia.
From Verif Require Import Base BaseFacts M_Image S_Image M_Convolve S_Convolve M_Normalized S_Normalized M_Blur S_Blur M_Otsu M_Kernel S_Kernel
  M_Native S_Native M_NativeBlur S_NativeBlur M_NativeShared S_NativeShared M_NativeSharedBlur S_NativeSharedBlur L_NativeSharedBlur P_NativeBlur.
Open Scope Z_scope.

(** C123.  Input and output may overlap in any way: the outcome is that of images with arrays of their own. *)
Theorem C123_mean : forall pinned r J inp out storage g, jshare3 J inp out storage -> shows JByte J inp g ->
  0 < ji_width inp <= 1073741824 -> 0 < ji_height inp <= 1073741824 ->
  0 < r -> (2 * r + 1) * 256 <= 2147483647 -> ji_width inp < 2 * r + 1 \/ 2 * r + 1 <= ji_height inp ->
  exists J' out' storage', (forall din dout, s_java_mean din dout pinned r J inp out storage = Ok (J', out', storage')) /\
    jblurred J inp out storage J' out' storage' (fun x y => Some (mean_box g r x y)).
Proof. exact mean_shared. Qed.
Print Assumptions C123_mean.

Theorem C123_gaussian : forall pinned sigma r s w J inp out storage g, jshare3 J inp out storage -> shows JByte J inp g ->
  0 < ji_width inp <= 1073741824 -> 0 < ji_height inp <= 1073741824 ->
  r < 1073741824 -> chosen sigma (if 0 <? r then 2 * r + 1 else -1) s w -> 100 * w * 256 <= 2147483647 ->
  exists J' out' storage',
    (forall din dout, s_java_gaussian reals exp real_ceil din dout pinned sigma r J inp out storage = Ok (J', out', storage')) /\
    jblurred J inp out storage J' out' storage' (fun x y => Some (two_pass (table w (gauss_int s w)) (w / 2) g x y)).
Proof. exact gaussian_shared. Qed.
Print Assumptions C123_gaussian.

(** A 3 x 3 image in place, and two windows of one array of which the second is moved by a pixel. *)
Definition tj : jvm := mkJvm [[10; -56; -1; 0;  0; 20; 30; 0;  90; 100; 110; 0]; [5]] [].
Definition tin : jimage := mkJimage 3 3 0 4 true 0.
Definition tnext : jimage := mkJimage 3 3 1 4 true 0.
Definition tstore : jimage := mkJimage 1 1 0 1 false 1.
Lemma tshares : shows JByte tj tin qg.
Proof.
  split; [unfold wf; cbn; repeat split; try lia; intros; discriminate|]. split; [reflexivity|]. split; [reflexivity|].
  intros x y. unfold pixel, jpixel, pos, jpos. cbn [g_width g_height g_offset g_stride g_data ji_width ji_height ji_start ji_stride tin qg].
  destruct (_ && _) eqn:I; [|reflexivity]. assert (x = 0 \/ x = 1 \/ x = 2) as X by lia. assert (y = 0 \/ y = 1 \/ y = 2) as Y by lia.
  destruct X as [->|[->| ->]], Y as [->|[->| ->]]; reflexivity.
Qed.
Example C123_ex : jshare3 tj tin tin (Some tstore) /\ jshare3 tj tin tnext None /\ shows JByte tj tin qg /\
  chosen 2 (if 0 <? 1 then 2 * 1 + 1 else -1) 2 3 /\
  (exists J' st, (forall din dout, s_java_mean din dout true 1 tj tin tin (Some tstore) = Ok (J', tin, st)) /\
     znth (jv_arrays J') 0 = Some [58;86;127;0; 70;91;119;0; 53;59;65;0]) /\
  exists J' st, (forall din dout, s_java_mean din dout false 1 tj tin tnext None = Ok (J', tnext, st)) /\
     znth (jv_arrays J') 0 = Some [10;58;86;127; 0;70;91;119; 90;53;59;65].
Proof.
  assert (S : forall im, im = tin \/ im = tnext -> jshare tj tin im).
  { intros im [->| ->]; (split; [jvalid_tac|jvalid_tac|reflexivity|cbn; auto|cbn; lia]). }
  split; [split; [auto|]; split; [jvalid_tac|]; split; [discriminate|]; split; [discriminate|]; left; reflexivity|].
  split; [split; auto|]. split; [apply tshares|]. split; [left; split; [lra|]; split; [reflexivity|]; left; cbn; lia|].
  split; do 2 eexists; (split; [intros [] []; vm_compute; reflexivity|reflexivity]).
Qed.

(** Properties of the threshold filters called from Java on images with a common array: C122. *)
From Coq Require Import QArith Qround Floats.SpecFloat Lia.
From Verif Require Import BaseFacts M_Image S_Image M_Convolve M_Normalized M_Blur S_Blur M_Float M_Otsu S_Otsu M_Config S_Config M_Local
  S_Local M_Binary M_Block S_Block M_Heap M_Shared S_Shared M_Native S_Native M_NativeShared S_NativeShared L_NativeFilt L_NativeShared L_NativeSharedTop P_Native.
Open Scope Z_scope.

(** C122.  [din], [dout]: the virtual machine hands out the array of the input, of the output itself (true) or a copy (false).
    The outcome is the same in all four cases, and the pixels of the output depend on the input as it was before the call. *)
Theorem C122_fixed : forall x q down J inp out after, jshare J inp out -> jbehind inp out ->
  float_value x = Some q -> (0 <= q)%Q -> (q < 256)%Q ->
  exists s J' out', fixed_new double x down = Ok s /\
    (forall din dout, s_java_filter din dout s_fixed_process after s J inp out = Ok (s, J', out')) /\
    jeffect JByte J inp out J' out' (fun x y => match jpixel JByte J inp x y with
      | Some v => Some (side down (Qle_bool (inject_Z v) q)) | None => None end).
Proof. exact fixed_call_shared. Qed.
Print Assumptions C122_fixed.

Theorem C122_otsu : forall x y a b down J inp out after, jshare J inp out -> jbehind inp out ->
  float_value x = Some a -> float_value y = Some b ->
  (0 <= a < 1)%Q -> (0 <= b < 256)%Q -> (forall i j v, jpixel JByte J inp i j = Some v -> v <= Qfloor b) ->
  exists s J' out' g th, otsu_new double x y down = Ok s /\
    (forall din dout, s_java_filter din dout (s_otsu_process exact) after s J inp out = Ok (s, J', out')) /\
    shows JByte J inp g /\ best_split (value_counts g 0 (Qfloor b)) th /\
    jeffect JByte J inp out J' out' (fun x y => match jpixel JByte J inp x y with
      | Some v => Some (side down (v <=? th)) | None => None end).
Proof. exact otsu_call_shared. Qed.
Print Assumptions C122_otsu.

Theorem C122_local : forall D (O : dops D) L width down n s J inp out after, jshare J inp out -> jbehind inp out ->
  clen_computeI O width (d_of O (Z.min (ji_width inp) (ji_height inp))) = Ok n -> 2 <= n <= 8388606 ->
  0 < ji_width inp -> 0 < ji_height inp <= 1073741824 -> ji_width inp * (ji_height inp + 1) <= 2147483647 ->
  ji_width inp < 2 * (n / 2) + 1 \/ 2 * (n / 2) + 1 <= ji_height inp -> storage_ok s ->
  exists s' J' out' g,
    (forall din dout, s_java_filter din dout (s_local_process O L width down) after s J inp out = Ok (s', J', out')) /\
    storage_ok s' /\ shows JByte J inp g /\
    jeffect JByte J inp out J' out' (fun x y => match jpixel JByte J inp x y with
      | Some v => Some (if (if down then lc_le L v (mean_box g (n / 2) x y) else lc_gt L v (mean_box g (n / 2) x y)) then 1 else 0)
      | None => None end).
Proof. exact @local_call_shared. Qed.
Print Assumptions C122_local.

(** The filters by blocks: a place in the common array belongs to the same pixel of both images. *)
Theorem C122_block_mean : forall J inp out, jshare J inp out -> jaligned inp out -> forall c req,
  clen_computeI exact c (inject_Z (Z.min (ji_width inp) (ji_height inp))) = Ok req ->
  1 <= req <= ji_width inp -> 1 <= req <= ji_height inp ->
  forall scale local down st after, (0 <= scale <= 1)%Q -> ji_width inp * ji_height inp * 255 < 4294967296 ->
  ready (block_mean (int_bmean exact U8 scale) 0 local down) st ->
  exists st' J' out' g,
    (forall din dout, s_java_filter din dout (h_block_process (block_mean (int_bmean exact U8 scale) 0 local down)
       (mean_rule (int_bmean exact U8 scale) local down) false exact c) after st J inp out = Ok (st', J', out')) /\
    ready (block_mean (int_bmean exact U8 scale) 0 local down) st' /\ shows JByte J inp g /\
    jeffect JByte J inp out J' out' (fun x y => match jpixel JByte J inp x y with
      | Some v => Some (side down (v <=? mean_level scale g req local (home g req x y))) | None => None end).
Proof. exact mean_call_shared. Qed.
Print Assumptions C122_block_mean.

Theorem C122_block_minmax : forall J inp out, jshare J inp out -> jaligned inp out -> forall c req,
  clen_computeI exact c (inject_Z (Z.min (ji_width inp) (ji_height inp))) = Ok req ->
  1 <= req <= ji_width inp -> 1 <= req <= ji_height inp ->
  forall spread scale local down st after, (0 <= scale)%Q -> (scale * inject_Z 255 < inject_Z 4294967296)%Q ->
  (0 <= spread)%Q -> (spread < inject_Z 4294967296)%Q ->
  ready (block_minmax (int_bminmax exact U8 spread scale) 0 local down) st ->
  exists st' J' out' g,
    (forall din dout, s_java_filter din dout (h_block_process (block_minmax (int_bminmax exact U8 spread scale) 0 local down)
       (minmax_rule (int_bminmax exact U8 spread scale) local down) false exact c) after st J inp out = Ok (st', J', out')) /\
    ready (block_minmax (int_bminmax exact U8 spread scale) 0 local down) st' /\ shows JByte J inp g /\
    jeffect JByte J inp out J' out' (fun x y => match jpixel JByte J inp x y with
      | Some v => Some (range_value spread scale down (near_pixels g req local (home g req x y)) v) | None => None end).
Proof. exact minmax_call_shared. Qed.
Print Assumptions C122_block_minmax.

Theorem C122_block_otsu : forall J inp out, jshare J inp out -> jaligned inp out -> forall c req,
  clen_computeI exact c (inject_Z (Z.min (ji_width inp) (ji_height inp))) = Ok req ->
  1 <= req <= ji_width inp -> 1 <= req <= ji_height inp ->
  forall two local down st after, (ji_width inp / req) * (ji_height inp / req) * 256 < 4294967296 ->
  ready (block_otsu exact int_u8 two 0%Q 1%Q local down) st ->
  exists st' J' out' g (th : Z * Z -> Z),
    (forall din dout, s_java_filter din dout (h_block_process (block_otsu exact int_u8 two 0%Q 1%Q local down)
       (otsu_rule exact int_u8 two 0%Q 1%Q local down) true exact c) after st J inp out = Ok (st', J', out')) /\
    ready (block_otsu exact int_u8 two 0%Q 1%Q local down) st' /\ shows JByte J inp g /\
    (forall b, is_block g req b -> let l := byte_counts (near_pixels g req local b) in
       if two then exists s, best_split l s /\ ((0 < separation l s)%Q -> nearest ((low_mean l s + high_mean l s) / 2) (th b)) /\
                     (~ (0 < separation l s)%Q -> th b = 0)
       else best_split l (th b)) /\
    jeffect JByte J inp out J' out' (fun x y => match jpixel JByte J inp x y with
      | Some v => Some (side down (v <=? th (home g req x y))) | None => None end).
Proof. exact otsu_block_call_shared. Qed.
Print Assumptions C122_block_otsu.

(** Uses that meet the conditions: one image for both, and a window of an image whose result goes into the image. *)
Theorem C122_in_place : forall J im, jshare J im im -> jbehind im im /\ jaligned im im.
Proof. exact in_place. Qed.
Print Assumptions C122_in_place.

Theorem C122_parent : forall J im part x0 y0, jshare J part im -> ji_sub im = false -> jwindow im part x0 y0 -> jbehind part im.
Proof. exact window_parent. Qed.
Print Assumptions C122_parent.

(** Without the condition the outcome depends on the virtual machine. *)
Theorem C122_overlap_refuted : exists J inp out s, jshare J inp out /\ ji_width out = ji_width inp /\ ji_height out = ji_height inp /\
  forall after, s_java_filter true true s_fixed_process after s J inp out <> s_java_filter false false s_fixed_process after s J inp out.
Proof.
  exists (mkJvm [[10; 20; 30]] []), (mkJimage 2 1 0 3 true 0), (mkJimage 2 1 1 3 true 0), (15, true).
  split; [|split; [reflexivity|split; [reflexivity|intros after; vm_compute; discriminate]]].
  split; [P_Native.jvalid_tac|P_Native.jvalid_tac|reflexivity|cbn; auto|cbn; lia].
Qed.
Print Assumptions C122_overlap_refuted.

(** A 4 x 2 image, in place; its right half into the image. *)
Definition shJ : jvm := mkJvm [[10;20;30;40; 50;60;70;-80]] [].
Definition shim : jimage := mkJimage 4 2 0 4 false 0.
Definition shright : jimage := mkJimage 2 2 2 4 true 0.
Example C122_hypotheses : jshare shJ shim shim /\ jshare shJ shright shim /\ jwindow shim shright 2 0 /\
  (forall after din dout, s_java_filter din dout s_fixed_process after (35, true) shJ shim shim =
     Ok ((35, true), mkJvm [[1;1;1;0; 0;0;0;0]] [], shim)) /\
  (forall after din dout, s_java_filter din dout s_fixed_process after (35, true) shJ shright shim =
     Ok ((35, true), mkJvm [[1;0;0;0; 50;60;70;-80]] [], mkJimage 2 2 0 2 false 0)).
Proof.
  split; [split; [P_Native.jvalid_tac|P_Native.jvalid_tac|reflexivity|cbn; auto|cbn; lia]|].
  split; [split; [P_Native.jvalid_tac|P_Native.jvalid_tac|reflexivity|cbn; auto|cbn; lia]|].
  split; [unfold jwindow, jpos; cbn; lia|].
  split; intros after [] []; reflexivity.
Qed.
Example C122_filters_ex :
  clen_computeI exact (clen_fixed exact 2%Q) (inject_Z (Z.min (ji_width shim) (ji_height shim))) = Ok 2 /\
  (exists st st', block_init (block_mean (int_bmean exact U8 1%Q) 0 false true) = Ok st /\
     forall after din dout, s_java_filter din dout (h_block_process (block_mean (int_bmean exact U8 1%Q) 0 false true)
       (mean_rule (int_bmean exact U8 1%Q) false true) false exact (clen_fixed exact 2%Q)) after st shJ shim shim =
       Ok (st', mkJvm [[1;1;1;1; 0;0;1;0]] [], shim)) /\
  (exists st', forall after din dout, s_java_filter din dout (s_local_process exact (int_lcmp exact 1%Q) (clen_fixed exact 3%Q) true) after
     (gray_new 0 0 0, gray_new 0 0 0) nj nin nin = Ok (st', mkJvm [[1;0;0; 1;1;1; 0;0;0]; repeat 7 13] [], nin)).
Proof.
  split; [reflexivity|]. split.
  - eexists _, _. split; [vm_compute; reflexivity|]. intros after [] []; vm_compute; reflexivity.
  - eexists. intros after [] []; vm_compute; reflexivity.
Qed.

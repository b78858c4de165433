(** Thresholds of images of another brightness and of mirrored images: C134. *)
From Coq Require Import QArith.
From Verif Require Import BaseFacts M_Image S_Image L_Image M_Convolve M_Normalized M_Blur M_Otsu M_Block M_Config M_Stats S_Stats S_Otsu
  M_Local L_Local S_Symmetry S_Brightness L_Brightness L_Brightness2.
Open Scope Z_scope.

(** ** Local means *)

(** Scale 1 in [float]; any arithmetic of the lengths. *)
Theorem C134_local_shift : forall D (O : dops D) t width down n M1 M2 g out s1 s2 h out2 q1 q2,
  clen_computeI O width (d_of O (Z.min (g_width g) (g_height g))) = Ok n -> 2 <= n ->
  local_input t (n / 2) g out M1 -> local_input t (n / 2) h out2 M2 -> wf s1 /\ wf s2 /\ wf q1 /\ wf q2 ->
  g_sub s1 = false /\ g_sub s2 = false /\ g_sub q1 = false /\ g_sub q2 = false -> same_size g h ->
  forall k, t = U8 \/ t = U16 -> shifted k g h ->
  exists o st p st',
    local_mean O (int_narith t) (int_marith t) 0 (fun _ => 1) (int_lcmp single (d_of single 1)) width down g out s1 s2 = Ok (o, st) /\
    local_mean O (int_narith t) (int_marith t) 0 (fun _ => 1) (int_lcmp single (d_of single 1)) width down h out2 q1 q2 = Ok (p, st') /\
    alike o p.
Proof. exact @local_shift. Qed.
Print Assumptions C134_local_shift.

(** Any scale and arithmetic. *)
Theorem C134_local_mirror : forall D (O : dops D) t width down n M1 M2 g out s1 s2 h out2 q1 q2,
  clen_computeI O width (d_of O (Z.min (g_width g) (g_height g))) = Ok n -> 2 <= n ->
  local_input t (n / 2) g out M1 -> local_input t (n / 2) h out2 M2 -> wf s1 /\ wf s2 /\ wf q1 /\ wf q2 ->
  g_sub s1 = false /\ g_sub s2 = false /\ g_sub q1 = false /\ g_sub q2 = false -> same_size g h ->
  forall L, exists o st p st',
    local_mean O (int_narith t) (int_marith t) 0 (fun _ => 1) L width down g out s1 s2 = Ok (o, st) /\
    local_mean O (int_narith t) (int_marith t) 0 (fun _ => 1) L width down h out2 q1 q2 = Ok (p, st') /\
    (mirrored_x g h -> mirrored_x o p) /\ (mirrored_y g h -> mirrored_y o p).
Proof. exact @local_mirror. Qed.
Print Assumptions C134_local_mirror.

(** ** Otsu *)

(** The threshold depends on how often each value occurs and on nothing else; a shift of values and range does not move it.
    Any arithmetic, IEEE included, both variants. *)
Theorem C134_otsu_counts : forall D (O : dops D) t (two : bool) g h mn mx k, wf g -> wf h -> same_counts k g h ->
  (forall x y v, pixel g x y = Some v -> mn <= v <= mx) -> 0 <= mx - mn < 2147483647 ->
  ity_min (promote t) <= mn -> mx < ity_max (promote t) -> ity_min (promote t) <= mn + k -> mx + k < ity_max (promote t) ->
  image_otsu O t h (mn + k) (mx + k) two = image_otsu O t g mn mx two.
Proof. exact @image_otsu_counts. Qed.
Print Assumptions C134_otsu_counts.

(** Brighter, darker and mirrored images have these counts. *)
Theorem C134_otsu_related : forall k g h, wf g ->
  (shifted k g h -> same_counts k g h) /\ (mirrored_x g h -> same_counts 0 g h) /\ (mirrored_y g h -> same_counts 0 g h).
Proof. intros k g h W. split; [now apply shifted_counts|]. split; [now apply mirrored_x_counts|now apply mirrored_y_counts]. Qed.
Print Assumptions C134_otsu_related.

(** Same range for both images: the binary images agree if the image has two values.  Exact arithmetic. *)
Theorem C134_otsu_shift : forall t mx down k g h out out2, t = U8 \/ t = U16 -> wf g -> wf h -> wf out -> wf out2 ->
  (g_sub out = false \/ (g_width out = g_width g /\ g_height out = g_height g)) ->
  (g_sub out2 = false \/ (g_width out2 = g_width g /\ g_height out2 = g_height g)) ->
  shifted k g h -> two_values g -> mx <= ity_max t ->
  (forall x y v, pixel g x y = Some v -> 0 <= v <= mx) -> (forall x y v, pixel h x y = Some v -> 0 <= v <= mx) ->
  exists o p, global_otsu exact t g 0 mx down out = Ok o /\ global_otsu exact t h 0 mx down out2 = Ok p /\ alike o p.
Proof. exact global_shift. Qed.
Print Assumptions C134_otsu_shift.

(** Any arithmetic, IEEE included. *)
Theorem C134_otsu_mirror : forall D (O : dops D) t mn mx down g h out out2 o, wf g -> wf h -> wf out -> wf out2 ->
  (g_sub out2 = false \/ (g_width out2 = g_width g /\ g_height out2 = g_height g)) ->
  mirrored_x g h \/ mirrored_y g h -> (forall x y v, pixel g x y = Some v -> mn <= v <= mx) -> 0 <= mx - mn < 2147483647 ->
  ity_min (promote t) <= mn -> mx < ity_max (promote t) -> global_otsu O t g mn mx down out = Ok o ->
  exists p, global_otsu O t h mn mx down out2 = Ok p /\ (mirrored_x g h -> mirrored_x o p) /\ (mirrored_y g h -> mirrored_y o p).
Proof. exact @global_mirror. Qed.
Print Assumptions C134_otsu_mirror.

(** An image, the same plus 40, and the same with left and right exchanged. *)
Definition br (l : list Z) : gray Z := mkGray 4 3 0 4 false l.
Definition br_g := br [10;20;30;45; 50;60;70;80; 90;100;110;200].
Definition br_h := br [50;60;70;85; 90;100;110;120; 130;140;150;240].
Definition br_m := br [45;30;20;10; 80;70;60;50; 200;110;100;90].
Ltac br_pixels := intros x y; intros; match goal with
  | E : pixel _ x y = Some _ |- _ => pose proof (pixel_Some _ _ _ _ E) as [[? ?] [? ?]]
  | E : inside _ x y |- _ => destruct E as [[? ?] [? ?]] end; cbn in *;
  assert (x = 0 \/ x = 1 \/ x = 2 \/ x = 3) as [-> | [-> | [-> | ->]]] by lia; assert (y = 0 \/ y = 1 \/ y = 2) as [-> | [-> | ->]] by lia;
  repeat match goal with E : pixel _ _ _ = Some _ |- _ => vm_compute in E; injection E as <- end.
Lemma br_wf l : zlen l = 12 -> wf (br l).
Proof. intros H. unfold wf, br. cbn [g_width g_height g_offset g_stride g_data g_sub]. rewrite H. repeat split; try lia; intros; try discriminate; auto. Qed.
Ltac br_input := split; try (cbn; lia); try (apply br_wf; reflexivity); try (apply wf_new; lia); br_pixels; cbn; lia.
Example C134_local_case :
  clen_computeI double (clen_fixed double (d_of double 3)) (d_of double (Z.min (g_width br_g) (g_height br_g))) = Ok 3 /\
  local_input U8 (3 / 2) br_g (gray_new 0 4 3) 255 /\ local_input U8 (3 / 2) br_h (gray_new 0 4 3) 255 /\
  local_input U8 (3 / 2) br_m (gray_new 0 4 3) 255 /\ shifted 40 br_g br_h /\ mirrored_x br_g br_m /\ wf (gray_new 0 0 0) /\
  exists st, local_mean double (int_narith U8) (int_marith U8) 0 (fun _ => 1) (int_lcmp single (d_of single 1))
    (clen_fixed double (d_of double 3)) true br_g (gray_new 0 4 3) (gray_new 0 0 0) (gray_new 0 0 0) = Ok (br [1;1;1;1; 1;1;1;1; 0;0;0;0], st).
Proof.
  split; [vm_compute; reflexivity|]. do 3 (split; [br_input|]). do 2 (split; [split; [split; reflexivity|]; br_pixels; reflexivity|]).
  split; [apply wf_new; lia|]. eexists. vm_compute. reflexivity.
Qed.
Example C134_otsu_case : wf br_g /\ wf br_h /\ two_values br_g /\ shifted 40 br_g br_h /\ mirrored_x br_g br_m /\ same_counts 40 br_g br_h /\
  (forall x y v, pixel br_g x y = Some v -> 0 <= v <= 255) /\ (forall x y v, pixel br_h x y = Some v -> 0 <= v <= 255) /\
  (exists th, image_otsu exact U8 br_g 0 255 false = Ok th) /\ exists o, global_otsu exact U8 br_g 0 255 true (gray_new 0 4 3) = Ok o.
Proof.
  do 2 (split; [apply br_wf; reflexivity|]). split; [exists 0, 0, 1, 0, 10, 20; repeat split; lia|].
  do 2 (split; [split; [split; reflexivity|]; br_pixels; reflexivity|]).
  split; [apply shifted_counts; [apply br_wf; reflexivity|]; split; [split; reflexivity|]; br_pixels; reflexivity|].
  do 2 (split; [br_pixels; lia|]).
  assert (P : forall x y v, pixel br_g x y = Some v -> 0 <= v <= 255) by (br_pixels; lia).
  split.
  - destruct (L_OtsuImage.image_otsu_ok U8 br_g 0 255) as (th & E & _); [apply br_wf; reflexivity|exact P|lia|cbn; lia|cbn; lia|cbn; lia|eauto].
  - destruct (L_OtsuImage.global_otsu_ok U8 br_g 255 true (gray_new 0 4 3) (br (repeat 0 12))) as (th & o & E & _);
      [apply br_wf; reflexivity|apply wf_new; lia|reflexivity|exact P|lia|cbn; lia|eauto].
Qed.

(** An image of one value is all 1 if the value is 0 and all 0 if it is brighter. *)
Theorem C134_constant_refuted : exists g h o p, wf g /\ wf h /\ shifted 5 g h /\
  (forall x y v, pixel g x y = Some v -> 0 <= v <= 10) /\ (forall x y v, pixel h x y = Some v -> 0 <= v <= 10) /\
  global_otsu exact U8 g 0 10 true (gray_new 0 4 3) = Ok o /\ global_otsu exact U8 h 0 10 true (gray_new 0 4 3) = Ok p /\ ~ alike o p.
Proof.
  exists (br (repeat 0 12)), (br (repeat 5 12)), (br (repeat 1 12)), (br (repeat 0 12)). do 2 (split; [apply br_wf; reflexivity|]).
  split; [split; [split; reflexivity|]; br_pixels; reflexivity|]. do 2 (split; [br_pixels; lia|]).
  split; [vm_compute; reflexivity|]. split; [vm_compute; reflexivity|]. intros (_ & A). specialize (A 0 0). discriminate.
Qed.
Print Assumptions C134_constant_refuted.

(** With another scale, here 0.95 in exact arithmetic, the result depends on the brightness. *)
Theorem C134_scale_refuted : exists g h o st p st', wf g /\ wf h /\ shifted 200 g h /\
  local_mean exact (int_narith U8) (int_marith U8) 0 (fun _ => 1) (int_lcmp exact (95 # 100)%Q) (clen_fixed exact 3%Q) true
    g (gray_new 0 4 3) (gray_new 0 0 0) (gray_new 0 0 0) = Ok (o, st) /\
  local_mean exact (int_narith U8) (int_marith U8) 0 (fun _ => 1) (int_lcmp exact (95 # 100)%Q) (clen_fixed exact 3%Q) true
    h (gray_new 0 4 3) (gray_new 0 0 0) (gray_new 0 0 0) = Ok (p, st') /\ ~ alike o p.
Proof.
  exists (br (repeat 0 12)), (br (repeat 200 12)), (br (repeat 1 12)). eexists. exists (br (repeat 0 12)). eexists.
  do 2 (split; [apply br_wf; reflexivity|]). split; [split; [split; reflexivity|]; br_pixels; reflexivity|].
  split; [vm_compute; reflexivity|]. split; [vm_compute; reflexivity|]. intros (_ & A). specialize (A 0 0). discriminate.
Qed.
Print Assumptions C134_scale_refuted.

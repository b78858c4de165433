(** Blur and relations between images: C133. *)
From Coq Require Import Reals Lra.
From Verif Require Import Base BaseFacts M_Image S_Image L_Image M_Normalized M_Blur M_Otsu M_Config M_Kernel S_Kernel S_Symmetry L_Kernel L_Symmetry.
Open Scope Z_scope.

(** ** Mean *)
Theorem C133_mean_order : forall t r M1 M2 g out work h out2 work2, mean_ready t r M1 g out work -> mean_ready t r M2 h out2 work2 ->
  not_above g h ->
  exists o w p v, blur_mean (int_narith t) (int_marith t) 0 1 r g out work = Ok (o, w) /\
    blur_mean (int_narith t) (int_marith t) 0 1 r h out2 work2 = Ok (p, v) /\ not_above o p.
Proof. exact mean_order. Qed.
Print Assumptions C133_mean_order.
Theorem C133_mean_shift : forall t r M1 M2 g out work h out2 work2, mean_ready t r M1 g out work -> mean_ready t r M2 h out2 work2 ->
  forall k, ity_min t = 0 -> shifted k g h ->
  exists o w p v, blur_mean (int_narith t) (int_marith t) 0 1 r g out work = Ok (o, w) /\
    blur_mean (int_narith t) (int_marith t) 0 1 r h out2 work2 = Ok (p, v) /\ shifted k o p.
Proof. exact mean_shift. Qed.
Print Assumptions C133_mean_shift.
Theorem C133_mean_mirror : forall t r M1 M2 g out work h out2 work2, mean_ready t r M1 g out work -> mean_ready t r M2 h out2 work2 ->
  exists o w p v, blur_mean (int_narith t) (int_marith t) 0 1 r g out work = Ok (o, w) /\
    blur_mean (int_narith t) (int_marith t) 0 1 r h out2 work2 = Ok (p, v) /\
    (mirrored_x g h -> mirrored_x o p) /\ (mirrored_y g h -> mirrored_y o p).
Proof. exact mean_mirror. Qed.
Print Assumptions C133_mean_mirror.

(** ** Gaussian *)
Theorem C133_gauss_order : forall t sigma s width w g out work h out2 work2,
  gauss_ready t sigma width s w g out work -> gauss_ready t sigma width s w h out2 work2 -> not_above g h ->
  exists o q p v, gaussian_blur reals exp real_ceil t sigma width g out work = Ok (o, q) /\
    gaussian_blur reals exp real_ceil t sigma width h out2 work2 = Ok (p, v) /\ not_above o p.
Proof. exact gauss_order. Qed.
Print Assumptions C133_gauss_order.
Theorem C133_gauss_shift : forall t sigma s width w g out work h out2 work2,
  gauss_ready t sigma width s w g out work -> gauss_ready t sigma width s w h out2 work2 -> forall k, shifted k g h ->
  exists o q p v, gaussian_blur reals exp real_ceil t sigma width g out work = Ok (o, q) /\
    gaussian_blur reals exp real_ceil t sigma width h out2 work2 = Ok (p, v) /\ shifted k o p.
Proof. exact gauss_shift. Qed.
Print Assumptions C133_gauss_shift.
Theorem C133_gauss_mirror : forall t sigma s width w g out work h out2 work2,
  gauss_ready t sigma width s w g out work -> gauss_ready t sigma width s w h out2 work2 -> w = 2 * (w / 2) + 1 ->
  exists o q p v, gaussian_blur reals exp real_ceil t sigma width g out work = Ok (o, q) /\
    gaussian_blur reals exp real_ceil t sigma width h out2 work2 = Ok (p, v) /\
    (mirrored_x g h -> mirrored_x o p) /\ (mirrored_y g h -> mirrored_y o p).
Proof. exact gauss_mirror. Qed.
Print Assumptions C133_gauss_mirror.

(** An image, the same plus 10, and the same turned around. *)
Definition sy (l : list Z) : gray Z := mkGray 3 3 0 3 false l.
Definition sy_g := sy [1;0;2; 0;3;3; 3;3;1].
Definition sy_h := sy [11;10;12; 10;13;13; 13;13;11].
Definition sy_mx := sy [2;0;1; 3;3;0; 1;3;3].
Definition sy_my := sy [3;3;1; 0;3;3; 1;0;2].
Definition sy_t := sy [1;0;3; 0;3;3; 2;3;1].
Ltac sy_pixels := intros x y; intros; match goal with
  | E : pixel _ x y = Some _ |- _ => pose proof (pixel_Some _ _ _ _ E) as [[? ?] [? ?]]
  | E : inside _ x y |- _ => destruct E as [[? ?] [? ?]] end; cbn in *;
  assert (x = 0 \/ x = 1 \/ x = 2) as [-> | [-> | ->]] by lia; assert (y = 0 \/ y = 1 \/ y = 2) as [-> | [-> | ->]] by lia;
  repeat match goal with E : pixel _ _ _ = Some _ |- _ => vm_compute in E; injection E as <- end.
Lemma sy_wf l : zlen l = 9 -> wf (sy l).
Proof. intros H. unfold wf, sy. cbn [g_width g_height g_offset g_stride g_data g_sub]. rewrite H. repeat split; try lia; intros; try discriminate; auto. Qed.
Ltac sy_mean := unfold mean_ready; do 2 (split; [lia|]); do 3 (split; [apply sy_wf; reflexivity|]); do 3 (split; [cbn; lia|]);
  split; [sy_pixels; cbn; lia|]; split; [cbn; lia|]; split; [now left|]; split; [left; split; [reflexivity|cbn; lia]|]; right; cbn; lia.
Ltac sy_gauss := unfold gauss_ready; split; [now left|]; split; [left; split; [lra|]; split; [reflexivity|]; left; lia|]; split; [cbn; lia|];
  do 3 (split; [apply sy_wf; reflexivity|]); do 2 (split; [cbn; lia|]); split; [sy_pixels; cbn; lia|]; split; now left.
Example C133_ex : mean_ready U8 1 20 sy_g sy_g sy_g /\ mean_ready U8 1 20 sy_h sy_g sy_g /\ mean_ready U8 1 20 sy_mx sy_g sy_g /\
  mean_ready U8 1 20 sy_my sy_g sy_g /\ gauss_ready U8 2 5 2 5 sy_g sy_g sy_g /\ gauss_ready U8 2 5 2 5 sy_h sy_g sy_g /\
  gauss_ready U8 2 5 2 5 sy_mx sy_g sy_g /\ gauss_ready U8 2 5 2 5 sy_my sy_g sy_g /\
  not_above sy_g sy_h /\ shifted 10 sy_g sy_h /\ mirrored_x sy_g sy_mx /\ mirrored_y sy_g sy_my /\ ity_min U8 = 0 /\ 5 = 2 * (5 / 2) + 1 /\
  (exists w, blur_mean (int_narith U8) (int_marith U8) 0 1 1 sy_g sy_g sy_g = Ok (sy [2;2;2; 2;2;2; 3;2;3], w)) /\
  (exists w, blur_mean (int_narith U8) (int_marith U8) 0 1 1 sy_h sy_g sy_g = Ok (sy [12;12;12; 12;12;12; 13;12;13], w)).
Proof.
  do 4 (split; [sy_mean|]). do 4 (split; [sy_gauss|]).
  split; [split; [split; reflexivity|]; sy_pixels; lia|]. split; [split; [split; reflexivity|]; sy_pixels; reflexivity|].
  do 2 (split; [split; [split; reflexivity|]; sy_pixels; reflexivity|]). do 2 (split; [reflexivity|]).
  split; eexists; vm_compute; reflexivity.
Qed.

(** Rows are rounded before columns, so rows and columns cannot be exchanged. *)
Theorem C133_transpose_refuted : exists g h out work o w p v,
  mean_ready U8 1 255 g out work /\ mean_ready U8 1 255 h out work /\ transposed g h /\
  blur_mean (int_narith U8) (int_marith U8) 0 1 1 g out work = Ok (o, w) /\
  blur_mean (int_narith U8) (int_marith U8) 0 1 1 h out work = Ok (p, v) /\ ~ transposed o p.
Proof.
  exists sy_g, sy_t, sy_g, sy_g. do 4 eexists. split; [sy_mean|]. split; [sy_mean|]. split; [split; [reflexivity|]; split; [reflexivity|]; sy_pixels; reflexivity|].
  split; [vm_compute; reflexivity|]. split; [vm_compute; reflexivity|]. intros (_ & _ & T). specialize (T 2 0 ltac:(split; cbn; lia)). discriminate.
Qed.
Print Assumptions C133_transpose_refuted.
(** Negative totals are rounded the other way: a shift of signed images is not kept. *)
Theorem C133_signed_refuted : exists g h out work o w p v,
  mean_ready S16 1 255 g out work /\ mean_ready S16 1 255 h out work /\ shifted (-1) g h /\
  blur_mean (int_narith S16) (int_marith S16) 0 1 1 g out work = Ok (o, w) /\
  blur_mean (int_narith S16) (int_marith S16) 0 1 1 h out work = Ok (p, v) /\ ~ shifted (-1) o p.
Proof.
  exists (sy [0;0;0;0;0;0;0;0;0]), (sy [-1;-1;-1;-1;-1;-1;-1;-1;-1]), sy_g, sy_g. do 4 eexists. split; [sy_mean|]. split; [sy_mean|].
  split; [split; [split; reflexivity|]; sy_pixels; reflexivity|].
  split; [vm_compute; reflexivity|]. split; [vm_compute; reflexivity|]. intros (_ & T). specialize (T 1 1 0 eq_refl). discriminate.
Qed.
Print Assumptions C133_signed_refuted.

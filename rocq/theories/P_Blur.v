(** Properties of the mean filter: C22, C23, C24, C52. *)
From Coq Require Import Floats.SpecFloat.
From Verif Require Import BaseFacts M_Image S_Image L_Image M_Convolve S_Convolve L_Convolve2 L_ConvolveInt
  M_Normalized S_Normalized L_Normalized L_NormalizedInt M_Blur S_Blur L_Blur L_BlurTop M_Float.

(** C22: mean of the window clipped to the image.  [M] bounds the pixels, the sums of a window must fit. *)
Theorem C22_horizontal : forall t r M (g out : gray Z),
  0 <= r -> 2 * r + 1 <= 1073741824 -> wf g -> wf out ->
  g_width out = g_width g -> g_height out = g_height g ->
  0 < g_width g <= 1073741824 -> 0 < g_height g <= 1073741824 -> 0 <= M ->
  (forall x y v, pixel g x y = Some v -> ity_min t <= v <= ity_max t /\ Z.abs v <= M) ->
  (2 * r + 1) * (M + 1) <= ity_max (signed_type t) ->
  exists out', mean_h (int_narith t) (int_marith t) 1 r g out = Ok out' /\
    holds g out out' (fun x y => Some (mean_row g r x y)).
Proof. exact mean_h_ok. Qed.
Print Assumptions C22_horizontal.

(** The vertical filter needs a kernel that is wider than the image or not taller than it, see C23. *)
Theorem C22_vertical : forall t r M (g out : gray Z),
  0 <= r -> 2 * r + 1 <= 1073741824 -> wf g -> wf out ->
  g_width out = g_width g -> g_height out = g_height g ->
  0 < g_width g <= 1073741824 -> 0 < g_height g <= 1073741824 -> 0 <= M ->
  (forall x y v, pixel g x y = Some v -> ity_min t <= v <= ity_max t /\ Z.abs v <= M) ->
  (2 * r + 1) * (M + 1) <= ity_max (signed_type t) ->
  g_width g < 2 * r + 1 \/ 2 * r + 1 <= g_height g ->
  g_offset g + g_width g + g_height g * g_stride g <= 4294967296 ->
  exists out', mean_v (int_narith t) (int_marith t) 1 r g out = Ok out' /\
    holds g out out' (fun x y => Some (mean_col g r x y)).
Proof. exact mean_v_ok. Qed.
Print Assumptions C22_vertical.

(** The complete blur: images are reshaped, then both passes. *)
Theorem C22_blur : forall t r M (g out work : gray Z),
  0 < r -> 2 * r + 1 <= 1073741824 -> wf g -> wf out -> wf work ->
  0 < g_width g <= 1073741824 -> 0 < g_height g <= 1073741824 -> 0 <= M ->
  (forall x y v, pixel g x y = Some v -> ity_min t <= v <= ity_max t /\ Z.abs v <= M) ->
  (2 * r + 1) * (M + 1) <= ity_max (signed_type t) ->
  g_sub out = false \/ (g_width out = g_width g /\ g_height out = g_height g) ->
  (g_sub work = false /\ g_width g * (g_height g + 1) <= 4294967296) \/
  (g_width work = g_width g /\ g_height work = g_height g /\ roomy work) ->
  g_width g < 2 * r + 1 \/ 2 * r + 1 <= g_height g ->
  exists o out' w work', gray_reshape 0 out (g_width g) (g_height g) = Ok o /\
    gray_reshape 0 work (g_width g) (g_height g) = Ok w /\
    blur_mean (int_narith t) (int_marith t) 0 1 r g out work = Ok (out', work') /\
    holds g o out' (fun x y => Some (mean_box g r x y)) /\ holds g w work' (fun x y => Some (mean_row g r x y)).
Proof. exact blur_mean_ok. Qed.
Print Assumptions C22_blur.

Definition bimg : gray Z := mkGray 4 3 1 5 true [9; 10;20;30;45; 9; 50;60;70;80; 9; 90;100;110;255; 9].
Lemma bimg_wf : wf bimg.
Proof. unfold wf; cbn; repeat split; try lia; intros; discriminate. Qed.
Lemma bimg_range : forall x y v, pixel bimg x y = Some v -> 10 <= v <= 255.
Proof.
  intros a b v Hv. pose proof (pixel_Some _ _ _ _ Hv) as [[X1 X2] [Y1 Y2]]. cbn in X2, Y2.
  assert (a = 0 \/ a = 1 \/ a = 2 \/ a = 3) as XX by lia; assert (b = 0 \/ b = 1 \/ b = 2) as YY by lia.
  destruct YY as [-> | [-> | ->]]; destruct XX as [-> | [-> | [-> | ->]]]; injection Hv as <-; lia.
Qed.

Example C22_hypotheses :
  0 < 1 /\ 2 * 1 + 1 <= 1073741824 /\ wf bimg /\ wf (gray_new 0 4 3) /\
  (forall x y v, pixel bimg x y = Some v -> ity_min U8 <= v <= ity_max U8 /\ Z.abs v <= 255) /\
  (2 * 1 + 1) * (255 + 1) <= ity_max (signed_type U8) /\ (g_width bimg < 3 \/ 3 <= g_height bimg) /\
  g_offset bimg + g_width bimg + g_height bimg * g_stride bimg <= 4294967296 /\
  exists h v, mean_h (int_narith U8) (int_marith U8) 1 1 bimg (gray_new 0 4 3) = Ok h /\
    mean_v (int_narith U8) (int_marith U8) 1 1 bimg (gray_new 0 4 3) = Ok v /\
    pixel h 0 0 = Some 15 /\ pixel h 2 0 = Some 32 /\ pixel h 3 2 = Some 183 /\
    pixel v 3 1 = Some 127 /\ pixel v 0 0 = Some 30.
Proof.
  do 2 (split; [lia|]). split; [exact bimg_wf|]. split; [apply wf_new; lia|].
  split; [intros x y v Hv; apply bimg_range in Hv; cbn; lia|]. do 3 (split; [cbn; lia|]).
  do 2 eexists. split; [vm_compute; reflexivity|]. split; [vm_compute; reflexivity|]. repeat split; reflexivity.
Qed.
Example C22_hypotheses_blur :
  (g_sub (gray_new 0 1 1) = false /\ g_width bimg * (g_height bimg + 1) <= 4294967296) /\
  exists out' work', blur_mean (int_narith U8) (int_marith U8) 0 1 1 bimg (gray_new 0 1 1) (gray_new 0 7 1) = Ok (out', work')
    /\ pixel out' 1 1 = Some 60 /\ pixel out' 3 2 = Some 129.
Proof. split; [split; [reflexivity|cbn; lia]|]. do 2 eexists. split; [vm_compute; reflexivity|]. split; reflexivity. Qed.

(** C23.  The call meets everything C22_vertical asks for except the condition on the shape; it reads outside the
    buffer. *)
Theorem C23_short_image_refuted : exists (g out : gray Z) r,
  wf g /\ wf out /\ g_width out = g_width g /\ g_height out = g_height g /\ 0 < g_width g /\ 0 < g_height g /\
  0 < r /\ (forall x y v, pixel g x y = Some v -> 0 <= v <= 255) /\
  mean_v (int_narith U8) (int_marith U8) 1 r g out = Undef /\
  exists out', mean_h (int_narith U8) (int_marith U8) 1 r g out = Ok out'.
Proof.
  exists (mkGray 3 2 0 3 false [1;2;3;4;5;6]), (gray_new 0 3 2), 1.
  split; [unfold wf; cbn; repeat split; try lia; intros; discriminate|]. split; [apply wf_new; lia|].
  do 2 (split; [reflexivity|]). do 3 (split; [cbn; lia|]). split.
  { intros a b v Hv. pose proof (pixel_Some _ _ _ _ Hv) as [[I1 I2] [I3 I4]]. cbn in I2, I4.
    assert (a = 0 \/ a = 1 \/ a = 2) as XX by lia; assert (b = 0 \/ b = 1) as YY by lia.
    destruct YY as [-> | ->]; destruct XX as [-> | [-> | ->]]; injection Hv as <-; lia. }
  split; [vm_compute; reflexivity|]. eexists; vm_compute; reflexivity.
Qed.
Print Assumptions C23_short_image_refuted.

(** C24 *)
Theorem C24_radius_zero : forall E S T (N : narith E S) (M : marith E T) zero c r (g out work : gray E),
  r <= 0 -> blur_mean N M zero c r g out work = Throw.
Proof. exact @blur_mean_radius. Qed.
Print Assumptions C24_radius_zero.

(** Each output lies between any bounds of the pixels in its window; equal bounds say that flat regions are
    unchanged. *)
Theorem C24_range : forall t r M (g out work : gray Z),
  0 < r -> 2 * r + 1 <= 1073741824 -> wf g -> wf out -> wf work ->
  0 < g_width g <= 1073741824 -> 0 < g_height g <= 1073741824 -> 0 <= M ->
  (forall x y v, pixel g x y = Some v -> ity_min t <= v <= ity_max t /\ Z.abs v <= M) ->
  (2 * r + 1) * (M + 1) <= ity_max (signed_type t) ->
  g_sub out = false \/ (g_width out = g_width g /\ g_height out = g_height g) ->
  (g_sub work = false /\ g_width g * (g_height g + 1) <= 4294967296) \/
  (g_width work = g_width g /\ g_height work = g_height g /\ roomy work) ->
  g_width g < 2 * r + 1 \/ 2 * r + 1 <= g_height g ->
  t = U8 \/ t = U16 ->
  exists out' work', blur_mean (int_narith t) (int_marith t) 0 1 r g out work = Ok (out', work') /\
    g_width out' = g_width g /\ g_height out' = g_height g /\
    forall x y v lo hi, pixel out' x y = Some v -> 0 <= lo ->
      (forall x' y' u, x - r <= x' <= x + r -> y - r <= y' <= y + r -> pixel g x' y' = Some u -> lo <= u <= hi) ->
      lo <= v <= hi.
Proof. exact blur_mean_range. Qed.
Print Assumptions C24_range.

Example C24_hypotheses :
  (U8 = U8 \/ U8 = U16) /\
  exists out' work', blur_mean (int_narith U8) (int_marith U8) 0 1 1 bimg (gray_new 0 1 1) (gray_new 0 7 1) = Ok (out', work')
    /\ pixel out' 0 0 = Some 35 /\
    (forall x' y' u, 0 - 1 <= x' <= 0 + 1 -> 0 - 1 <= y' <= 0 + 1 -> pixel bimg x' y' = Some u -> 10 <= u <= 60).
Proof.
  split; [auto|]. do 2 eexists. split; [vm_compute; reflexivity|]. split; [reflexivity|].
  intros a b u Ha Hb Hv. pose proof (pixel_Some _ _ _ _ Hv) as [[X1 X2] [Y1 Y2]].
  assert (a = 0 \/ a = 1) as XX by lia; assert (b = 0 \/ b = 1) as YY by lia.
  destruct YY as [-> | ->]; destruct XX as [-> | ->]; injection Hv as <-; lia.
Qed.

(** C52.  Two F32 rows that agree on the window of pixel (2,0), three ones; the filtered values there differ and one of
    them is not the mean. *)
Theorem C52_float_window_refuted : exists (g1 g2 out o1 o2 : gray spec_float) v1 v2,
  wf g1 /\ wf g2 /\ wf out /\ same_layout g1 g2 /\ g_width out = g_width g1 /\ g_height out = g_height g1 /\
  (forall x, 1 <= x <= 3 -> pixel g1 x 0 = Some (float_of_Z F32 1) /\ pixel g2 x 0 = Some (float_of_Z F32 1)) /\
  (forall x y v, pixel g1 x y = Some v \/ pixel g2 x y = Some v ->
     match v with S754_finite _ _ _ => True | _ => False end) /\
  mean_h (float_narith F32) (float_marith F32) (mean_coefficient F32 3) 1 g1 out = Ok o1 /\
  mean_h (float_narith F32) (float_marith F32) (mean_coefficient F32 3) 1 g2 out = Ok o2 /\
  pixel o1 2 0 = Some v1 /\ pixel o2 2 0 = Some v2 /\
  v1 = float_of_Z F32 1 /\ SFltb v2 (fdiv F32 (float_of_Z F32 1) (float_of_Z F32 2)) = true.
Proof.
  set (one := float_of_Z F32 1).
  exists (mkGray 5 1 0 5 false [one; one; one; one; one]),
         (mkGray 5 1 0 5 false [float_of_Z F32 1000000000; one; one; one; one]), (gray_new (S754_zero false) 5 1).
  do 4 eexists.
  split; [unfold wf; cbn; repeat split; try lia; intros; discriminate|].
  split; [unfold wf; cbn; repeat split; try lia; intros; discriminate|].
  split; [apply wf_new; lia|].
  split; [repeat split|]. do 2 (split; [reflexivity|]).
  split. { intros x Hx. assert (x = 1 \/ x = 2 \/ x = 3) as [-> | [-> | ->]] by lia; split; reflexivity. }
  split.
  { intros a b v Hv. assert (H : 0 <= a < 5 /\ b = 0).
    { destruct Hv as [Hv|Hv]; pose proof (pixel_Some _ _ _ _ Hv) as [[X1 X2] [Y1 Y2]]; cbn in X2, Y2; lia. }
    destruct H as [Ha ->]. assert (a = 0 \/ a = 1 \/ a = 2 \/ a = 3 \/ a = 4) as XX by lia.
    destruct XX as [-> | [-> | [-> | [-> | ->]]]]; destruct Hv as [Hv|Hv]; vm_compute in Hv; injection Hv as <-; exact I. }
  split; [vm_compute; reflexivity|]. split; [vm_compute; reflexivity|].
  split; [reflexivity|]. split; [reflexivity|]. split; vm_compute; reflexivity.
Qed.
Print Assumptions C52_float_window_refuted.

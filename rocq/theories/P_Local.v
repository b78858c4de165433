(** Properties of thresholding by local means: C75, C76, C77. *)
From Coq Require Import QArith.
From Verif Require Import BaseFacts M_Image S_Image L_Image M_Convolve S_Convolve M_Normalized M_Blur S_Blur L_BlurTop
  M_Otsu M_Block M_Config M_Local S_Local L_Local.
Open Scope Z_scope.

(** C75.  [n] is the region width computed for the smaller side of the image.  [local_input] lists what is asked of the
    images; its last condition is the one of C23.  Exact arithmetic. *)
Theorem C75_exact : forall t width down scale n M (g out s1 s2 : gray Z),
  clen_computeI exact width (inject_Z (Z.min (g_width g) (g_height g))) = Ok n -> 2 <= n ->
  local_input t (n / 2) g out M -> wf s1 -> wf s2 -> g_sub s1 = false -> g_sub s2 = false ->
  exists o out' st, gray_reshape 0 out (g_width g) (g_height g) = Ok o /\
    local_mean exact (int_narith t) (int_marith t) 0 (fun _ => 1) (int_lcmp exact scale) width down g out s1 s2 = Ok (out', st) /\
    holds g o out' (local_pixel down scale g (n / 2)).
Proof. exact local_mean_exact. Qed.
Print Assumptions C75_exact.

(** Any arithmetic of the lengths and any comparison with the scaled mean, in particular those of [float]. *)
Theorem C75_any : forall D (O : dops D) t (L : lcmp Z) width down n r M (g out s1 s2 : gray Z),
  clen_computeI O width (d_of O (Z.min (g_width g) (g_height g))) = Ok n -> r = n / 2 -> 0 < r ->
  local_input t r g out M -> wf s1 -> wf s2 -> g_sub s1 = false -> g_sub s2 = false ->
  exists o out' s1' s2', gray_reshape 0 out (g_width g) (g_height g) = Ok o /\
    local_mean O (int_narith t) (int_marith t) 0 (fun _ => 1) L width down g out s1 s2 = Ok (out', (s1', s2')) /\
    holds g o out' (fun x y => match pixel g x y with
      | Some v => Some (if (if down then lc_le L v (mean_box g r x y) else lc_gt L v (mean_box g r x y)) then 1 else 0)
      | None => None end) /\
    wf s1' /\ wf s2' /\ g_sub s1' = false /\ g_sub s2' = false.
Proof. exact @local_mean_ok. Qed.
Print Assumptions C75_any.

(** Regions of less than two pixels are refused. *)
Theorem C75_small : forall D (O : dops D) t (L : lcmp Z) width down n (g out s1 s2 : gray Z),
  clen_computeI O width (d_of O (Z.min (g_width g) (g_height g))) = Ok n -> 0 <= n < 2 ->
  wf g -> wf out -> wf s1 -> wf s2 -> g_sub s1 = false -> g_sub s2 = false ->
  local_mean O (int_narith t) (int_marith t) 0 (fun _ => 1) L width down g out s1 s2 = Throw.
Proof. exact @local_mean_small. Qed.
Print Assumptions C75_small.

(** The filter object: what it computes does not depend on the images it has seen before. *)
Theorem C75_filter : forall t width down scale (n : gray Z -> Z) calls,
  (forall g out, In (g, out) calls -> exists M,
     clen_computeI exact width (inject_Z (Z.min (g_width g) (g_height g))) = Ok (n g) /\ 2 <= n g /\
     local_input t (n g / 2) g out M) ->
  exists outs, local_filter exact (int_narith t) (int_marith t) 0 (fun _ => 1) (int_lcmp exact scale) width down
                 (gray_new 0 0 0, gray_new 0 0 0) calls = Ok outs /\
    Forall2 (fun c out' => exists o, gray_reshape 0 (snd c) (g_width (fst c)) (g_height (fst c)) = Ok o /\
                             holds (fst c) o out' (local_pixel down scale (fst c) (n (fst c) / 2))) calls outs.
Proof. exact local_filter_exact. Qed.
Print Assumptions C75_filter.

Definition limg : gray Z := mkGray 4 3 1 5 true [9; 10;20;30;45; 9; 50;60;70;80; 9; 90;100;110;255; 9].
Lemma limg_input : local_input U8 (3 / 2) limg (gray_new 0 2 2) 255.
Proof.
  split; try (cbn; lia).
  - unfold wf; cbn; repeat split; try lia; intros; discriminate.
  - apply wf_new; lia.
  - intros a b v Hv. pose proof (pixel_Some _ _ _ _ Hv) as [[X1 X2] [Y1 Y2]]. cbn in X2, Y2.
    assert (a = 0 \/ a = 1 \/ a = 2 \/ a = 3) as XX by lia; assert (b = 0 \/ b = 1 \/ b = 2) as YY by lia.
    destruct YY as [-> | [-> | ->]]; destruct XX as [-> | [-> | [-> | ->]]]; injection Hv as <-; cbn; lia.
Qed.
Example C75_case : clen_computeI exact (clen_relative exact (9 # 10) 1) (inject_Z (Z.min (g_width limg) (g_height limg))) = Ok 3 /\
  local_input U8 (3 / 2) limg (gray_new 0 2 2) 255 /\ wf (gray_new 0 0 0) /\
  exists out' st, local_mean exact (int_narith U8) (int_marith U8) 0 (fun _ => 1) (int_lcmp exact (95 # 100))
      (clen_relative exact (9 # 10) 1) true limg (gray_new 0 2 2) (gray_new 0 0 0) (gray_new 0 5 1) = Ok (out', st) /\
    g_data out' = [1;1;1;1; 1;0;1;1; 0;0;0;0].
Proof.
  split; [reflexivity|]. split; [exact limg_input|]. split; [apply wf_new; lia|].
  do 2 eexists. split; [vm_compute; reflexivity|]. reflexivity.
Qed.
Example C75_small_case : clen_computeI exact (clen_fixed exact 1%Q) (inject_Z 3) = Ok 1 /\
  local_mean double (int_narith U8) (int_marith U8) 0 (fun _ => 1) (int_lcmp single (d_of single 1)) (clen_fixed double (d_of double 1))
    false limg (gray_new 0 2 2) (gray_new 0 0 0) (gray_new 0 0 0) = Throw.
Proof. split; [reflexivity|vm_compute; reflexivity]. Qed.
Example C75_filter_case : exists outs, local_filter exact (int_narith U8) (int_marith U8) 0 (fun _ => 1) (int_lcmp exact 1%Q)
    (clen_fixed exact 3%Q) false (gray_new 0 0 0, gray_new 0 0 0) [(limg, gray_new 0 2 2); (limg, gray_new 0 0 0)] = Ok outs /\
  map g_data outs = [[0;0;0;0; 0;0;0;0; 1;1;0;1]; [0;0;0;0; 0;0;0;0; 1;1;0;1]].
Proof. eexists. split; [vm_compute; reflexivity|]. reflexivity. Qed.

(** C76.  The documentation of the upward direction: 0 where the scaled pixel is above the mean, 1 elsewhere. *)
Theorem C76_upward_refuted : exists (g out out' s : gray Z) st x y v w,
  wf g /\ wf out /\ wf s /\ g_sub s = false /\
  local_mean exact (int_narith U8) (int_marith U8) 0 (fun _ => 1) (int_lcmp exact 1%Q) (clen_fixed exact 3%Q) false g out s s
    = Ok (out', st) /\
  pixel g x y = Some v /\ pixel out' x y = Some w /\
  w <> (if Qle_bool (inject_Z v * 1) (inject_Z (mean_box g 1 x y)) then 1 else 0).
Proof.
  exists limg, (gray_new 0 4 3), (mkGray 4 3 0 4 false [0;0;0;0; 0;0;0;0; 1;1;0;1]), (gray_new 0 0 0).
  eexists. exists 0, 0, 10, 0.
  split; [exact (li_g _ _ _ _ _ limg_input)|]. split; [apply wf_new; lia|]. split; [apply wf_new; lia|]. split; [reflexivity|].
  split; [vm_compute; reflexivity|]. split; [reflexivity|]. split; [reflexivity|]. vm_compute. discriminate.
Qed.
Print Assumptions C76_upward_refuted.

(** C77.  The region is as wide as the smaller side of the image, the image is valid and the images are fresh; the call
    reads outside the buffer. *)
Theorem C77_full_region_refuted : exists (g out s1 s2 : gray Z),
  wf g /\ wf out /\ wf s1 /\ wf s2 /\ g_sub out = false /\ g_sub s1 = false /\ g_sub s2 = false /\
  (forall x y v, pixel g x y = Some v -> 0 <= v <= 255) /\ 2 <= g_height g < g_width g /\
  local_mean exact (int_narith U8) (int_marith U8) 0 (fun _ => 1) (int_lcmp exact 1%Q) (clen_relative exact 1%Q 1) true g out s1 s2
    = Undef /\
  local_mean exact (int_narith U8) (int_marith U8) 0 (fun _ => 1) (int_lcmp exact 1%Q)
    (clen_fixed exact (inject_Z (g_height g))) true g out s1 s2 = Undef.
Proof.
  exists (mkGray 3 2 0 3 false [1;2;3;4;5;6]), (gray_new 0 3 2), (gray_new 0 0 0), (gray_new 0 0 0).
  split; [unfold wf; cbn; repeat split; try lia; intros; discriminate|]. do 3 (split; [apply wf_new; lia|]).
  do 3 (split; [reflexivity|]). split.
  { intros a b v Hv. pose proof (pixel_Some _ _ _ _ Hv) as [[I1 I2] [I3 I4]]. cbn in I2, I4.
    assert (a = 0 \/ a = 1 \/ a = 2) as XX by lia; assert (b = 0 \/ b = 1) as YY by lia.
    destruct YY as [-> | ->]; destruct XX as [-> | [-> | ->]]; injection Hv as <-; lia. }
  split; [cbn; lia|]. split; vm_compute; reflexivity.
Qed.
Print Assumptions C77_full_region_refuted.

(** Properties of image statistics: C25, C26, C27 (mean), C54, C55 (mean), C56, C58. *)
From Coq Require Import Floats.SpecFloat.
From Verif Require Import BaseFacts M_Image S_Image L_Image M_Convolve M_GrowArray M_Blur S_Blur M_Float M_Stats S_Stats L_Stats.

(** C25: every pixel of the window counts exactly once. *)
Theorem C25_sum : forall t (g : gray Z) M, wf g -> 0 <= M ->
  (forall x y v, pixel g x y = Some v -> ity_min t <= v <= ity_max t /\ Z.abs v <= M) ->
  g_width g * g_height g * M <= ity_max (sum_type t) ->
  image_sum t g = Ok (zsum (all_pixels g)).
Proof. exact image_sum_ok. Qed.
Print Assumptions C25_sum.

(** For unsigned sums without any bound: the sum modulo 2^32. *)
Theorem C25_sum_modulo : forall t (g : gray Z), wf g -> ity_signed (sum_type t) = false ->
  image_sum t g = Ok (u32 (zsum (all_pixels g))).
Proof. exact image_sum_wrap. Qed.
Print Assumptions C25_sum_modulo.

Theorem C25_mean : forall t (g : gray Z) M, wf g -> 0 <= M -> 0 < g_width g -> 0 < g_height g ->
  (forall x y v, pixel g x y = Some v -> ity_min t <= v <= ity_max t /\ Z.abs v <= M) ->
  g_width g * g_height g * M <= ity_max (sum_type t) ->
  t = S64 \/ 0 <= zsum (all_pixels g) ->
  image_mean t g = Ok (Z.quot (zsum (all_pixels g)) (g_width g * g_height g)).
Proof. exact image_mean_ok. Qed.
Print Assumptions C25_mean.

Theorem C25_histogram : forall t (g : gray Z) mn (h : growarr Z), wf g ->
  ga_size h <= zlen (ga_data h) -> 0 <= ga_size h < 2147483648 ->
  (forall x y v, pixel g x y = Some v -> 0 <= v - mn < ga_size h) ->
  exists h', image_histogram t g mn h = Ok h' /\ ga_size h' = ga_size h /\
    forall i, 0 <= i < ga_size h -> ga_at h' i = Ok (zcount (mn + i) (all_pixels g)).
Proof. exact histogram_ok. Qed.
Print Assumptions C25_histogram.

(** [all_pixels] really lists each pixel once, whatever the storage. *)
Theorem C25_all_pixels : forall (g : gray Z), wf g ->
  zlen (all_pixels g) = g_width g * g_height g /\
  forall v, In v (all_pixels g) <-> exists x y, pixel g x y = Some v.
Proof. intros g Hg. split; [exact (all_pixels_len g Hg)|exact (all_pixels_In g)]. Qed.
Print Assumptions C25_all_pixels.

Definition simg : gray Z := mkGray 3 2 1 5 true [99; 4;7;4; 99;99; 5;4;9; 99].
Lemma simg_wf : wf simg.
Proof. unfold wf; cbn; repeat split; try lia; intros; discriminate. Qed.
Lemma simg_range : forall x y v, pixel simg x y = Some v -> 4 <= v <= 9.
Proof.
  intros a b v Hv. pose proof (pixel_Some _ _ _ _ Hv) as [[X1 X2] [Y1 Y2]]. cbn in X2, Y2.
  assert (a = 0 \/ a = 1 \/ a = 2) as XX by lia; assert (b = 0 \/ b = 1) as YY by lia.
  destruct YY as [-> | ->]; destruct XX as [-> | [-> | ->]]; injection Hv as <-; lia.
Qed.

Example C25_hypotheses : wf simg /\ 0 < g_width simg /\ 0 < g_height simg /\
  (forall x y v, pixel simg x y = Some v -> ity_min U8 <= v <= ity_max U8 /\ Z.abs v <= 9) /\
  g_width simg * g_height simg * 9 <= ity_max (sum_type U8) /\
  (forall x y v, pixel simg x y = Some v -> 0 <= v - 3 < ga_size (mkGA (repeat (Some 8) 8) 8 8 0 true)) /\
  all_pixels simg = [4;7;4;5;4;9] /\ image_sum U8 simg = Ok 33 /\ image_mean U8 simg = Ok 5 /\
  match image_histogram U8 simg 3 (mkGA (repeat (Some 8) 8) 8 8 0 true) with
  | Ok h => map (ga_at h) [0;1;2;3;4;5;6;7] = map Ok [0;3;1;0;1;0;1;0]
  | _ => False
  end.
Proof.
  split; [exact simg_wf|]. split; [cbn; lia|]. split; [cbn; lia|].
  split. { intros x y v Hv. apply simg_range in Hv. cbn. lia. }
  split; [cbn; lia|]. split. { intros x y v Hv. apply simg_range in Hv. cbn. lia. }
  vm_compute. auto.
Qed.
Example C25_wraps : ity_signed (sum_type U16) = false /\ image_sum U16 simg = Ok (u32 33).
Proof. vm_compute. auto. Qed.

(** C26: extrema of images that own their storage. *)
Theorem C26_min : forall t (g : gray Z), wf g -> g_sub g = false -> 0 < g_width g -> 0 < g_height g ->
  (forall x y v, pixel g x y = Some v -> ity_min t <= v <= ity_max t) ->
  exists m, image_min t g = Ok m /\ (exists x y, pixel g x y = Some m) /\ forall x y v, pixel g x y = Some v -> m <= v.
Proof. exact image_min_ok. Qed.
Print Assumptions C26_min.
Theorem C26_max : forall t (g : gray Z), wf g -> g_sub g = false -> 0 < g_width g -> 0 < g_height g ->
  (forall x y v, pixel g x y = Some v -> ity_min t <= v <= ity_max t) ->
  exists m, image_max t g = Ok m /\ (exists x y, pixel g x y = Some m) /\ forall x y v, pixel g x y = Some v -> v <= m.
Proof. exact image_max_ok. Qed.
Print Assumptions C26_max.

Definition ximg : gray Z := mkGray 3 2 0 3 false [14;7;200;5;61;9].
Lemma ximg_wf : wf ximg.
Proof. unfold wf; cbn; repeat split; try lia; intros; discriminate. Qed.
Lemma ximg_range : forall x y v, pixel ximg x y = Some v -> 0 <= v <= 255.
Proof.
  intros a b v Hv. pose proof (pixel_Some _ _ _ _ Hv) as [[X1 X2] [Y1 Y2]]. cbn in X2, Y2.
  assert (a = 0 \/ a = 1 \/ a = 2) as XX by lia; assert (b = 0 \/ b = 1) as YY by lia.
  destruct YY as [-> | ->]; destruct XX as [-> | [-> | ->]]; injection Hv as <-; lia.
Qed.
Example C26_hypotheses : wf ximg /\ g_sub ximg = false /\ 0 < g_width ximg /\ 0 < g_height ximg /\
  (forall x y v, pixel ximg x y = Some v -> ity_min U8 <= v <= ity_max U8) /\
  image_min U8 ximg = Ok 5 /\ image_max U8 ximg = Ok 200.
Proof.
  split; [exact ximg_wf|]. split; [reflexivity|]. split; [cbn; lia|]. split; [cbn; lia|].
  split; [exact ximg_range|]. vm_compute. auto.
Qed.

(** A sub-image: the answers come from the start of the parent's buffer and are not pixels of the sub-image. *)
Theorem C26_subimage_refuted : exists g : gray Z,
  wf g /\ 0 < g_width g /\ 0 < g_height g /\ (forall x y v, pixel g x y = Some v -> ity_min U8 <= v <= ity_max U8) /\
  exists m k, image_min U8 g = Ok m /\ image_max U8 g = Ok k /\
    (forall x y, pixel g x y <> Some m) /\ (forall x y, pixel g x y <> Some k) /\ exists v, pixel g 0 0 = Some v /\ k <> v /\ v < m.
Proof.
  exists (mkGray 2 1 3 3 true [20;30;10;5;6;7]). split.
  { unfold wf; cbn; repeat split; try lia; intros; discriminate. }
  assert (P : forall x y v, pixel (mkGray 2 1 3 3 true [20;30;10;5;6;7]) x y = Some v -> v = 5 \/ v = 6).
  { intros x y v Hv. pose proof (pixel_Some _ _ _ _ Hv) as [[X1 X2] [Y1 Y2]]. cbn in X2, Y2.
    assert (x = 0 \/ x = 1) as XX by lia. assert (y = 0) as -> by lia.
    destruct XX as [-> | ->]; injection Hv as <-; lia. }
  split; [cbn; lia|]. split; [cbn; lia|]. split; [intros x y v Hv; apply P in Hv; cbn; lia|].
  exists 20, 30. split; [reflexivity|]. split; [reflexivity|].
  split; [intros x y H; apply P in H; lia|]. split; [intros x y H; apply P in H; lia|]. exists 5. split; [reflexivity|lia].
Qed.
Print Assumptions C26_subimage_refuted.

(** C27: signed pixels.  64-bit pixels are averaged correctly (C25_mean with t = S64), smaller ones are not. *)
Theorem C27_mean_s64 : forall (g : gray Z) M, wf g -> 0 <= M -> 0 < g_width g -> 0 < g_height g ->
  (forall x y v, pixel g x y = Some v -> ity_min S64 <= v <= ity_max S64 /\ Z.abs v <= M) ->
  g_width g * g_height g * M <= ity_max S64 ->
  image_mean S64 g = Ok (Z.quot (zsum (all_pixels g)) (g_width g * g_height g)).
Proof. exact (fun g M Hg HM Hw Hh HP HS => image_mean_ok S64 g M Hg HM Hw Hh HP HS (or_introl eq_refl)). Qed.
Print Assumptions C27_mean_s64.
Example C27_mean_s64_hypotheses :
  let g := mkGray 3 1 0 3 false [-1; -7; 3] in
  wf g /\ 0 < g_width g /\ 0 < g_height g /\
  (forall x y v, pixel g x y = Some v -> ity_min S64 <= v <= ity_max S64 /\ Z.abs v <= 7) /\
  g_width g * g_height g * 7 <= ity_max S64 /\ image_mean S64 g = Ok (-1).
Proof.
  intro g. split; [unfold wf; cbn; repeat split; try lia; intros; discriminate|]. split; [cbn; lia|]. split; [cbn; lia|].
  split; [|split; [cbn; lia|reflexivity]]. intros x y v Hv. pose proof (pixel_Some _ _ _ _ Hv) as [[X1 X2] [Y1 Y2]].
  cbn in X2, Y2. assert (x = 0 \/ x = 1 \/ x = 2) as XX by lia. assert (y = 0) as -> by lia.
  destruct XX as [-> | [-> | ->]]; injection Hv as <-; cbn; lia.
Qed.

Theorem C27_mean_refuted : exists g : gray Z,
  wf g /\ (forall x y v, pixel g x y = Some v -> v = -1) /\ 0 < g_width g /\ 0 < g_height g /\
  image_mean S16 g = Ok 21844 /\ image_mean S32 g = Ok 1431655764 /\
  Z.quot (zsum (all_pixels g)) (g_width g * g_height g) = -1.
Proof.
  exists (mkGray 3 1 0 3 false [-1;-1;-1]). split; [unfold wf; cbn; repeat split; try lia; intros; discriminate|].
  split. { intros x y v Hv. pose proof (pixel_Some _ _ _ _ Hv) as [[X1 X2] [Y1 Y2]]. cbn in X2, Y2.
    assert (x = 0 \/ x = 1 \/ x = 2) as XX by lia. assert (y = 0) as -> by lia.
    destruct XX as [-> | [-> | ->]]; now injection Hv as <-. }
  vm_compute. auto.
Qed.
Print Assumptions C27_mean_refuted.

(** C54: a pixel outside the range of the histogram is counted outside the array: undefined behaviour, no exception. *)
Theorem C54_histogram_range_refuted : exists (g : gray Z) (h : growarr Z),
  wf g /\ (forall x y v, pixel g x y = Some v -> ity_min U8 <= v <= ity_max U8) /\
  0 <= ga_size h <= zlen (ga_data h) /\ image_histogram U8 g 0 h = Undef.
Proof.
  exists ximg, (mkGA (repeat (Some 0) 100) 100 100 0 true). split; [exact ximg_wf|]. split; [exact ximg_range|].
  split; [vm_compute; split; discriminate|reflexivity].
Qed.
Print Assumptions C54_histogram_range_refuted.

(** C55: the mean of an image without pixels divides by zero. *)
Theorem C55_mean_empty : forall t (g : gray Z), wf g -> g_width g = 0 \/ g_height g = 0 -> image_mean t g = Undef.
Proof. exact image_mean_empty. Qed.
Print Assumptions C55_mean_empty.
Example C55_mean_hypotheses : wf (gray_new 0 0 0) /\ g_width (gray_new (A := Z) 0 0 0) = 0.
Proof. split; [apply wf_new; lia|reflexivity]. Qed.

Theorem C55_mean_refuted : exists (g : gray Z), wf g /\ image_mean U8 g = Undef.
Proof. exists (gray_new 0 0 0). split; [apply wf_new; lia|reflexivity]. Qed.
Print Assumptions C55_mean_refuted.

(** C56: the maximum of a floating point image starts at the smallest positive number instead of the lowest one. *)
Theorem C56_float_max_refuted : exists g : gray spec_float,
  wf g /\ g_sub g = false /\ 0 < g_width g /\ 0 < g_height g /\
  (forall x y v, pixel g x y = Some v -> v = float_of_Z F32 (-3)) /\
  exists m, float_max F32 g = Ok m /\ SFltb (float_of_Z F32 0) m = true.
Proof.
  exists (mkGray 1 1 0 1 false [float_of_Z F32 (-3)]). split; [unfold wf; cbn; repeat split; try lia; intros; discriminate|].
  split; [reflexivity|]. split; [cbn; lia|]. split; [cbn; lia|]. split.
  { intros x y v Hv. pose proof (pixel_Some _ _ _ _ Hv) as [[X1 X2] [Y1 Y2]]. cbn in X2, Y2.
    assert (x = 0) as -> by lia. assert (y = 0) as -> by lia. injection Hv as <-. reflexivity. }
  exists (float_limit_min F32). vm_compute. auto.
Qed.
Print Assumptions C56_float_max_refuted.

(** C58: the sum of two 32-bit pixels is not representable in the 32-bit sum type: undefined behaviour. *)
Theorem C58_sum_overflow_refuted : exists g : gray Z,
  wf g /\ (forall x y v, pixel g x y = Some v -> ity_min S32 <= v <= ity_max S32) /\ image_sum S32 g = Undef.
Proof.
  exists (mkGray 2 1 0 2 false [2147483647; 1]). split; [unfold wf; cbn; repeat split; try lia; intros; discriminate|].
  split; [|reflexivity]. intros x y v Hv. pose proof (pixel_Some _ _ _ _ Hv) as [[X1 X2] [Y1 Y2]]. cbn in X2, Y2.
  assert (x = 0 \/ x = 1) as XX by lia. assert (y = 0) as -> by lia.
  destruct XX as [-> | ->]; injection Hv as <-; cbn; lia.
Qed.
Print Assumptions C58_sum_overflow_refuted.

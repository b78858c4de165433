(** Theorems about statistics that do not depend on where the pixels are (C143). *)
From Coq Require Import Permutation Floats.SpecFloat.
From Verif Require Import Base BaseFacts M_Image S_Image M_GrowArray M_Blur S_Blur M_Float M_Stats S_Stats S_Brightness S_Places L_Places.
Open Scope Z_scope.

(** C143: two images in which the values, moved by k, occur equally often: sum, *)
Theorem C143_sum : forall t k g h, wf g -> wf h -> same_counts k g h -> forall M1 M2, summable t M1 g -> summable t M2 h ->
  exists s, image_sum t g = Ok s /\ image_sum t h = Ok (s + k * (g_width g * g_height g)).
Proof. exact places_sum. Qed.
Print Assumptions C143_sum.

(** mean, *)
Theorem C143_mean : forall t k g h, wf g -> wf h -> same_counts k g h -> forall M1 M2, summable t M1 g -> summable t M2 h ->
  0 < g_width g -> 0 < g_height g -> 0 < g_width h -> 0 < g_height h ->
  (forall x y v, pixel g x y = Some v -> 0 <= v) -> (forall x y v, pixel h x y = Some v -> 0 <= v) ->
  exists m, image_mean t g = Ok m /\ image_mean t h = Ok (m + k).
Proof. exact places_mean. Qed.
Print Assumptions C143_mean.

(** minimum and maximum, *)
Theorem C143_extremes : forall t k g h, wf g -> wf h -> same_counts k g h -> g_sub g = false -> g_sub h = false ->
  0 < g_width g -> 0 < g_height g -> 0 < g_width h -> 0 < g_height h ->
  (forall x y v, pixel g x y = Some v -> ity_min t <= v <= ity_max t) -> (forall x y v, pixel h x y = Some v -> ity_min t <= v <= ity_max t) ->
  exists a b, image_min t g = Ok a /\ image_max t g = Ok b /\ image_min t h = Ok (a + k) /\ image_max t h = Ok (b + k).
Proof. exact places_extremes. Qed.
Print Assumptions C143_extremes.

(** and histogram. *)
Theorem C143_histogram : forall t k g h, wf g -> wf h -> same_counts k g h -> forall mn hg hh, bins_for g mn hg -> bins_for h (mn + k) hh -> ga_size hg = ga_size hh ->
  exists rg rh, image_histogram t g mn hg = Ok rg /\ image_histogram t h (mn + k) hh = Ok rh /\ forall i, 0 <= i < ga_size hg -> ga_at rg i = ga_at rh i.
Proof. exact places_histogram. Qed.
Print Assumptions C143_histogram.

(** C143: the histogram counts every pixel, and the sum can be read from it; *)
Theorem C143_tells : forall t g mn h M, wf g -> bins_for g mn h -> summable t M g -> exists r, image_histogram t g mn h = Ok r /\
  zsum (map (bin_of r) (zrange (ga_size h))) = g_width g * g_height g /\
  image_sum t g = Ok (zsum (map (fun i => (mn + i) * bin_of r i) (zrange (ga_size h)))).
Proof. exact histogram_tells. Qed.
Print Assumptions C143_tells.

(** its first and last bins that are not empty are those of the minimum and the maximum. *)
Theorem C143_bins : forall t g mn h, wf g -> bins_for g mn h -> g_sub g = false -> 0 < g_width g -> 0 < g_height g ->
  (forall x y v, pixel g x y = Some v -> ity_min t <= v <= ity_max t) ->
  exists r a b, image_histogram t g mn h = Ok r /\ image_min t g = Ok (mn + a) /\ image_max t g = Ok (mn + b) /\ 0 <= a <= b /\ b < ga_size h /\
    0 < bin_of r a /\ 0 < bin_of r b /\ forall i, 0 <= i < ga_size h -> i < a \/ b < i -> bin_of r i = 0.
Proof. exact histogram_extremes. Qed.
Print Assumptions C143_bins.

(** Values 4, 9, 4 and 14, 14, 19. *)
Example C143_case : wf (spot [4; 9; 4]) /\ wf (spot [14; 14; 19]) /\ same_counts 10 (spot [4; 9; 4]) (spot [14; 14; 19]) /\
  summable U8 9 (spot [4; 9; 4]) /\ summable U8 19 (spot [14; 14; 19]) /\
  bins_for (spot [4; 9; 4]) 3 (mkGA (repeat (Some 8) 8) 8 8 0 true) /\ bins_for (spot [14; 14; 19]) (3 + 10) (mkGA (repeat (Some 8) 8) 8 8 0 true) /\
  image_sum U8 (spot [4; 9; 4]) = Ok 17 /\ image_sum U8 (spot [14; 14; 19]) = Ok 47.
Proof.
  split; [apply spot_wf; reflexivity|]. split; [apply spot_wf; reflexivity|]. split; [exact spot_counts|].
  split; [split; [lia|]; split; [intros x y v E; apply spot_pixel in E; cbn; lia|cbn; lia]|].
  split; [split; [lia|]; split; [intros x y v E; apply spot_pixel in E; cbn; lia|cbn; lia]|].
  split; [split; [vm_compute; congruence|]; split; [cbn; lia|]; intros x y v E; apply spot_pixel in E; cbn; lia|].
  split; [split; [vm_compute; congruence|]; split; [cbn; lia|]; intros x y v E; apply spot_pixel in E; cbn; lia|].
  split; vm_compute; reflexivity.
Qed.

(** C143: where a sum can overflow on the way, the places of the pixels matter. *)
Theorem C143_overflow_refuted : exists g h, wf g /\ wf h /\ same_counts 0 g h /\ image_sum S32 g = Undef /\ exists s, image_sum S32 h = Ok s.
Proof. exact overflow_order. Qed.
Print Assumptions C143_overflow_refuted.

(** C143: the sum of floats depends on their places. *)
Theorem C143_float_refuted : exists g h a b, wf g /\ wf h /\ Permutation (all_pixels g) (all_pixels h) /\ float_sum F32 g = Ok a /\ float_sum F32 h = Ok b /\ a <> b.
Proof. exact float_order. Qed.
Print Assumptions C143_float_refuted.

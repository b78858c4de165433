(** Theorems about averages of bands (C144). *)
From Coq Require Import Permutation.
From Verif Require Import Base BaseFacts M_Image S_Image M_Misc S_Stats S_Bands L_Bands.
Open Scope Z_scope.

(** C144: the average is between the bands; bands that agree are their average. *)
Theorem C144_between : forall t M g out, band_args t M g out -> exists r, convert_average t g out = Ok r /\
  forall x y lo hi, in_frame g x y -> (forall b v, i_pixel g x y b = Some v -> lo <= v <= hi) -> exists v, pixel r x y = Some v /\ lo <= v <= hi.
Proof. exact average_between. Qed.
Print Assumptions C144_between.

(** C144: brighter bands give no darker average. *)
Theorem C144_order : forall t M1 M2 g h out1 out2, band_args t M1 g out1 -> band_args t M2 h out2 -> same_frame g h ->
  (forall x y b u v, i_pixel g x y b = Some u -> i_pixel h x y b = Some v -> u <= v) ->
  exists r s, convert_average t g out1 = Ok r /\ convert_average t h out2 = Ok s /\
    forall x y, in_frame g x y -> exists u v, pixel r x y = Some u /\ pixel s x y = Some v /\ u <= v.
Proof. exact average_order. Qed.
Print Assumptions C144_order.

(** C144: a constant added to all bands is added to the average. *)
Theorem C144_shift : forall t M1 M2 k g h out1 out2, band_args t M1 g out1 -> band_args t M2 h out2 -> same_frame g h ->
  (forall x y b u v, i_pixel g x y b = Some u -> i_pixel h x y b = Some v -> v = u + k) ->
  exists r s, convert_average t g out1 = Ok r /\ convert_average t h out2 = Ok s /\
    forall x y, in_frame g x y -> exists u, pixel r x y = Some u /\ pixel s x y = Some (u + k).
Proof. exact average_shift. Qed.
Print Assumptions C144_shift.

(** C144: the order of the bands does not matter. *)
Theorem C144_exchange : forall t M1 M2 g h out1 out2, band_args t M1 g out1 -> band_args t M2 h out2 -> same_frame g h ->
  (forall x y, in_frame g x y -> Permutation (bands_of g x y) (bands_of h x y)) ->
  exists r s, convert_average t g out1 = Ok r /\ convert_average t h out2 = Ok s /\ forall x y, in_frame g x y -> pixel r x y = pixel s x y.
Proof. exact average_exchange. Qed.
Print Assumptions C144_exchange.

(** Red, green and blue of two pixels; with red and blue exchanged. *)
Example C144_case : band_args U8 200 (rgb [10; 20; 40; 200; 0; 7]) (gray_new 0 1 1) /\ band_args U8 200 (rgb [40; 20; 10; 7; 0; 200]) (gray_new 0 1 1) /\
  same_frame (rgb [10; 20; 40; 200; 0; 7]) (rgb [40; 20; 10; 7; 0; 200]) /\
  Permutation (bands_of (rgb [10; 20; 40; 200; 0; 7]) 0 0) (bands_of (rgb [40; 20; 10; 7; 0; 200]) 0 0) /\
  exists r, convert_average U8 (rgb [10; 20; 40; 200; 0; 7]) (gray_new 0 1 1) = Ok r /\ pixel r 0 0 = Some 23 /\ pixel r 1 0 = Some 69.
Proof.
  split; [apply rgb_args; [reflexivity|lia|intros v I; cbn in I; lia]|]. split; [apply rgb_args; [reflexivity|lia|intros v I; cbn in I; lia]|].
  split; [repeat split|]. split; [exact (Permutation_rev [10; 20; 40])|]. eexists. split; [vm_compute; reflexivity|]. split; vm_compute; reflexivity.
Qed.

(** C144: with negative bands a constant is not added to the average. *)
Theorem C144_signed_refuted : exists g h out r s u v, i_wf g /\ i_wf h /\ same_frame g h /\ (forall x y b u v, i_pixel g x y b = Some u -> i_pixel h x y b = Some v -> v = u + 1) /\
  convert_average S64 g out = Ok r /\ convert_average S64 h out = Ok s /\ pixel r 0 0 = Some u /\ pixel s 0 0 = Some v /\ v <> u + 1.
Proof. exact signed_shift. Qed.
Print Assumptions C144_signed_refuted.

(** Statistics of float and double images: C108. *)
From Coq Require Import Reals Lia Lra.
From Coq Require Import Floats.SpecFloat.
From Flocq Require Import Core BinarySingleNaN.
From Verif Require Import Base BaseFacts M_Image S_Image M_Float S_Ieee M_Stats S_Stats S_FStats L_Ieee L_PointF L_FStats.

(** The constants in the bounds of C102 to C108. *)
Theorem C108_constants : unit_error F32 = (/ IZR (2 ^ 24))%R /\ unit_error F64 = (/ IZR (2 ^ 53))%R /\
  tiny_error F32 = (/ IZR (2 ^ 150))%R /\ tiny_error F64 = (/ IZR (2 ^ 1075))%R /\
  huge F32 = IZR (2 ^ 128) /\ huge F64 = IZR (2 ^ 1024) /\
  smallest_normal F32 = (/ IZR (2 ^ 126))%R /\ smallest_normal F64 = (/ IZR (2 ^ 1022))%R.
Proof. exact constants. Qed.
Print Assumptions C108_constants.

(** C108.  The minimum is a pixel and no pixel is below it. *)
Theorem C108_min : forall f, standard f -> forall g : gray spec_float, wf g -> numbers f g ->
  g_sub g = false -> 0 < g_width g -> 0 < g_height g ->
  exists m, float_min f g = Ok m /\ (exists x y p, pixel g x y = Some p /\ val p = val m) /\
    forall x y p, pixel g x y = Some p -> (val m <= val p)%R.
Proof. exact float_min_ok. Qed.
Print Assumptions C108_min.
(** The maximum is the largest pixel unless that is below the smallest positive normal number, which is returned then. *)
Theorem C108_max : forall f, standard f -> forall g : gray spec_float, wf g -> numbers f g -> g_sub g = false ->
  exists m, float_max f g = Ok m /\ (smallest_normal f <= val m)%R /\ (forall x y p, pixel g x y = Some p -> (val p <= val m)%R) /\
    (val m = smallest_normal f \/ exists x y, pixel g x y = Some m).
Proof. exact float_max_ok. Qed.
Print Assumptions C108_max.

(** Sum and mean, up to rounding errors that are proportional to the sum of the magnitudes. *)
Theorem C108_sum : forall f, standard f -> forall g : gray spec_float, wf g -> numbers f g ->
  (magnitude g * (1 + unit_error f) ^ Z.to_nat (count g) < huge f)%R ->
  exists s, float_sum f g = Ok s /\ finite f s /\
    (Rabs (val s - exact_sum g) <= ((1 + unit_error f) ^ Z.to_nat (count g) - 1) * magnitude g)%R.
Proof. exact float_sum_ok. Qed.
Print Assumptions C108_sum.
Theorem C108_mean : forall f, standard f -> forall g : gray spec_float, wf g -> numbers f g ->
  0 < count g < 4294967296 -> (2 * (magnitude g + 1) * (1 + unit_error f) ^ Z.to_nat (count g + 3) < huge f)%R ->
  exists m, float_mean f g = Ok m /\ finite f m /\
    (Rabs (val m - exact_sum g / IZR (count g)) <=
      ((1 + unit_error f) ^ Z.to_nat (count g + 3) - 1) * (magnitude g / IZR (count g)) + tiny_error f)%R.
Proof. exact float_mean_ok. Qed.
Print Assumptions C108_mean.

(** A 2x2 image 3 -7; 12 1 and its statistics. *)
Definition z32 (z : Z) : spec_float := float_of_Z F32 z.
Lemma z32_ok z : Z.abs z <= 16777216 -> finite F32 (z32 z) /\ val (z32 z) = IZR z.
Proof. intros H. exact (float_of_Z_exact F32 (standard_wfty F32 (or_introl eq_refl)) z H). Qed.
Definition eg : gray spec_float := mkGray 2 2 0 2 false (map z32 [3; -7; 12; 1]).
Lemma eg_pixels : all_pixels eg = map z32 [3; -7; 12; 1].
Proof. reflexivity. Qed.
Lemma eg_magnitude : magnitude eg = 23%R /\ exact_sum eg = 9%R.
Proof.
  unfold magnitude, exact_sum. rewrite eg_pixels. cbn [map fold_right].
  rewrite (proj2 (z32_ok 3 ltac:(lia))), (proj2 (z32_ok (-7) ltac:(lia))), (proj2 (z32_ok 12 ltac:(lia))), (proj2 (z32_ok 1 ltac:(lia))).
  rewrite <- !abs_IZR. cbn [Z.abs]. lra.
Qed.
Example C108_example : wf eg /\ numbers F32 eg /\ g_sub eg = false /\ 0 < count eg < 4294967296 /\
  (2 * (magnitude eg + 1) * (1 + unit_error F32) ^ Z.to_nat (count eg + 3) < huge F32)%R /\
  (magnitude eg * (1 + unit_error F32) ^ Z.to_nat (count eg) < huge F32)%R /\ exact_sum eg = 9%R /\
  float_min F32 eg = Ok (z32 (-7)) /\ float_max F32 eg = Ok (z32 12) /\ float_sum F32 eg = Ok (z32 9) /\
  exists m, float_mean F32 eg = Ok m /\ val m = (9 / 4)%R.
Proof.
  split; [unfold wf; cbn; unfold zlen; cbn [length]; repeat split; lia|].
  split.
  { intros x y p P. unfold pixel in P. destruct (_ && _); [|discriminate]. apply znth_In in P.
    apply in_map_iff in P as (z & <- & Hz). apply z32_ok. cbn in Hz. lia. }
  split; [reflexivity|]. split; [change (count eg) with 4; lia|].
  destruct eg_magnitude as [-> ->]. change (count eg) with 4. change (Z.to_nat (4 + 3)) with 7%nat. change (Z.to_nat 4) with 4%nat.
  destruct (unit_small F32 (or_introl eq_refl)) as [U0 U]. pose proof (huge_big F32 (or_introl eq_refl)) as H.
  assert (P : forall n, ((1 + unit_error F32) ^ n <= 2 ^ n)%R) by (intros n; apply pow_incr; lra).
  pose proof (P 7%nat) as P7. pose proof (P 4%nat) as P4. cbn [pow] in P7, P4.
  split; [cbn [pow]; lra|]. split; [cbn [pow]; lra|]. split; [reflexivity|].
  repeat (split; [vm_compute; reflexivity|]).
  exists (S754_finite false 9437184 (-22)). split; [vm_compute; reflexivity|].
  unfold val, SF2R, F2R. cbn [cond_Zopp Fnum Fexp]. unfold bpow. change (Z.pow_pos radix2 22) with 4194304. lra.
Qed.

(** The mean of a constant image differs from the constant. *)
Theorem C108_constant_refuted : exists (g : gray spec_float) m, wf g /\ (forall x y p, pixel g x y = Some p -> val p = 8388610%R) /\
  0 < g_width g /\ 0 < g_height g /\ float_mean F32 g = Ok m /\ val m = 8388609%R.
Proof.
  exists (mkGray 7 1 0 7 false (repeat (z32 8388610) 7)), (z32 8388609).
  split; [unfold wf; cbn; unfold zlen; cbn [length]; repeat split; lia|].
  split.
  { intros x y p P. unfold pixel in P. destruct (_ && _); [|discriminate]. apply znth_In in P.
    apply repeat_spec in P as ->. apply z32_ok. lia. }
  split; [cbn; lia|]. split; [cbn; lia|]. split; [vm_compute; reflexivity|]. apply z32_ok. lia.
Qed.
Print Assumptions C108_constant_refuted.
(** The minimum of an image of infinities is not one of its pixels. *)
Theorem C108_infinite_refuted : exists (g : gray spec_float) m, wf g /\ g_sub g = false /\ 0 < g_width g /\ 0 < g_height g /\
  (forall x y p, pixel g x y = Some p -> p = S754_infinity false) /\ float_min F32 g = Ok m /\ finite F32 m.
Proof.
  exists (mkGray 1 1 0 1 false [S754_infinity false]), (float_limit_max F32).
  split; [unfold wf; cbn; unfold zlen; cbn [length]; repeat split; lia|].
  split; [reflexivity|]. split; [cbn; lia|]. split; [cbn; lia|].
  split.
  { intros x y p P. unfold pixel in P. destruct (_ && _); [|discriminate]. apply znth_In in P. destruct P as [<-|[]]. reflexivity. }
  split; [reflexivity|]. split; reflexivity.
Qed.
Print Assumptions C108_infinite_refuted.

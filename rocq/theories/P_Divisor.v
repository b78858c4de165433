(** Convolution with a divisor and without border handling: C109. *)
From Coq Require Import Reals Lia Lra.
From Coq Require Import Floats.SpecFloat.
From Verif Require Import Base BaseFacts M_Image S_Image L_Image M_Border S_Border L_Border M_Convolve S_Convolve M_Float M_Divisor
  S_Ieee S_FConv S_Divisor L_Ieee L_PointF L_Divisor.

(** C109.  The inner convolutions (pointer and index version) write the pixels at which the whole kernel lies inside the
    image, with the weighted sum of pixels, and no other memory.  Any arithmetic, with or without divisor. *)
Theorem C109_inner : forall E S R (A : arith E S R) (K : kernel S) (g : gray E) (o : gray R),
  wf g -> wf o -> g_width o = g_width g -> g_height o = g_height g -> g_width g <= 1073741824 -> g_height g <= 1073741824 ->
  (kernel1_ok K -> k_width K <= g_width g ->
    (forall x y, inside g x y -> whole K (g_width g) x -> exists r, plain_h A K g x y = Some r) ->
    (exists d, inner_h_ptr A K g o (g_data o) = Ok d /\
       fills o (with_data o d) (fun x _ => whole K (g_width g) x) (plain_h A K g)) /\
    (zlen (g_data g) < 2147483648 -> exists d, inner_h_idx A K g o (g_data o) = Ok d /\
       fills o (with_data o d) (fun x _ => whole K (g_width g) x) (plain_h A K g))) /\
  (kernel1_ok K -> k_width K <= g_height g ->
    (forall x y, inside g x y -> whole K (g_height g) y -> exists r, plain_v A K g x y = Some r) ->
    (exists d, inner_v_ptr A K g o (g_data o) = Ok d /\
       fills o (with_data o d) (fun _ y => whole K (g_height g) y) (plain_v A K g)) /\
    (zlen (g_data g) < 2147483648 -> exists d, inner_v_idx A K g o (g_data o) = Ok d /\
       fills o (with_data o d) (fun _ y => whole K (g_height g) y) (plain_v A K g))) /\
  (kernel2_ok K -> k_width K <= g_width g -> k_width K <= g_height g ->
    (forall x y, inside g x y -> whole K (g_width g) x /\ whole K (g_height g) y -> exists r, plain_2 A K g x y = Some r) ->
    exists d, inner_2 A K g o (g_data o) = Ok d /\
      fills o (with_data o d) (fun x y => whole K (g_width g) x /\ whole K (g_height g) y) (plain_2 A K g)).
Proof. exact @inner_all. Qed.
Print Assumptions C109_inner.

(** Integer images with a divisor: the naive functions at every pixel, *)
Theorem C109_naive_int : forall t d (K : kernel Z) M, d <> 0 -> Z.abs d <= ity_max (signed_type t) ->
  zabs_sum (k_data K) * M + Z.abs (Z.quot d 2) <= ity_max (signed_type t) ->
  forall g o : gray Z, wf g -> wf o -> g_width o = g_width g -> g_height o = g_height g ->
  g_width g <= 1073741824 -> g_height g <= 1073741824 ->
  forall b P, (forall x y, extended b g x y = Some (P x y) /\ Z.abs (P x y) <= M) ->
  (kernel1_ok K -> fits b (g_width g) K -> exists dd, naive_h (int_arith_div t d) K b g o (g_data o) = Ok dd /\
     holds g o (with_data o dd) (fun x y => Some (divided t d (k_data K) (samples_h K P x y)))) /\
  (kernel1_ok K -> fits b (g_height g) K -> exists dd, naive_v (int_arith_div t d) K b g o (g_data o) = Ok dd /\
     holds g o (with_data o dd) (fun x y => Some (divided t d (k_data K) (samples_v K P x y)))) /\
  (kernel2_ok K -> fits b (g_width g) K -> fits b (g_height g) K ->
     exists dd, naive_2 (int_arith_div t d) K b g o (g_data o) = Ok dd /\
     holds g o (with_data o dd) (fun x y => Some (divided t d (k_data K) (samples_2 K P x y)))).
Proof. exact divisor_naive. Qed.
Print Assumptions C109_naive_int.
(** the inner functions where the kernel is inside the image. *)
Theorem C109_inner_int : forall t d (K : kernel Z) M, d <> 0 -> Z.abs d <= ity_max (signed_type t) ->
  zabs_sum (k_data K) * M + Z.abs (Z.quot d 2) <= ity_max (signed_type t) ->
  forall g o : gray Z, wf g -> wf o -> g_width o = g_width g -> g_height o = g_height g ->
  g_width g <= 1073741824 -> g_height g <= 1073741824 ->
  forall P, (forall x y, inside g x y -> pixel g x y = Some (P x y) /\ Z.abs (P x y) <= M) ->
  (kernel1_ok K -> k_width K <= g_width g -> exists dd, inner_h_ptr (int_arith_div t d) K g o (g_data o) = Ok dd /\
     fills o (with_data o dd) (fun x _ => whole K (g_width g) x) (fun x y => Some (divided t d (k_data K) (samples_h K P x y)))) /\
  (kernel1_ok K -> k_width K <= g_height g -> exists dd, inner_v_ptr (int_arith_div t d) K g o (g_data o) = Ok dd /\
     fills o (with_data o dd) (fun _ y => whole K (g_height g) y) (fun x y => Some (divided t d (k_data K) (samples_v K P x y)))) /\
  (kernel2_ok K -> k_width K <= g_width g -> k_width K <= g_height g ->
     exists dd, inner_2 (int_arith_div t d) K g o (g_data o) = Ok dd /\
     fills o (with_data o dd) (fun x y => whole K (g_width g) x /\ whole K (g_height g) y)
       (fun x y => Some (divided t d (k_data K) (samples_2 K P x y)))).
Proof. exact divisor_inner. Qed.
Print Assumptions C109_inner_int.
(** Sums that are not negative are divided to the nearest integer. *)
Theorem C109_nearest : forall t d ks p, 0 <= zdot ks p 0 -> 0 < d -> zdot ks p 0 + d / 2 < d * (ity_max t + 1) ->
  2 * Z.abs (d * divided t d ks p - zdot ks p 0) <= d.
Proof. exact divided_nearest. Qed.
Print Assumptions C109_nearest.

Definition eg_k : kernel Z := mkKernel 3 1 [1; 2; 1].
Definition eg_g : gray Z := mkGray 4 2 0 5 true [1; 5; 9; 200; 77; 0; 3; 8; 2; 77].
Definition eg_o : gray Z := mkGray 4 2 0 4 false [11; 12; 13; 14; 15; 16; 17; 18].
Example C109_int_example : 4 <> 0 /\ wf eg_g /\ wf eg_o /\ kernel1_ok eg_k /\ k_width eg_k <= g_width eg_g /\
  zabs_sum (k_data eg_k) * 255 + Z.abs (Z.quot 4 2) <= ity_max (signed_type U8) /\
  (forall x y, inside eg_g x y -> exists p, pixel eg_g x y = Some p /\ Z.abs p <= 255) /\
  inner_h_ptr (int_arith_div U8 4) eg_k eg_g eg_o (g_data eg_o) = Ok [11; 5; 56; 14; 15; 4; 5; 18] /\
  naive_h (int_arith_div U8 4) eg_k (BValue 0) eg_g eg_o (g_data eg_o) = Ok [2; 5; 56; 102; 1; 4; 5; 3] /\
  divided U8 4 [1; 2; 1] (fun i => nth (Z.to_nat i) [1; 5; 9] 0) = 5.
Proof.
  split; [lia|]. split; [unfold wf; cbn; unfold zlen; cbn [length]; repeat split; try lia; intros; discriminate|].
  split; [unfold wf; cbn; unfold zlen; cbn [length]; repeat split; lia|].
  split; [unfold kernel1_ok; cbn; unfold zlen; cbn; lia|]. split; [cbn; lia|]. split; [cbn; lia|].
  split; [|split; [vm_compute; reflexivity|split; vm_compute; reflexivity]].
  intros x y [[X1 X2] [Y1 Y2]]. cbn in X2, Y2.
  assert (x = 0 \/ x = 1 \/ x = 2 \/ x = 3) as [->|[->|[->| ->]]] by lia;
  assert (y = 0 \/ y = 1) as [->| ->] by lia; eexists; (split; [vm_compute; reflexivity|lia]).
Qed.

(** Negative sums are not: -5 divided by 3 gives -1. *)
Theorem C109_negative_refuted : exists (K : kernel Z) (g o : gray Z) d,
  kernel1_ok K /\ wf g /\ wf o /\ 0 < d /\ naive_h (int_arith_div S16 d) K BExtend g o (g_data o) = Ok [-1] /\
  inner_h_ptr (int_arith_div S16 d) K g o (g_data o) = Ok [-1] /\
  zdot (k_data K) (fun _ => 1) 0 = -5 /\ d < 2 * Z.abs (d * -1 - -5).
Proof.
  exists (mkKernel 1 0 [-5]), (gray_new 1 1 1), (gray_new 0 1 1), 3.
  split; [unfold kernel1_ok; cbn; unfold zlen; cbn; lia|]. split; [apply wf_new; lia|]. split; [apply wf_new; lia|].
  split; [lia|]. repeat (split; [vm_compute; reflexivity|]). vm_compute. reflexivity.
Qed.
Print Assumptions C109_negative_refuted.
(** A divisor of zero is not rejected. *)
Theorem C109_zero_refuted : exists (K : kernel Z) (g o : gray Z), kernel1_ok K /\ wf g /\ wf o /\
  naive_h (int_arith_div U8 0) K BExtend g o (g_data o) = Undef /\ inner_h_ptr (int_arith_div U8 0) K g o (g_data o) = Undef.
Proof.
  exists (mkKernel 1 0 [5]), (gray_new 1 1 1), (gray_new 0 1 1).
  split; [unfold kernel1_ok; cbn; unfold zlen; cbn; lia|]. split; [apply wf_new; lia|]. split; [apply wf_new; lia|].
  split; vm_compute; reflexivity.
Qed.
Print Assumptions C109_zero_refuted.

(** The inner functions do not check that the kernel fits: with an image of one pixel and a kernel of three they leave it. *)
Theorem C109_narrow_refuted : exists (K : kernel Z) (g o : gray Z), kernel1_ok K /\ wf g /\ wf o /\
  g_width o = g_width g /\ g_height o = g_height g /\ inner_h_ptr (int_arith_div U8 1) K g o (g_data o) = Undef.
Proof.
  exists (mkKernel 3 1 [1; 1; 1]), (gray_new 1 1 1), (gray_new 0 1 1).
  split; [unfold kernel1_ok; cbn; unfold zlen; cbn; lia|]. split; [apply wf_new; lia|]. split; [apply wf_new; lia|].
  split; [reflexivity|]. split; [reflexivity|]. exact narrow_undef.
Qed.
Print Assumptions C109_narrow_refuted.

(** Float and double images with a divisor. *)
Theorem C109_naive_float : forall f, standard f -> forall (d : spec_float) (K : kernel spec_float),
  finite f d -> val d <> 0%R -> (forall c, In c (k_data K) -> finite f c) ->
  forall g o : gray spec_float, wf g -> wf o -> g_width o = g_width g -> g_height o = g_height g ->
  g_width g <= 1073741824 -> g_height g <= 1073741824 -> forall b P, shows f b g P ->
  (kernel1_ok K -> fits b (g_width g) K -> (forall x y, inside g x y -> fquot_safe f K d (samples_h K) P x y) ->
     exists dd, naive_h (float_arith_div f d) K b g o (g_data o) = Ok dd /\
     fills_near f o (with_data o dd) (fun _ _ => True) (fquot K d (samples_h K) P) (fquot_error f K d (samples_h K) P)) /\
  (kernel1_ok K -> fits b (g_height g) K -> (forall x y, inside g x y -> fquot_safe f K d (samples_v K) P x y) ->
     exists dd, naive_v (float_arith_div f d) K b g o (g_data o) = Ok dd /\
     fills_near f o (with_data o dd) (fun _ _ => True) (fquot K d (samples_v K) P) (fquot_error f K d (samples_v K) P)) /\
  (kernel2_ok K -> fits b (g_width g) K -> fits b (g_height g) K ->
     (forall x y, inside g x y -> fquot_safe f K d (samples_2 K) P x y) ->
     exists dd, naive_2 (float_arith_div f d) K b g o (g_data o) = Ok dd /\
     fills_near f o (with_data o dd) (fun _ _ => True) (fquot K d (samples_2 K) P) (fquot_error f K d (samples_2 K) P)).
Proof. exact fdivisor_naive. Qed.
Print Assumptions C109_naive_float.
Theorem C109_inner_float : forall f, standard f -> forall (d : spec_float) (K : kernel spec_float),
  finite f d -> val d <> 0%R -> (forall c, In c (k_data K) -> finite f c) ->
  forall g o : gray spec_float, wf g -> wf o -> g_width o = g_width g -> g_height o = g_height g ->
  g_width g <= 1073741824 -> g_height g <= 1073741824 -> forall P, shows f BExtend g P -> zlen (g_data g) < 2147483648 ->
  (kernel1_ok K -> k_width K <= g_width g ->
     (forall x y, inside g x y -> whole K (g_width g) x -> fquot_safe f K d (samples_h K) P x y) ->
     exists dd, inner_h_idx (float_arith_div f d) K g o (g_data o) = Ok dd /\
     fills_near f o (with_data o dd) (fun x _ => whole K (g_width g) x) (fquot K d (samples_h K) P) (fquot_error f K d (samples_h K) P)) /\
  (kernel1_ok K -> k_width K <= g_height g ->
     (forall x y, inside g x y -> whole K (g_height g) y -> fquot_safe f K d (samples_v K) P x y) ->
     exists dd, inner_v_idx (float_arith_div f d) K g o (g_data o) = Ok dd /\
     fills_near f o (with_data o dd) (fun _ y => whole K (g_height g) y) (fquot K d (samples_v K) P) (fquot_error f K d (samples_v K) P)) /\
  (kernel2_ok K -> k_width K <= g_width g -> k_width K <= g_height g ->
     (forall x y, inside g x y -> whole K (g_width g) x -> whole K (g_height g) y -> fquot_safe f K d (samples_2 K) P x y) ->
     exists dd, inner_2 (float_arith_div f d) K g o (g_data o) = Ok dd /\
     fills_near f o (with_data o dd) (fun x y => whole K (g_width g) x /\ whole K (g_height g) y)
       (fquot K d (samples_2 K) P) (fquot_error f K d (samples_2 K) P)).
Proof. exact fdivisor_inner. Qed.
Print Assumptions C109_inner_float.

Definition z32 (z : Z) : spec_float := float_of_Z F32 z.
Lemma z32_ok z : Z.abs z <= 16777216 -> finite F32 (z32 z) /\ val (z32 z) = IZR z.
Proof. intros H. exact (float_of_Z_exact F32 (standard_wfty F32 (or_introl eq_refl)) z H). Qed.
(** The image 6 6 6 with kernel 1 2 and divisor 3. *)
Definition eg_kf : kernel spec_float := mkKernel 2 0 (map z32 [1; 2]).
Definition eg_gf : gray spec_float := mkGray 3 1 0 3 false (map z32 [6; 6; 6]).
Example C109_float_example : finite F32 (z32 3) /\ val (z32 3) <> 0%R /\ (forall c, In c (k_data eg_kf) -> finite F32 c) /\
  wf eg_gf /\ shows F32 BExtend eg_gf (fun _ _ => 6%R) /\ kernel1_ok eg_kf /\ k_width eg_kf <= g_width eg_gf /\
  (forall x y, fquot_safe F32 eg_kf (z32 3) (samples_h eg_kf) (fun _ _ => 6%R) x y) /\
  inner_h_idx (float_arith_div F32 (z32 3)) eg_kf eg_gf eg_gf (g_data eg_gf) = Ok (map z32 [6; 6; 6]).
Proof.
  destruct (z32_ok 3 ltac:(lia)) as [F3 V3]. destruct (z32_ok 6 ltac:(lia)) as [F6 V6].
  destruct (z32_ok 1 ltac:(lia)) as [F1 V1]. destruct (z32_ok 2 ltac:(lia)) as [F2 V2].
  split; auto. split; [rewrite V3; lra|]. split; [intros c [<-|[<-|[]]]; auto|].
  assert (Wf : wf eg_gf) by (unfold wf; cbn; unfold zlen; cbn [length]; repeat split; lia).
  split; auto. split.
  { intros x y. destruct (extended_exists BExtend eg_gf x y Wf ltac:(cbn; lia) ltac:(cbn; lia)) as (v & Ev).
    exists v. split; auto. enough (v = z32 6) as -> by auto. cbn [extended] in Ev. unfold pixel in Ev.
    destruct (_ && _); [|discriminate]. apply znth_In in Ev. cbn [eg_gf g_data map] in Ev.
    destruct Ev as [<-|[<-|[<-|[]]]]; reflexivity. }
  split; [unfold kernel1_ok; cbn; unfold zlen; cbn; lia|]. split; [cbn; lia|]. split; [|vm_compute; reflexivity].
  intros x y. unfold fquot_safe, samples_h. cbn [eg_kf k_data map rmag length]. rewrite V1, V2, V3.
  destruct (unit_small F32 (or_introl eq_refl)) as [U0 U]. destruct (tiny_small F32 (or_introl eq_refl)) as [T0 T].
  pose proof (huge_big F32 (or_introl eq_refl)) as H.
  unfold safe_quotient, safe_magnitude, sum_error. cbn [INR Nat.add pow]. rewrite !Rabs_pos_eq by lra.
  set (u := unit_error F32) in *. set (t := tiny_error F32) in *.
  assert (P2 : (1 <= (1 + u) * ((1 + u) * ((1 + u) * 1)) <= 8)%R) by nra.
  assert (P1 : (1 <= (1 + u) * ((1 + u) * 1) <= 4)%R) by nra.
  set (p3 := ((1 + u) * ((1 + u) * ((1 + u) * 1)))%R) in *. set (p2 := ((1 + u) * ((1 + u) * 1))%R) in *.
  split; [nra|].
  assert (((1 + 1) * t * p2 <= 8)%R) by nra.
  assert (((p3 - 1) * (1 * 6 + (2 * 6 + 0)) <= 126)%R) by nra.
  unfold Rdiv. nra.
Qed.

(** C48, C49, C68, C69, C72-C74: kernels made by the factory. *)
From Coq Require Import Reals Lra Lia Floats.SpecFloat.
From Flocq Require Import Core.
From Verif Require Import Base M_Image S_Image L_Image M_Convolve S_Convolve M_Normalized S_Normalized M_Otsu M_Float M_Config M_Kernel S_Kernel
  L_Kernel L_Gauss L_GaussInt L_GaussBlur L_BlockBad.
Open Scope Z_scope.

(** ** C48: normalisation *)
Theorem C48_normalize : forall w off (d : list R), zlen d = w -> rsum d <> 0%R ->
  exists d', normalize reals (mkKernel w off d) = Ok (mkKernel w off d') /\ rsum d' = 1%R /\
    zlen d' = w /\ forall i v, znth d i = Some v -> znth d' i = Some (v / rsum d)%R.
Proof. exact normalize_sum. Qed.
Print Assumptions C48_normalize.

Example C48_normalize_case : zlen [1%R; 2%R; 5%R] = 3 /\ rsum [1%R; 2%R; 5%R] <> 0%R.
Proof. split; [reflexivity|]. cbn. lra. Qed.

Theorem C48_mean : forall w, 0 < w -> mean1D reals w = Ok (mkKernel w (w / 2) (table w (fun _ => / IZR w)%R)) /\
  rsum (table w (fun _ => / IZR w)%R) = 1%R.
Proof. intros w H. split; [exact (mean1D_ok w H)|exact (mean1D_sum w H)]. Qed.
Print Assumptions C48_mean.

(** The integer kernel of the same name holds ones. *)
Theorem C48_mean_int : forall w, 0 < w -> mean1D_int w = Ok (mkKernel w (w / 2) (table w (fun _ => 1))).
Proof. exact (table1D_ok 0 1). Qed.
Print Assumptions C48_mean_int.

Example C48_mean_case : mean1D_int 5 = Ok (mkKernel 5 2 [1; 1; 1; 1; 1]).
Proof. reflexivity. Qed.

(** The sum of a square kernel does not become one. *)
Theorem C48_square_refuted : exists (K K' : kernel R), kernel2_of_lists 1 [[1%R; 1%R]; [1%R; 1%R]] = Ok K /\
  rsum (k_data K) <> 0%R /\ normalize reals K = Ok K' /\ rsum (k_data K') <> 1%R.
Proof.
  exists (mkKernel 2 1 [1%R; 1%R; 1%R; 1%R]), (mkKernel 2 1 [(1 / 4)%R; (1 / 4)%R; 1%R; 1%R]).
  split; [reflexivity|]. split; [cbn; lra|]. split; [exact square_ones|cbn; lra].
Qed.
Print Assumptions C48_square_refuted.

(** Gaussian kernels: [gauss_coef s w i] is the bell curve at distance i-(w-1)/2 divided by the sum over the kernel. *)
Theorem C48_gaussian : forall sigma width s w, chosen sigma width s w -> w <= 2147483647 ->
  gaussian1D reals reals (fun x => x) exp real_ceil sigma width = Ok (mkKernel w (w / 2) (table w (gauss_coef s w))).
Proof. exact gaussian1D_ok. Qed.
Print Assumptions C48_gaussian.

Theorem C48_gaussian_sum : forall s w, 0 < w -> rsum (table w (gauss_coef s w)) = 1%R.
Proof. exact gauss_sum. Qed.
Print Assumptions C48_gaussian_sum.

(** Positive, symmetric and falling with the distance from the middle. *)
Theorem C48_gaussian_shape : forall s w, (0 < s)%R -> 0 < w ->
  (forall i, (0 < gauss_coef s w i)%R) /\ (forall i, gauss_coef s w (w - 1 - i) = gauss_coef s w i) /\
  (forall i j, Z.abs (2 * i - (w - 1)) < Z.abs (2 * j - (w - 1)) -> (gauss_coef s w j < gauss_coef s w i)%R).
Proof.
  intros s w Hs Hw. split; [exact (fun i => gauss_pos s w i Hw)|]. split; [exact (gauss_sym s w)|].
  exact (fun i j => gauss_lt s w i j Hs Hw).
Qed.
Print Assumptions C48_gaussian_shape.

(** Width from sigma, and sigma from width. *)
Example C48_chosen : chosen 2 0 2 11 /\ chosen 0 6 (7 / 5) 6 /\ chosen 2 6 2 6.
Proof.
  split; [|split].
  - left. split; [lra|]. split; [reflexivity|]. right. split; [lia|].
    replace (Zceil ((5 * 2 - 1) / 2)) with 5; [lia|]. symmetry. apply Zceil_imp. rewrite minus_IZR. lra.
  - right. split; [lra|]. split; [lia|]. split; [reflexivity|]. change (6 / 2) with 3. lra.
  - left. split; [lra|]. split; [reflexivity|]. left. lia.
Qed.

(** Neither the width nor sigma given (or sigma from width 1): rejected. *)
Theorem C48_gaussian_throw : forall sigma width, (sigma <= 0)%R -> width <= 1 ->
  gaussian1D reals reals (fun x => x) exp real_ceil sigma width = Throw.
Proof. exact gaussian1D_throw. Qed.
Print Assumptions C48_gaussian_throw.
Example C48_throw_case : (-1 <= 0)%R /\ 1 <= 1.
Proof. split; [lra|lia]. Qed.

(** The square kernel is the product of two one-dimensional ones and sums to one. *)
Theorem C48_gaussian2D : forall sigma width s, chosen sigma width s width -> 0 < width < 65536 ->
  gaussian2D reals reals (fun x => x) exp real_ceil sigma width =
    Ok (mkKernel width (width / 2) (square_table width (gauss_coef s width))) /\
  rsum (square_table width (gauss_coef s width)) = 1%R.
Proof.
  intros sigma width s C H. split; [exact (gaussian2D_ok _ _ _ C H)|].
  rewrite rsum_square, gauss_sum by lia. lra.
Qed.
Print Assumptions C48_gaussian2D.

(** ** C68: an automatic width for the square kernel *)
(** Whenever the one-dimensional kernel is made for a width that is not positive, the square one is not. *)
Theorem C68_undefined : forall {D E} (O : dops D) (OE : dops E) narrow ex ce sigma seed,
  gaussian1D O OE narrow ex ce sigma (-1) = Ok seed -> gaussian2D O OE narrow ex ce sigma (-1) = Undef.
Proof. exact @gaussian2D_auto. Qed.
Print Assumptions C68_undefined.
Theorem C68_throw : forall {D E} (O : dops D) (OE : dops E) narrow ex ce sigma width seed,
  -2147483648 <= width <= 0 -> width <> -1 ->
  gaussian1D O OE narrow ex ce sigma width = Ok seed -> gaussian2D O OE narrow ex ce sigma width = Throw.
Proof. exact @gaussian2D_auto_throw. Qed.
Print Assumptions C68_throw.
Theorem C68_refuted : exists sigma seed,
  gaussian1D reals reals (fun x => x) exp real_ceil sigma (-1) = Ok seed /\ k_width seed = 11 /\
  gaussian2D reals reals (fun x => x) exp real_ceil sigma (-1) = Undef.
Proof.
  assert (C : chosen 2 (-1) 2 11).
  { left. split; [lra|]. split; [reflexivity|]. right. split; [lia|].
    replace (Zceil ((5 * 2 - 1) / 2)) with 5; [lia|]. symmetry. apply Zceil_imp. rewrite minus_IZR. lra. }
  assert (G := gaussian1D_ok _ _ _ _ C ltac:(lia)).
  exists 2%R, (mkKernel 11 (11 / 2) (table 11 (gauss_coef 2 11))). split; [exact G|]. split; [reflexivity|].
  exact (gaussian2D_auto _ _ _ _ _ _ _ G).
Qed.
Print Assumptions C68_refuted.

(** ** C49: sigma and radius *)
Theorem C49_round_trip : forall r order, 0 < r <= 2147483647 -> -6 <= order ->
  exists s, sigmaForRadius reals (IZR r) order = Ok s /\ (0 < s)%R /\ radiusForSigma reals real_ceil s order = Ok r.
Proof. exact round_trip_int. Qed.
Print Assumptions C49_round_trip.
(** A radius that is not an integer is rounded up. *)
Theorem C49_round_up : forall radius order, (0 < radius <= 2147483647)%R -> -6 <= order ->
  exists s, sigmaForRadius reals radius order = Ok s /\ (0 < s)%R /\
    radiusForSigma reals real_ceil s order = Ok (Zceil radius).
Proof. exact round_trip. Qed.
Print Assumptions C49_round_up.
(** A sigma that needs a radius above the range of [int] is not rejected. *)
Theorem C49_overflow : forall sigma order, (0 < sigma)%R -> 2147483647 < Zceil (((5 + 4 / 5 * IZR order) * sigma - 1) / 2) ->
  radiusForSigma reals real_ceil sigma order = Undef.
Proof. exact radius_overflow. Qed.
Print Assumptions C49_overflow.
Example C49_overflow_case : (0 < 1000000000)%R /\ 2147483647 < Zceil (((5 + 4 / 5 * IZR 0) * 1000000000 - 1) / 2).
Proof. split; [lra|]. apply lt_IZR. eapply Rlt_le_trans; [|apply Zceil_ub]. lra. Qed.
Example C49_case : 0 < 6 <= 2147483647 /\ -6 <= 1 /\ (0 < 5 / 2 <= 2147483647)%R.
Proof. split; [lia|]. split; [lia|lra]. Qed.

(** The offset is inside the kernel; a kernel without elements is rejected. *)
Theorem C49_offset : forall {S} (zero : S) w, 0 < w ->
  exists K, kernel1_width zero w = Ok K /\ k_width K = w /\ 0 <= k_offset K < w /\ zlen (k_data K) = w.
Proof.
  intros S zero w H. exists (mkKernel w (w / 2) (repeat zero (Z.to_nat w))). split; [exact (kernel1_width_ok zero w H)|].
  split; [reflexivity|]. split; [exact (half_lt w H)|]. unfold zlen. cbn [k_data]. rewrite repeat_length. lia.
Qed.
Print Assumptions C49_offset.
Theorem C49_offset_square : forall {S} (zero : S) w, 0 < w < 65536 ->
  exists K, kernel2_width zero w = Ok K /\ k_width K = w /\ 0 <= k_offset K < w /\ zlen (k_data K) = w * w.
Proof.
  intros S zero w H. eexists. split; [exact (kernel2_width_ok zero w H)|]. split; [reflexivity|].
  split; [exact (half_lt w ltac:(lia))|]. apply (table_zlen (w * w)). nia.
Qed.
Print Assumptions C49_offset_square.
Theorem C49_empty : forall {S} (zero one : S), kernel1_width zero 0 = Throw /\ kernel2_width zero 0 = Throw /\ table1D zero one 0 = Throw.
Proof. intros S zero one. split; [reflexivity|split; reflexivity]. Qed.
Print Assumptions C49_empty.
Example C49_offset_case : kernel1_width 0 6 = Ok (mkKernel 6 3 [0; 0; 0; 0; 0; 0]) /\
  kernel2_width 0 3 = Ok (mkKernel 3 1 [0; 0; 0; 0; 0; 0; 0; 0; 0]).
Proof. split; reflexivity. Qed.

(** ** C74: the round trip in doubles *)
Theorem C74_refuted : exists r order s, 0 < r /\ 0 <= order /\ sigmaForRadius double (float_of_Z F64 r) order = Ok s /\
  radiusForSigma double float_ceil s order <> Ok r.
Proof.
  exists 6, 1. eexists. split; [lia|]. split; [lia|]. split; [vm_compute; reflexivity|]. vm_compute. discriminate.
Qed.
Print Assumptions C74_refuted.

(** In doubles an infinite sigma is not rejected. *)
Theorem C74_infinite_refuted : exists s, s = S754_infinity false /\ radiusForSigma double float_ceil s 0 = Undef /\
  radiusForSigma double float_ceil S754_nan 0 = Undef.
Proof. eexists. split; [reflexivity|]. split; reflexivity. Qed.
Print Assumptions C74_infinite_refuted.

(** ** C72: offset of a square kernel given as lists *)
(** The one-dimensional constructor rejects an offset outside the kernel, the square one does not. *)
Theorem C72_line : forall (off : Z) (l : list Z), zlen l < 4294967296 -> zlen l <= off -> kernel1_of_list off l = Throw.
Proof.
  intros off l H1 H2. unfold kernel1_of_list, u32. rewrite Z.mod_small by (unfold zlen in *; lia).
  now apply Z.leb_le in H2 as ->.
Qed.
Print Assumptions C72_line.
Example C72_line_case : kernel1_of_list 3 [1; 2; 1] = Throw /\ kernel1_of_list 1 [1; 2; 1] = Ok (mkKernel 3 1 [1; 2; 1]).
Proof. split; reflexivity. Qed.
Theorem C72_refuted : exists (off : Z) (l : list (list Z)) K, kernel2_of_lists off l = Ok K /\ k_width K <= k_offset K.
Proof. exists 7, [[1; 1]; [1; 1]]. exists (mkKernel 2 7 [1; 1; 1; 1]). split; [reflexivity|cbn; lia]. Qed.
Print Assumptions C72_refuted.

(** ** C73: integer Gaussian kernels *)
(** [gauss_int s w i] is the coefficient counted in units of the smallest one or of a hundredth of the largest. *)
Theorem C73_kernel : forall t sigma width s w, chosen sigma width s w -> w <= 2147483647 -> 100 <= ity_max t ->
  gaussian1D_int reals exp real_ceil t sigma width = Ok (mkKernel w (w / 2) (table w (gauss_int s w))).
Proof. exact gauss_int_ok. Qed.
Print Assumptions C73_kernel.

Theorem C73_shape : forall s w, (0 < s)%R -> 0 < w ->
  (forall i, 0 <= i < w -> 0 <= gauss_int s w i <= 100) /\ 1 <= gauss_int s w (w / 2) /\
  (forall i, gauss_int s w (w - 1 - i) = gauss_int s w i) /\
  (forall i j, Z.abs (2 * i - (w - 1)) <= Z.abs (2 * j - (w - 1)) -> gauss_int s w j <= gauss_int s w i) /\
  (forall i, (IZR (gauss_int s w i) * gauss_unit s w <= gauss_coef s w i < (IZR (gauss_int s w i) + 1) * gauss_unit s w)%R).
Proof.
  intros s w Hs Hw. split; [exact (fun i => gauss_int_range s w i Hs)|]. split; [exact (proj1 (gauss_int_centre s w Hs Hw))|].
  split; [exact (gauss_int_sym s w)|]. split; [exact (fun i j => gauss_int_le s w i j Hs Hw)|].
  exact (fun i => gauss_int_near s w i Hw).
Qed.
Print Assumptions C73_shape.

Theorem C73_square : forall t sigma width s, chosen sigma width s width -> 0 < width < 65536 -> 100 <= ity_max t ->
  gaussian2D_int reals exp real_ceil t sigma width = Ok (mkKernel width (width / 2) (square_int s width)).
Proof. exact gaussian2D_int_ok. Qed.
Print Assumptions C73_square.

(** ** C69: Gaussian blur *)
(** With [lo = hi]: constant images are unchanged.  [two_pass] is the rounded mean of the rounded means of the rows, weighted
    by the integer kernel. *)
Theorem C69_range : forall t sigma width s w (g out work : gray Z) lo hi,
  t = U8 \/ t = U16 -> chosen sigma width s w -> 100 * w * (ity_max t + 1) <= 2147483647 ->
  wf g -> wf out -> wf work -> 0 < g_width g <= 1073741824 -> 0 < g_height g <= 1073741824 ->
  0 <= lo -> hi <= ity_max t -> (forall x y v, pixel g x y = Some v -> lo <= v <= hi) ->
  g_sub out = false \/ (g_width out = g_width g /\ g_height out = g_height g) ->
  g_sub work = false \/ (g_width work = g_width g /\ g_height work = g_height g) ->
  exists o out' w' work', gray_reshape 0 out (g_width g) (g_height g) = Ok o /\ gray_reshape 0 work (g_width g) (g_height g) = Ok w' /\
    gaussian_blur reals exp real_ceil t sigma width g out work = Ok (out', work') /\
    holds g o out' (fun x y => Some (two_pass (table w (gauss_int s w)) (w / 2) g x y)) /\ same_layout w' work' /\
    (forall j, outside_window w' j -> znth (g_data work') j = znth (g_data w') j) /\
    forall x y v, pixel out' x y = Some v -> lo <= v <= hi.
Proof. exact gaussian_blur_range. Qed.
Print Assumptions C69_range.

Example C69_case : chosen 2 6 2 6 /\ 100 * 6 * (ity_max U16 + 1) <= 2147483647 /\ wf (gray_new 7 20 10) /\
  (forall x y v, pixel (gray_new 7 20 10) x y = Some v -> 7 <= v <= 7).
Proof.
  split; [left; split; [lra|]; split; [reflexivity|]; left; lia|]. split; [cbn; lia|]. split; [apply wf_new; lia|].
  intros x y v H. pose proof (pixel_Some _ _ _ _ H) as I. rewrite pixel_inside in H by auto. unfold znth in H.
  destruct (_ <? 0); [discriminate|]. apply nth_error_In, repeat_spec in H. lia.
Qed.

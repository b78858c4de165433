(** Gaussian blur of integer images; kernels that are not made. *)
From Coq Require Import Reals Lra.
From Flocq Require Import Core.
From Verif Require Import Base BaseFacts M_Image S_Image L_Image M_Convolve S_Convolve M_Normalized S_Normalized L_Normalized
  M_Otsu M_Config M_Kernel S_Stats S_Kernel L_Kernel L_Gauss L_GaussInt L_NormalizedInt.
Open Scope Z_scope.

Lemma covered_nonneg px : forall ks i, (forall c, In c ks -> 0 <= c) -> 0 <= snd (zcovered ks px i).
Proof.
  induction ks as [|c r IH]; intros i H; cbn [zcovered]; [cbn; lia|].
  specialize (IH (i + 1) (fun c I => H c (or_intror I))). destruct (zcovered r px (i + 1)) as (t, w). cbn in IH.
  specialize (H c (or_introl eq_refl)). destruct (px i); cbn; lia.
Qed.
Lemma covered_pos px : forall ks i k c, (forall c, In c ks -> 0 <= c) -> znth ks k = Some c -> px (i + k) <> None ->
  c <= snd (zcovered ks px i).
Proof.
  induction ks as [|c0 r IH]; intros i k c H E P.
  { apply znth_Some_range in E. change (zlen (@nil Z)) with 0 in E. lia. }
  cbn [zcovered]. pose proof (covered_nonneg px r (i + 1) (fun c I => H c (or_intror I))) as N.
  pose proof (H c0 (or_introl eq_refl)) as N0.
  destruct (Z.eq_dec k 0) as [->|Nk].
  - rewrite Z.add_0_r in P. injection E as <-. destruct (zcovered r px (i + 1)) as (t, w). cbn in N.
    destruct (px i); [cbn; lia|congruence].
  - assert (X : c <= snd (zcovered r px (i + 1))).
    { apply (IH (i + 1) (k - 1) c); auto.
      - intros; apply H; now right.
      - pose proof (znth_Some_range _ _ _ E). unfold znth in *.
        destruct (Z.ltb_spec k 0); [lia|]. destruct (Z.ltb_spec (k - 1) 0); [lia|].
        replace (Z.to_nat k) with (Datatypes.S (Z.to_nat (k - 1))) in E by lia. exact E.
      - replace (i + 1 + (k - 1)) with (i + k) by lia. auto. }
    destruct (zcovered r px (i + 1)) as (t, w). cbn in X, N. destruct (px i); cbn; lia.
Qed.

Lemma abs_sum_le B : forall ks, (forall c, In c ks -> 0 <= c <= B) -> zabs_sum ks <= B * zlen ks.
Proof.
  induction ks as [|c r IH]; intros H; [unfold zlen; cbn [zabs_sum length]; lia|]. cbn [zabs_sum].
  pose proof (H c (or_introl eq_refl)). specialize (IH (fun c I => H c (or_intror I))).
  unfold zlen in *. cbn [length]. rewrite Nat2Z.inj_succ. nia.
Qed.

Lemma gaussian_blur_range t sigma width s w (g out work : gray Z) lo hi :
  t = U8 \/ t = U16 -> chosen sigma width s w -> 100 * w * (ity_max t + 1) <= 2147483647 ->
  wf g -> wf out -> wf work -> 0 < g_width g <= 1073741824 -> 0 < g_height g <= 1073741824 ->
  0 <= lo -> hi <= ity_max t -> (forall x y v, pixel g x y = Some v -> lo <= v <= hi) ->
  g_sub out = false \/ (g_width out = g_width g /\ g_height out = g_height g) ->
  g_sub work = false \/ (g_width work = g_width g /\ g_height work = g_height g) ->
  exists o out' w' work', gray_reshape 0 out (g_width g) (g_height g) = Ok o /\ gray_reshape 0 work (g_width g) (g_height g) = Ok w' /\
    gaussian_blur reals exp real_ceil t sigma width g out work = Ok (out', work') /\
    holds g o out' (fun x y => Some (two_pass (table w (gauss_int s w)) (w / 2) g x y)) /\ same_layout w' work' /\
    (forall j, outside_window w' j -> znth (g_data work') j = znth (g_data w') j) /\
    forall x y v, pixel out' x y = Some v -> lo <= v <= hi.
Proof.
  intros Ht C Hw Wg Wo Ww Rx Ry Hlo Hhi Hpx So Sw. pose proof (chosen_pos _ _ _ _ C) as (Ps & Pw).
  assert (Mt : 255 <= ity_max t <= 65535) by (destruct Ht; subst; cbn; lia).
  assert (Wlim : w <= 1073741824) by (destruct Ht; subst; cbn in Hw; lia).
  set (K := mkKernel w (w / 2) (table w (gauss_int s w))).
  assert (EK : gaussian1D_int reals exp real_ceil (signed_type t) sigma width = Ok K).
  { apply gauss_int_ok; auto; [lia|]. destruct Ht; subst; cbn; lia. }
  pose proof (half_lt w Pw) as Hh.
  assert (Hc : forall c, In c (k_data K) -> 0 <= c <= 100).
  { intros c I. apply table_In in I as (i & Hi & <-). now apply gauss_int_range. }
  assert (Hcov : forall px, px (w / 2) <> None -> snd (zcovered (k_data K) px 0) <> 0).
  { intros px P. pose proof (gauss_int_centre s w Ps Pw).
    assert (gauss_int s w (w / 2) <= snd (zcovered (k_data K) px 0)); [|lia].
    apply (covered_pos px (k_data K) 0 (w / 2)).
    - intros c I. specialize (Hc c I). lia.
    - apply table_znth. auto.
    - exact P. }
  destruct (normalized_2_full t K g out) with (work := work) (lo := lo) (hi := hi) as (o & o' & w1 & w' & Eo & Ew & E & H); auto.
  - split; [exact Hh|]. split; [exact Wlim|]. apply (table_zlen w). lia.
  - intros c I. specialize (Hc c I). lia.
  - pose proof (abs_sum_le 100 (k_data K) Hc) as X. replace (zlen (k_data K)) with w in X by (symmetry; apply table_zlen; lia).
    nia.
  - intros x y v P. specialize (Hpx x y v P). lia.
  - intros _ c I. specialize (Hc c I). lia.
  - intros x y I. apply Hcov. cbn [k_offset K].
    replace (x - w / 2 + w / 2) with x by lia. destruct (pixel_exists g x y Wg I) as (v & ->). discriminate.
  - intros x y I. apply Hcov. cbn [k_offset K].
    replace (y - w / 2 + w / 2) with y by lia. destruct (pixel_exists g x y Wg I) as (v & ->). discriminate.
  - exists o, o', w1, w'. split; auto. split; auto. split; [|exact H]. unfold normalized_2 in E. unfold gaussian_blur. rewrite EK. exact E.
Qed.

(** ** Kernels that are not made *)
Lemma normalize_short {D} (O : dops D) w off z : 1 < w -> normalize O (mkKernel w off [z]) = Undef.
Proof.
  intros H. unfold normalize. rewrite k_sum_fold. cbn [bind k_width].
  rewrite for_range_step by lia.
  set (q := fold_left _ _ _). change (k_raw (mkKernel w off [z]) 0) with (Ok z). cbn [bind].
  change (k_put (mkKernel w off [z]) 0 (d_div O z q)) with (Ok (mkKernel w off [d_div O z q])). cbn [bind].
  rewrite for_range_step by lia. reflexivity.
Qed.
Lemma gaussian2D_auto {D E} (O : dops D) (OE : dops E) narrow ex ce sigma seed :
  gaussian1D O OE narrow ex ce sigma (-1) = Ok seed -> gaussian2D O OE narrow ex ce sigma (-1) = Undef.
Proof.
  intros H. unfold gaussian2D. rewrite H. cbn [bind].
  change (kernel2_new (d_of OE 0) (u32 (-1)) (u32 (Z.quot (-1) 2))) with (Ok (mkKernel 4294967295 0 [d_of OE 0])).
  cbn [bind]. rewrite for_range_nil by lia. cbn [bind]. apply normalize_short. lia.
Qed.
Lemma gaussian2D_auto_throw {D E} (O : dops D) (OE : dops E) narrow ex ce sigma width seed :
  -2147483648 <= width <= 0 -> width <> -1 ->
  gaussian1D O OE narrow ex ce sigma width = Ok seed -> gaussian2D O OE narrow ex ce sigma width = Throw.
Proof.
  intros Hw N H. unfold gaussian2D. rewrite H. cbn [bind]. unfold kernel2_new.
  destruct (Z.eq_dec width 0) as [->|N0]; [reflexivity|].
  assert (Q : Z.quot width 2 = - ((- width) / 2)).
  { rewrite <- (Z.opp_involutive width) at 1. rewrite Z.quot_opp_l by lia. rewrite Z.quot_div_nonneg by lia. reflexivity. }
  assert (U : forall z, -4294967296 <= z < 0 -> u32 z = z + 4294967296).
  { intros z Hz. unfold u32. 
    rewrite <- (Z.mod_add z 1 4294967296) by lia. rewrite Z.mod_small; lia. }
  assert (B : 1 <= (- width) / 2 <= - width) by (split; [apply Z.div_le_lower_bound; lia|apply Z.div_le_upper_bound; lia]).
  rewrite Q, !U by lia. destruct (Z.leb_spec (width + 4294967296) (- (- width / 2) + 4294967296)); [reflexivity|lia].
Qed.

(** ** Other factory kernels *)
Lemma table1D_ok {S} (z o : S) w : 0 < w -> table1D z o w = Ok (mkKernel w (w / 2) (table w (fun _ => o))).
Proof.
  intros H. unfold table1D. rewrite kernel1_width_ok by auto. cbn [bind]. rewrite table_repeat.
  apply (fill_all _ (fun _ => o)); [apply table_zlen; lia|]. intros i e Hi Le _. apply put_in. lia.
Qed.
Lemma rsum_ones w : 0 <= w -> rsum (table w (fun _ => 1%R)) = IZR w.
Proof.
  intros H. pattern w. apply natlike_ind; [reflexivity| |exact H].
  intros k Hk IH. unfold Z.succ. rewrite table_succ by auto. rewrite rsum_app, IH, rsum_cons, rsum_nil, plus_IZR. lra.
Qed.
Lemma mean1D_ok w : 0 < w -> mean1D reals w = Ok (mkKernel w (w / 2) (table w (fun _ => / IZR w)%R)).
Proof.
  intros H. unfold mean1D. rewrite table1D_ok by auto. cbn [bind]. rewrite normalize_real by (apply table_zlen; lia).
  rewrite table_map. change (d_of reals 1) with 1%R. rewrite rsum_ones by lia. do 2 f_equal. apply table_ext.
  intros. unfold Rdiv. lra.
Qed.
Lemma mean1D_sum w : 0 < w -> rsum (table w (fun _ => / IZR w)%R) = 1%R.
Proof.
  intros H.
  transitivity (rsum (map (fun v => (v / IZR w)%R) (table w (fun _ => 1%R)))).
  - rewrite table_map. f_equal. apply table_ext. intros. unfold Rdiv. lra.
  - rewrite rsum_div, rsum_ones by lia. apply IZR_lt in H. field. lra.
Qed.
Lemma kernel2_width_ok {S} (z : S) w : 0 < w < 65536 ->
  kernel2_width z w = Ok (mkKernel w (w / 2) (table (w * w) (fun _ => z))).
Proof.
  intros H. unfold kernel2_width, kernel2_new. pose proof (half_lt w ltac:(lia)).
  destruct (Z.leb_spec w (w / 2)); [lia|]. rewrite square_u32 by auto. now rewrite table_repeat.
Qed.

(** A square of ones: only its first row is divided by the sum. *)
Lemma square_ones : normalize reals (mkKernel 2 1 [1%R; 1%R; 1%R; 1%R]) = Ok (mkKernel 2 1 [(1 / 4)%R; (1 / 4)%R; 1%R; 1%R]).
Proof.
  unfold normalize. rewrite k_sum_fold. cbn [bind k_data k_width].
  replace (fold_left (d_add reals) [1%R; 1%R; 1%R; 1%R] (d_of reals 0)) with 4%R by (cbn; lra).
  reflexivity.
Qed.

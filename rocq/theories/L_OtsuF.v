(** Facts about Otsu's method on images of floats. *)
From Coq Require Import QArith Reals Qreals Bool Lia Lra Psatz.
From Coq Require Import Floats.SpecFloat.
From Flocq Require Import Core BinarySingleNaN.
From Verif Require Import BaseFacts M_Image M_Convolve S_Image L_Image M_GrowArray L_GrowArray S_Blur L_Blur M_Stats S_Stats L_Stats L_Block S_Convolve M_Float
  M_Binary S_Binary L_Binary M_Otsu S_Otsu L_Otsu L_OtsuImage S_Ieee L_Ieee L_FStats S_FOtsu L_Between L_FOtsu M_Native S_Native M_NativeF S_NativeF L_NativeF L_NativeFNum
  M_OtsuF S_OtsuF.
From Verif Require L_FKernel.
Open Scope Z_scope.

(** ** The image of whole parts *)
Definition whole_part (v : spec_float) : Z := Zfloor (val v).
Definition floors (g : gray spec_float) : gray Z :=
  mkGray (g_width g) (g_height g) (g_offset g) (g_stride g) (g_sub g) (map whole_part (g_data g)).

Lemma floors_wf g : wf g -> wf (floors g).
Proof. unfold wf, floors. cbn. rewrite zlen_map. auto. Qed.
Lemma floors_pixel g x y : pixel (floors g) x y = option_map whole_part (pixel g x y).
Proof. unfold pixel, floors, pos. cbn. destruct (_ && _); auto. apply znth_map. Qed.
Lemma floors_all g : all_pixels (floors g) = map whole_part (all_pixels g).
Proof.
  unfold all_pixels. cbn [floors g_width g_height]. induction (zrange (g_height g)) as [|y l IH]; [reflexivity|].
  cbn [flat_map]. rewrite map_app, <- IH. f_equal. clear IH. induction (zrange (g_width g)) as [|x k IH]; [reflexivity|].
  cbn [flat_map]. rewrite map_app, <- IH. f_equal. rewrite floors_pixel. destruct (pixel g x y); reflexivity.
Qed.

Lemma u32_fits x : is_finite_SF x = true -> (0 <= val x < 4294967296)%R -> f_to_u32 x = Ok (Zfloor (val x)).
Proof.
  intros F R. unfold f_to_u32, d_to. cbn [d_int double]. rewrite float_int_any by (auto; lra).
  assert (0 <= Zfloor (val x)) by (apply Zfloor_lub; cbn; lra).
  assert (Zfloor (val x) < 4294967296). { apply lt_IZR. pose proof (Zfloor_lb (val x)). lra. }
  replace ((ity_min U32 <=? Zfloor (val x)) && (Zfloor (val x) <=? ity_max U32)) with true; auto. symmetry. apply andb_true_iff. cbn [ity_min ity_max]. lia.
Qed.

Section Ty.
Variable f : fty.
Hypothesis St : standard f.
Let W : wfty f := standard_wfty f St.

Lemma small_prec z : Z.abs z <= 16777216 -> Z.abs z <= 2 ^ f_prec f.
Proof. intros H. destruct St as [->| ->]; cbn; lia. Qed.

(** Subtracting 0. *)
Lemma minus_zero v mn : finite f v -> finite f mn -> val mn = 0%R -> finite f (fsub f v mn) /\ val (fsub f v mn) = val v.
Proof.
  intros Fv Fm E. assert (R : rnd f (val v - val mn) = val v).
  { rewrite E, Rminus_0_r. apply rnd_id; auto. now apply finite_fmt. }
  destruct (fsub_fin f W v mn Fv Fm) as [F V]; rewrite R in *; auto. now apply finite_lt.
Qed.

(** The number of bins. *)
Lemma bins_number mn mx : finite f mn -> val mn = 0%R -> finite f mx -> (0 <= val mx < 16777215)%R ->
  exists n, f_to_u32 (fsub f (fadd f (float_of_Z f 1) mx) mn) = Ok n /\
    (n = Zfloor (val mx) + 1 \/ n = Zfloor (val mx) + 2) /\ (IZR (Zfloor (val mx)) = val mx -> n = Zfloor (val mx) + 1).
Proof.
  intros Fm Em Fx Rx. set (k := Zfloor (val mx)). pose proof (Zfloor_lb (val mx)) as L1. pose proof (Zfloor_ub (val mx)) as L2. fold k in L1, L2.
  assert (0 <= k) by (apply Zfloor_lub; cbn; lra).
  assert (k < 16777215) by (apply lt_IZR; lra).
  destruct (float_of_Z_exact f W 1) as [F1 V1]; [apply small_prec; lia|].
  destruct (int_exact f W (k + 1)) as [E1 _]; [apply small_prec; lia|].
  destruct (int_exact f W (k + 2)) as [E2 H2]; [apply small_prec; lia|].
  assert (A : (IZR (k + 1) <= rnd f (1 + val mx))%R). { rewrite <- E1. apply rnd_le; auto. rewrite plus_IZR. lra. }
  assert (B : (rnd f (1 + val mx) <= IZR (k + 2))%R). { rewrite <- E2. apply rnd_le; auto. rewrite plus_IZR. lra. }
  assert (P : (0 <= IZR (k + 1))%R) by (apply IZR_le; lia).
  destruct (fadd_fin f W (float_of_Z f 1) mx F1 Fx) as [Fs Vs].
  { rewrite V1, Rabs_pos_eq by lra. rewrite E2, Rabs_pos_eq in H2 by (apply IZR_le; lia). lra. }
  rewrite V1 in Vs. destruct (minus_zero _ mn Fs Fm Em) as [Fr Vr]. rewrite Vs in Vr.
  assert (IZR (k + 2) <= 16777216)%R by (apply IZR_le; lia).
  rewrite u32_fits by (try apply Fr; rewrite Vr; lra). rewrite Vr. eexists. split; [reflexivity|]. split.
  - assert (k + 1 <= Zfloor (rnd f (1 + val mx))) by now apply Zfloor_lub.
    assert (Zfloor (rnd f (1 + val mx)) <= k + 2). { apply le_IZR. pose proof (Zfloor_lb (rnd f (1 + val mx))). lra. }
    lia.
  - intros E. rewrite <- E. replace (1 + IZR k)%R with (IZR (k + 1)) by (rewrite plus_IZR; lra). rewrite E1. apply Zfloor_IZR.
Qed.

(** The histogram is that of the whole parts. *)
Lemma histogram_floors g mn n : wf g -> finite f mn -> val mn = 0%R -> within f g 4294967295 ->
  f_histogram f g mn (ga_new (int_mem U32) n) = image_histogram U32 (floors g) 0 (ga_new (int_mem U32) n).
Proof.
  intros Hg Fm Em Hp. unfold f_histogram, image_histogram. destruct (ga_fill _ _ _) as [h| | |]; auto. cbn [bind].
  rewrite !scan_window_ok by (auto; now apply floors_wf). rewrite floors_all, mfold_map. apply mfold_ext.
  intros v s I. apply all_pixels_In in I as (x & y & E); auto. destruct (Hp x y v E) as [Fv Rv].
  destruct (minus_zero v mn Fv Fm Em) as [Fr Vr]. rewrite u32_fits by (try apply Fr; rewrite Vr; lra). rewrite Vr. cbn [bind].
  fold (whole_part v). rewrite Z.sub_0_r.
  assert (0 <= whole_part v) by (apply Zfloor_lub; cbn; lra).
  assert (whole_part v <= 4294967295). { apply le_IZR. pose proof (Zfloor_lb (val v)). unfold whole_part. lra. }
  rewrite arith_result_in by (cbn; lia). cbn [bind]. now rewrite u32_id by lia.
Qed.

Lemma unit_counts_eq g n : unit_counts g n = value_counts (floors g) 0 (n - 1).
Proof. unfold unit_counts, value_counts. rewrite floors_all. now replace (n - 1 - 0 + 1) with n by lia. Qed.

Lemma f_otsu_index g mn mx : wf g -> finite f mn -> val mn = 0%R -> finite f mx -> (0 <= val mx < 16777215)%R -> within f g (val mx) ->
  exists n th, f_image_otsu f g mn mx false = Ok th /\ near_best (unit_counts g n) th /\ 0 <= th < n /\
    (n = Zfloor (val mx) + 1 \/ n = Zfloor (val mx) + 2) /\ (IZR (Zfloor (val mx)) = val mx -> n = Zfloor (val mx) + 1).
Proof.
  intros Hg Fm Em Fx Rx Hp. destruct (bins_number mn mx Fm Em Fx Rx) as (n & En & Dn & Wn). exists n.
  assert (0 <= Zfloor (val mx)) by (apply Zfloor_lub; cbn; lra).
  assert (Zfloor (val mx) < 16777215) by (apply lt_IZR; pose proof (Zfloor_lb (val mx)); lra).
  destruct (image_otsu_double U32 (floors g) 0 (n - 1)) as (th & E & B); try (cbn; lia).
  - now apply floors_wf.
  - intros x y v. rewrite floors_pixel. destruct (pixel g x y) as [p|] eqn:Ep; [|discriminate]. intros [= <-].
    destruct (Hp x y p Ep) as [Fp Rp]. unfold whole_part. split; [apply Zfloor_lub; cbn; lra|].
    assert (Zfloor (val p) <= Zfloor (val mx)) by (apply Zfloor_le; lra). lia.
  - exists th. rewrite unit_counts_eq. assert (T : 0 <= th < n).
    { destruct B as (T & _). rewrite value_counts_len in T by lia. lia. }
    split; [|auto]. unfold f_image_otsu. rewrite En. cbn [bind]. unfold image_otsu in E.
    rewrite arith_result_in in E by (cbn; lia). cbn [bind] in E. rewrite arith_result_in in E by (cbn; lia). cbn [bind] in E.
    replace (1 + (n - 1) - 0) with n in E by lia. rewrite u32_id in E by lia.
    rewrite histogram_floors; auto. intros x y v Ev. destruct (Hp x y v Ev). split; auto. lra.
Qed.

Lemma f_otsu_filter g mn mx down out o : wf g -> finite f mn -> val mn = 0%R -> finite f mx -> (0 <= val mx < 16777215)%R -> within f g (val mx) ->
  wf out -> gray_reshape 0 out (g_width g) (g_height g) = Ok o ->
  exists n th out' F, f_global_otsu f g mn mx down out = Ok out' /\ near_best (unit_counts g n) th /\ 0 <= th < n /\
    (n = Zfloor (val mx) + 1 \/ n = Zfloor (val mx) + 2) /\ (IZR (Zfloor (val mx)) = val mx -> n = Zfloor (val mx) + 1) /\
    holds g o out' F /\
    forall x y v, pixel g x y = Some v -> exists b, F x y = Some b /\ (b = 0 \/ b = 1) /\
      (b = 1 <-> if down then (val v <= IZR th)%R else (IZR th < val v)%R).
Proof.
  intros Hg Fm Em Fx Rx Hp Ho Eo. destruct (f_otsu_index g mn mx Hg Fm Em Fx Rx Hp) as (n & th & E & B & T & D1 & D2).
  assert (Zfloor (val mx) < 16777215) by (apply lt_IZR; pose proof (Zfloor_lb (val mx)); lra).
  destruct (threshold_ok SFleb (fun a b => SFltb b a) g (float_of_Z f th) down out o Hg Ho Eo) as (out' & E' & R).
  eexists n, th, out', _. split; [unfold f_global_otsu; rewrite E; exact E'|]. split; [exact B|]. split; [exact T|]. split; [exact D1|].
  split; [exact D2|]. split; [exact R|]. intros x y v Ev. cbv beta. rewrite Ev. eexists. split; [reflexivity|].
  split; [destruct (if down then _ else _); auto|]. destruct (Hp x y v Ev) as [Fv Rv].
  destruct (float_of_Z_exact f W th) as [Ft Vt]; [apply small_prec; lia|]. destruct down.
  - rewrite (L_FKernel.leb_val f) by auto. rewrite Vt. destruct (Rle_bool_spec (val v) (IZR th)); split; auto; try discriminate; lra.
  - rewrite (L_FStats.ltb_val f) by auto. rewrite Vt. destruct (Rlt_bool_spec (IZR th) (val v)); split; auto; try discriminate; lra.
Qed.

(** Whole numbers end on the side of their bin. *)
Lemma whole_side v th (down : bool) : (exists z, val v = IZR z) ->
  ((if down then (val v <= IZR th)%R else (IZR th < val v)%R) <-> if down then Zfloor (val v) <= th else th < Zfloor (val v)).
Proof.
  intros (z & ->). rewrite Zfloor_IZR. destruct down; split; intros H; try (apply IZR_le; lia); try (apply IZR_lt; lia);
    [apply le_IZR|apply lt_IZR]; lra.
Qed.
Lemma f_otsu_whole g mn mx down out o : wf g -> finite f mn -> val mn = 0%R -> finite f mx -> (0 <= val mx < 16777215)%R -> within f g (val mx) -> whole g ->
  wf out -> gray_reshape 0 out (g_width g) (g_height g) = Ok o ->
  exists n th out' F, f_global_otsu f g mn mx down out = Ok out' /\ near_best (unit_counts g n) th /\ 0 <= th < n /\
    (n = Zfloor (val mx) + 1 \/ n = Zfloor (val mx) + 2) /\ holds g o out' F /\
    forall x y v, pixel g x y = Some v -> exists b, F x y = Some b /\ (b = 0 \/ b = 1) /\
      (b = 1 <-> if down then Zfloor (val v) <= th else th < Zfloor (val v)).
Proof.
  intros Hg Fm Em Fx Rx Hp Hw Ho Eo. destruct (f_otsu_filter g mn mx down out o) as (n & th & out' & F & H1 & H2 & H3 & H4 & H5 & H6 & H7); auto.
  exists n, th, out', F. do 5 (split; [assumption|]). intros x y v Ev. destruct (H7 x y v Ev) as (b & B1 & B2 & B3). exists b.
  split; auto. split; auto. rewrite B3. apply whole_side. eauto.
Qed.
End Ty.

(** ** From Java *)
Lemma f_otsu_java mn mx down V inp out : fbargs V inp out ->
  finite F32 (to_single mn) -> val (to_single mn) = 0%R -> finite F32 (to_single mx) -> (0 <= val (to_single mx) < 16777215)%R ->
  (forall x y v, fpixel V inp x y = Some v -> finite F32 v /\ (0 <= val v <= val (to_single mx))%R) ->
  let s := f_otsu_new mn mx down in
  forall after, exists n th g V' out' F, f_java_filter f_otsu_process after s V inp out = Ok (s, V', out') /\ fbeffect V inp out V' out' F /\
    fshows V inp g /\ near_best (unit_counts g n) th /\ 0 <= th < n /\
    (n = Zfloor (val (to_single mx)) + 1 \/ n = Zfloor (val (to_single mx)) + 2) /\
    forall x y v, fpixel V inp x y = Some v -> exists b, F x y = Some b /\ (b = 0 \/ b = 1) /\
      (b = 1 <-> if down then (val v <= IZR th)%R else (IZR th < val v)%R).
Proof.
  intros A Fm Em Fx Rx Hp s after.
  destruct (f_filter_some f_otsu_process after s (fun g s' F => s' = s /\ exists n th,
    near_best (unit_counts g n) th /\ 0 <= th < n /\ (n = Zfloor (val (to_single mx)) + 1 \/ n = Zfloor (val (to_single mx)) + 2) /\
    forall x y v, pixel g x y = Some v -> exists b, F x y = Some b /\ (b = 0 \/ b = 1) /\
      (b = 1 <-> if down then (val v <= IZR th)%R else (IZR th < val v)%R)) V inp out A) as (s' & V' & out' & g & F & E & Sg & (-> & n & th & H1 & H2 & H3 & H4) & Ee).
  - intros g o Sg Lg Wo Sb Ew Eh. assert (Sg' := Sg). destruct Sg' as (Wg & G1 & G2 & G3).
    destruct (f_otsu_filter F32 St32 g (to_single mn) (to_single mx) down o o) as (n & th & o' & F & H1 & H2 & H3 & H4 & H5 & H6 & H7); auto.
    { intros x y v Ev. apply (Hp x y v). now rewrite <- G3. }
    { now apply sized. }
    exists s, o', F. split. { unfold f_otsu_process, s, f_otsu_new. now rewrite H1. }
    split; [|split; [exact H6|]].
    + split; auto. exists n, th. auto.
    + intros x y v I Ev. destruct (pixel_exists g x y) as (p & Ep); auto. destruct (H7 x y p Ep) as (b & B1 & B2 & _). rewrite B1 in Ev. injection Ev as <-. lia.
  - exists n, th, g, V', out', F. do 6 (split; [assumption|]). intros x y v Ev. apply H4. destruct Sg as (_ & _ & _ & G3). now rewrite G3.
Qed.

(** Lemmas about thresholds of related images. *)
From Coq Require Import QArith Reals Lra Permutation Floats.SpecFloat.
From Verif Require Import Base BaseFacts M_Image S_Image L_Image M_Convolve S_Convolve M_Normalized M_Blur S_Blur L_Blur L_BlurTop
  M_GrowArray M_Stats S_Stats L_Stats M_Binary L_Binary M_Float S_Ieee L_Ieee M_Otsu S_Otsu L_Otsu L_OtsuImage M_Block M_Config M_Local S_Local L_Local
  L_FLocal S_Symmetry L_Symmetry S_Brightness.
Open Scope Z_scope.

(** ** Local means *)
Lemma standard32 : wfty F32.
Proof. apply standard_wfty. now left. Qed.
Lemma single_one v m : 0 <= v <= 65535 -> 0 <= m <= 65535 ->
  lc_le (int_lcmp single (d_of single 1)) v m = (v <=? m) /\ lc_gt (int_lcmp single (d_of single 1)) v m = (m <? v).
Proof.
  intros Hv Hm. cbn [lc_le lc_gt int_lcmp single d_le d_lt d_of d_mul].
  assert (B : forall z, 0 <= z <= 65535 -> finite F32 (float_of_Z F32 z) /\ val (float_of_Z F32 z) = IZR z).
  { intros z Hz. apply float_of_Z_exact; [exact standard32|]. change (2 ^ f_prec F32) with 16777216. lia. }
  destruct (B 1 ltac:(lia)) as (F1 & V1).
  assert (P : forall z, 0 <= z <= 65535 -> finite F32 (fmul F32 (float_of_Z F32 z) (float_of_Z F32 1)) /\ val (fmul F32 (float_of_Z F32 z) (float_of_Z F32 1)) = IZR z).
  { intros z Hz. destruct (B z Hz) as (Fz & Vz).
    destruct (int_exact F32 standard32 z) as (E & L); [change (2 ^ f_prec F32) with 16777216; lia|].
    assert (X : (val (float_of_Z F32 z) * val (float_of_Z F32 1))%R = IZR z) by (rewrite Vz, V1; lra).
    destruct (fmul_fin F32 standard32 (float_of_Z F32 z) (float_of_Z F32 1)) as (Fp & Vp); auto; [rewrite X; exact L|].
    split; auto. rewrite Vp, X. exact E. }
  destruct (B v Hv) as (Fv & Vv), (B m Hm) as (Fm & Vm), (P v Hv) as (Fv' & Vv'), (P m Hm) as (Fm' & Vm').
  split.
  - pose proof (leb_val F32 _ _ Fv Fm') as X. rewrite Vv, Vm' in X.
    destruct (SFleb _ _), (Z.leb_spec v m) as [C|C]; auto; exfalso.
    + assert (IZR v <= IZR m)%R by now apply X. apply le_IZR in H. lia.
    + assert (false = true) by (apply X; now apply IZR_le). discriminate.
  - pose proof (ltb_val F32 _ _ Fm Fv') as X. rewrite Vm, Vv' in X.
    destruct (SFltb _ _), (Z.ltb_spec m v) as [C|C]; auto; exfalso.
    + assert (IZR m < IZR v)%R by now apply X. apply lt_IZR in H. lia.
    + assert (false = true) by (apply X; now apply IZR_lt). discriminate.
Qed.

Section Local.
Context {D : Type} (O : dops D) (t : ity) (width : clen D) (down : bool) (n M1 M2 : Z) (g out s1 s2 h out2 q1 q2 : gray Z).
Hypothesis En : clen_computeI O width (d_of O (Z.min (g_width g) (g_height g))) = Ok n.
Hypothesis Hn : 2 <= n.
Hypothesis Ig : local_input t (n / 2) g out M1.
Hypothesis Ih : local_input t (n / 2) h out2 M2.
Hypothesis W : wf s1 /\ wf s2 /\ wf q1 /\ wf q2.
Hypothesis S : g_sub s1 = false /\ g_sub s2 = false /\ g_sub q1 = false /\ g_sub q2 = false.
Hypothesis Sz : same_size g h.
Let run L := local_mean O (int_narith t) (int_marith t) 0 (fun _ => 1) L width down.
Let bin (L : lcmp Z) (i : gray Z) x y := match pixel i x y with
      | Some v => Some (if (if down then lc_le L v (mean_box i (n / 2) x y) else lc_gt L v (mean_box i (n / 2) x y)) then 1 else 0)
      | None => None end.
Lemma half_pos : 0 < n / 2.
Proof. clear - Hn. pose proof (Z.div_le_mono 2 n 2). lia. Qed.
Lemma local_both L (R : gray Z -> gray Z -> Prop) :
  (forall o p, same_size g o -> same_size h p -> (forall x y, inside g x y -> pixel o x y = bin L g x y) ->
    (forall x y, inside h x y -> pixel p x y = bin L h x y) -> R o p) ->
  exists o st p st', run L g out s1 s2 = Ok (o, st) /\ run L h out2 q1 q2 = Ok (p, st') /\ R o p.
Proof.
  intros X. destruct W as (W1 & W2 & W3 & W4), S as (A1 & A2 & A3 & A4).
  destruct (local_mean_ok O t L width down n (n / 2) M1 g out s1 s2 En eq_refl half_pos Ig W1 W2 A1 A2) as (o & o' & a & b & _ & E1 & (B1 & B2 & _ & B3 & _) & _).
  destruct (local_mean_ok O t L width down n (n / 2) M2 h out2 q1 q2) as (p & p' & c & d & _ & E2 & (C1 & C2 & _ & C3 & _) & _); auto using half_pos.
  { destruct Sz as (-> & ->). exact En. }
  exists o', (a, b), p', (c, d). split; [exact E1|]. split; [exact E2|]. apply X; auto; split; auto.
Qed.
Lemma local_shift k : t = U8 \/ t = U16 -> shifted k g h ->
  exists o st p st', run (int_lcmp single (d_of single 1)) g out s1 s2 = Ok (o, st) /\ run (int_lcmp single (d_of single 1)) h out2 q1 q2 = Ok (p, st') /\ alike o p.
Proof.
  intros T Sh. apply local_both. intros o p (B1 & B2) (C1 & C2) Po Pp. split; [destruct Sz; split; congruence|]. intros x y.
  destruct Sz as (Z1 & Z2).
  assert (Dc : inside g x y \/ ~ inside g x y) by (unfold inside; lia). destruct Dc as [I|N].
  2: { rewrite !pixel_outside; auto; unfold inside in *; lia. }
  assert (I' : inside h x y) by (unfold inside in *; lia). rewrite Po, Pp by auto. unfold bin.
  destruct (pixel_exists g x y (li_g _ _ _ _ _ Ig) I) as (v & E). rewrite E, (proj2 Sh x y v E). f_equal. pose proof half_pos as Hp.
  assert (Rg : forall i o M, local_input t (n / 2) i o M -> (forall x y v, pixel i x y = Some v -> 0 <= v <= 65535)).
  { intros i u M Hi a b c Hc. destruct (li_px _ _ _ _ _ Hi _ _ _ Hc) as (Q & _). destruct T as [-> | ->]; cbn in Q; lia. }
  pose proof (Rg _ _ _ Ig) as Rg1. pose proof (Rg _ _ _ Ih) as Rh1.
  assert (Mh : mean_box h (n / 2) x y = mean_box g (n / 2) x y + k).
  { rewrite !mean_box_two. apply two_pass_shift; auto; try apply ones_nonneg; try (apply ones_centre; lia); try apply Ig; try apply Ih.
    - intros a b c Hc. apply Rg1 in Hc. lia.
    - intros a b c Hc. apply Rh1 in Hc. lia. }
  assert (G1 : 0 <= mean_box g (n / 2) x y <= 65535).
  { apply mean_box_in; [lia|exact (li_g _ _ _ _ _ Ig)|auto|left; lia|]. intros; eauto. }
  assert (H1 : 0 <= mean_box h (n / 2) x y <= 65535).
  { apply mean_box_in; [lia|exact (li_g _ _ _ _ _ Ih)|auto|left; lia|]. intros; eauto. }
  destruct (single_one v (mean_box g (n / 2) x y)) as (-> & ->); eauto.
  destruct (single_one (v + k) (mean_box h (n / 2) x y)) as (-> & ->); eauto. { eapply Rh1. apply (proj2 Sh); eauto. }
  rewrite Mh. destruct down; f_equal; f_equal.
  - destruct (Z.leb_spec (v + k) (mean_box g (n / 2) x y + k)), (Z.leb_spec v (mean_box g (n / 2) x y)); auto; lia.
  - destruct (Z.ltb_spec (mean_box g (n / 2) x y + k) (v + k)), (Z.ltb_spec (mean_box g (n / 2) x y) v); auto; lia.
Qed.
Lemma local_mirror L : exists o st p st', run L g out s1 s2 = Ok (o, st) /\ run L h out2 q1 q2 = Ok (p, st') /\
  (mirrored_x g h -> mirrored_x o p) /\ (mirrored_y g h -> mirrored_y o p).
Proof.
  apply local_both. intros o p (B1 & B2) (C1 & C2) Po Pp. destruct Sz as (Z1 & Z2). pose proof half_pos as Hp.
  split; intros (_ & Mi); (split; [split; congruence|]); intros x y I;
    (assert (I1 : inside g x y) by (unfold inside in *; lia)); (assert (I2 : inside h x y) by (unfold inside in *; lia)).
  - rewrite Pp, B1, Po by (auto; unfold inside in *; lia). unfold bin. rewrite Mi by auto. destruct (pixel g _ _); auto.
    rewrite !mean_box_two, (two_pass_mirror_x (ones (n / 2)) (n / 2)) with (g := g); auto using ones_rev; try apply ones_nonneg;
      try (apply ones_centre; lia); try (apply ones_len; lia). split; [split|]; auto.
  - rewrite Pp, B2, Po by (auto; unfold inside in *; lia). unfold bin. rewrite Mi by auto. destruct (pixel g _ _); auto.
    rewrite !mean_box_two, (two_pass_mirror_y (ones (n / 2)) (n / 2)) with (g := g); auto using ones_rev; try apply ones_nonneg;
      try (apply ones_centre; lia); try (apply ones_len; lia). split; [split|]; auto.
Qed.
End Local.

(** ** Counts *)
Lemma zcount_perm v l m : Permutation l m -> zcount v l = zcount v m.
Proof. induction 1; cbn [zcount]; lia. Qed.
Lemma zcount_map k v l : zcount (v + k) (map (fun a => a + k) l) = zcount v l.
Proof. induction l as [|a l IH]; cbn [map zcount]; auto. rewrite IH. f_equal. destruct (Z.eqb_spec (a + k) (v + k)), (Z.eqb_spec a v); auto; lia. Qed.
Lemma flat_map_map {A B C} (f : A -> list B) (k : B -> C) l : flat_map (fun a => map k (f a)) l = map k (flat_map f l).
Proof. induction l as [|a l IH]; cbn; auto. now rewrite IH, map_app. Qed.
Lemma flat_map_ext_in {A B} (f k : A -> list B) l : (forall a, In a l -> f a = k a) -> flat_map f l = flat_map k l.
Proof. induction l as [|a l IH]; cbn; auto. intros H. rewrite H by auto. f_equal. auto. Qed.
Lemma zrange_mirror n : 0 <= n -> Permutation (zrange n) (map (fun i => n - 1 - i) (zrange n)).
Proof.
  intros Hn. apply NoDup_Permutation; [apply NoDup_zrange| |].
  - apply FinFun.Injective_map_NoDup; [|apply NoDup_zrange]. intros a b. lia.
  - intros x. rewrite in_map_iff, zrange_In. split.
    + intros H. exists (n - 1 - x). split; [lia|]. apply zrange_In. lia.
    + intros (i & <- & Hi). apply zrange_In in Hi. lia.
Qed.
Lemma flat_map_perm {A B} (f : A -> list B) l m : Permutation l m -> Permutation (flat_map f l) (flat_map f m).
Proof. apply Permutation_flat_map. Qed.
Lemma flat_map_each {A B} (f k : A -> list B) l : (forall a, In a l -> Permutation (f a) (k a)) -> Permutation (flat_map f l) (flat_map k l).
Proof. induction l as [|a l IH]; cbn; auto. intros H. apply Permutation_app; auto. Qed.

Lemma shifted_pixels k g h : wf g -> shifted k g h -> all_pixels h = map (fun a => a + k) (all_pixels g).
Proof.
  intros W ((S1 & S2) & P). unfold all_pixels. rewrite S1, S2, <- flat_map_map. apply flat_map_ext_in. intros y Hy.
  rewrite <- flat_map_map. apply flat_map_ext_in. intros x Hx. apply zrange_In in Hx, Hy.
  destruct (pixel_exists g x y W) as (v & E); [split; auto|]. now rewrite E, (P _ _ _ E).
Qed.
Lemma shifted_counts k g h : wf g -> shifted k g h -> same_counts k g h.
Proof. intros W S v. rewrite (shifted_pixels k g h) by auto. apply zcount_map. Qed.
Lemma mirrored_x_counts g h : wf g -> mirrored_x g h -> same_counts 0 g h.
Proof.
  intros W ((S1 & S2) & P) v. rewrite Z.add_0_r. apply zcount_perm. unfold all_pixels. rewrite S1, S2. apply flat_map_each. intros y Hy. apply zrange_In in Hy.
  assert (W0 : 0 <= g_width g) by (unfold wf in W; lia). symmetry.
  rewrite (flat_map_perm _ _ _ (zrange_mirror (g_width g) W0)). rewrite flat_map_concat_map, map_map, <- flat_map_concat_map.
  apply flat_map_each. intros x Hx. apply zrange_In in Hx. rewrite P by (split; auto). reflexivity.
Qed.
Lemma mirrored_y_counts g h : wf g -> mirrored_y g h -> same_counts 0 g h.
Proof.
  intros W ((S1 & S2) & P) v. rewrite Z.add_0_r. apply zcount_perm. unfold all_pixels. rewrite S1, S2.
  assert (H0 : 0 <= g_height g) by (unfold wf in W; lia). symmetry.
  rewrite (flat_map_perm _ _ _ (zrange_mirror (g_height g) H0)). rewrite flat_map_concat_map, map_map, <- flat_map_concat_map.
  apply flat_map_each. intros y Hy. apply zrange_In in Hy. apply flat_map_each. intros x Hx. apply zrange_In in Hx. rewrite P by (split; auto). reflexivity.
Qed.

(** ** Otsu, any arithmetic *)
Section Any.
Context {D : Type} (O : dops D).
Lemma otsu_compute_same (two : bool) tu down sc l a b N : holds_counts a l -> holds_counts b l ->
  otsu_compute O two tu down sc a N = otsu_compute O two tu down sc b N.
Proof.
  intros Ha Hb. assert (SZ : ga_size a = ga_size b) by (destruct Ha as (-> & _), Hb as (-> & _); reflexivity).
  assert (IX : forall i, 0 <= i < ga_size a -> ga_idx a i = ga_idx b i).
  { intros i Hi. rewrite (proj1 Ha) in Hi. destruct (idx_ok l a Ha i Hi) as (v & E & ->), (idx_ok l b Hb i Hi) as (w & E' & ->). congruence. }
  assert (T : forall inc, otsu_total O inc a = otsu_total O inc b).
  { intros inc. unfold otsu_total. rewrite <- SZ. apply for_range_ext. intros i s Hi. now rewrite IX. }
  assert (L : forall s, otsu_loop O a N s = otsu_loop O b N s).
  { intros s. unfold otsu_loop. rewrite <- SZ. apply for_range_ext. intros i q Hi. unfold otsu_step. now rewrite IX, SZ. }
  unfold otsu_compute. f_equal. destruct two; [unfold otsu_2|unfold otsu_1]; rewrite T; apply bind_ext; intros s _; rewrite L; [now rewrite SZ|reflexivity].
Qed.
Lemma counts_shift k g h mn mx : same_counts k g h -> value_counts h (mn + k) (mx + k) = value_counts g mn mx.
Proof.
  intros C. unfold value_counts. replace (mx + k - (mn + k) + 1) with (mx - mn + 1) by lia. apply map_ext. intros i.
  replace (mn + k + i) with (mn + i + k) by lia. apply C.
Qed.
Lemma counts_range k g h mn mx : wf g -> wf h -> same_counts k g h -> (forall x y v, pixel g x y = Some v -> mn <= v <= mx) ->
  (forall x y v, pixel h x y = Some v -> mn + k <= v <= mx + k).
Proof.
  intros Wg Wh C P x y v E.
  assert (I : In v (all_pixels h)) by (apply all_pixels_In; eauto).
  assert (Q : forall l, In v l -> 0 < zcount v l).
  { induction l as [|a l IH]; [intros []|]. intros [->|J]; cbn [zcount].
    - rewrite Z.eqb_refl. pose proof (zcount_range v l). lia.
    - specialize (IH J). destruct (a =? v); lia. }
  assert (Q' : forall u l, 0 < zcount u l -> In u l).
  { intros u. induction l as [|a l IH]; cbn [zcount]; [lia|]. destruct (Z.eqb_spec a u) as [->|]; [now left|]. right. apply IH. lia. }
  apply Q in I. replace v with (v - k + k) in I by lia. rewrite C in I. apply Q', all_pixels_In in I as (a & b & E'). apply P in E'. lia.
Qed.
Lemma image_otsu_counts t (two : bool) g h mn mx k : wf g -> wf h -> same_counts k g h ->
  (forall x y v, pixel g x y = Some v -> mn <= v <= mx) -> 0 <= mx - mn < 2147483647 ->
  ity_min (promote t) <= mn -> mx < ity_max (promote t) -> ity_min (promote t) <= mn + k -> mx + k < ity_max (promote t) ->
  image_otsu O t h (mn + k) (mx + k) two = image_otsu O t g mn mx two.
Proof.
  intros Wg Wh C P R A1 A2 A3 A4. pose proof (counts_range k g h mn mx Wg Wh C P) as Ph.
  assert (Hh : forall i a b, wf i -> (forall x y v, pixel i x y = Some v -> a <= v <= b) -> b - a = mx - mn ->
    exists u, image_histogram t i a (ga_new (int_mem U32) (1 + mx - mn)) = Ok u /\ holds_counts u (value_counts i a b)).
  { intros i a b Wi Pi Ei. destruct (histogram_ok t i a (ga_new (int_mem U32) (1 + mx - mn))) as (u & E & Su & V); auto.
    - cbn [ga_new ga_data ga_size]. rewrite zlen_repeat. lia.
    - cbn [ga_new ga_size]. lia.
    - intros x y v E. apply Pi in E. cbn [ga_new ga_size]. lia.
    - cbn [ga_new ga_size] in Su, V. exists u. split; auto. pose proof (value_counts_len i a b ltac:(lia)) as Ll. split; [lia|].
      intros j c Ec. apply znth_Some_range in Ec as Rj. rewrite value_counts_nth in Ec by lia. injection Ec as <-. apply V. lia. }
  destruct (Hh g mn mx Wg P eq_refl) as (u & Eu & Hu). destruct (Hh h (mn + k) (mx + k) Wh Ph ltac:(lia)) as (w & Ew & Hw).
  rewrite counts_shift with (g := g) in Hw by auto.
  unfold image_otsu. rewrite !arith_result_in by lia. cbn [bind].
  replace (1 + (mx + k) - (mn + k)) with (1 + mx - mn) by lia.
  rewrite !arith_result_in by (destruct t; cbn in *; lia). cbn [bind]. rewrite (u32_id (1 + mx - mn)) by lia. rewrite Eu, Ew. cbn [bind].
  assert (T : gray_total_pixels h = gray_total_pixels g).
  { unfold gray_total_pixels. f_equal. rewrite <- (value_counts_sum g mn mx), <- (value_counts_sum h (mn + k) (mx + k)) by auto.
    now rewrite counts_shift with (g := g). }
  rewrite T. now rewrite (otsu_compute_same two _ _ _ (value_counts g mn mx) w u) by auto.
Qed.
End Any.

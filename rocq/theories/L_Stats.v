(** Lemmas about image statistics. *)
From Verif Require Import BaseFacts M_Image S_Image L_Image M_Convolve M_GrowArray M_Stats S_Blur S_Stats.

Lemma mfold_app {A S} (f : A -> S -> outcome S) l k s : mfold f (l ++ k) s = let* s := mfold f l s in mfold f k s.
Proof. revert s; induction l as [|a l IH]; intros s; cbn; auto. destruct (f a s); cbn; auto. Qed.

Lemma mfold_inv {A S} (Inv : list A -> S -> Prop) (f : A -> S -> outcome S) l : forall done s,
  Inv done s -> (forall a k s, In a l -> Inv k s -> exists s', f a s = Ok s' /\ Inv (k ++ [a]) s') ->
  exists s', mfold f l s = Ok s' /\ Inv (done ++ l) s'.
Proof.
  induction l as [|a l IH]; intros done s I0 H.
  - exists s. rewrite app_nil_r. auto.
  - destruct (H a done s) as (s1 & E1 & I1); [now left|auto|]. cbn. rewrite E1. cbn.
    destruct (IH (done ++ [a]) s1) as (s2 & E2 & I2); auto.
    + intros b k t Hb; apply H; now right.
    + exists s2. rewrite <- app_assoc in I2. auto.
Qed.

Lemma zrange_S n : 0 <= n -> zrange (n + 1) = zrange n ++ [n].
Proof.
  intros H. unfold zrange. replace (Z.to_nat (n + 1)) with (Z.to_nat n + 1)%nat by lia.
  rewrite seq_app, map_app. cbn. repeat f_equal. lia.
Qed.
Lemma zrange_In n i : In i (zrange n) <-> 0 <= i < n.
Proof.
  unfold zrange. rewrite in_map_iff. split.
  - intros (k & <- & Hk). apply in_seq in Hk. lia.
  - intros H. exists (Z.to_nat i). split; [lia|]. apply in_seq. lia.
Qed.
Lemma zlen_zrange n : 0 <= n -> zlen (zrange n) = n.
Proof. intros H. unfold zlen, zrange. rewrite map_length, seq_length. lia. Qed.

Lemma for_mfold {A S} (f : A -> S -> outcome S) (L : Z -> list A) n : forall s, 0 <= n ->
  for_range 0 n (fun i s => mfold f (L i) s) s = mfold f (flat_map L (zrange n)) s.
Proof.
  intros s Hn. revert s. pattern n. apply natlike_ind; [| |exact Hn]; clear n Hn.
  - intros s. reflexivity.
  - intros n Hn IH s. unfold Z.succ. rewrite for_range_last by lia. replace (n + 1 - 1) with n by lia. rewrite IH.
    rewrite zrange_S by lia. rewrite flat_map_app. cbn [flat_map]. rewrite app_nil_r. now rewrite mfold_app.
Qed.

Section Img.
Context {A : Type}.
Variable g : gray A.
Hypothesis Hg : wf g.

Lemma all_pixels_In v : In v (all_pixels g) <-> exists x y, pixel g x y = Some v.
Proof.
  unfold all_pixels. rewrite in_flat_map. split.
  - intros (y & Hy & H). apply in_flat_map in H as (x & Hx & H). exists x, y. destruct (pixel g x y); cbn in H.
    + destruct H as [->|[]]; auto.
    + destruct H.
  - intros (x & y & E). pose proof (pixel_Some _ _ _ _ E) as [H1 H2]. exists y. split; [now apply zrange_In|].
    apply in_flat_map. exists x. split; [now apply zrange_In|]. rewrite E. now left.
Qed.

Lemma flat_map_ones {B C} (f : B -> list C) l : (forall b, In b l -> zlen (f b) = 1) -> zlen (flat_map f l) = zlen l.
Proof.
  induction l as [|a l IH]; intros H; auto. cbn. rewrite zlen_app, zlen_cons, IH.
  - rewrite H; auto. now left.
  - intros b Hb; apply H; now right.
Qed.
Lemma flat_map_const {B C} (f : B -> list C) l n : (forall b, In b l -> zlen (f b) = n) -> zlen (flat_map f l) = n * zlen l.
Proof.
  induction l as [|a l IH]; intros H; [cbn; unfold zlen; cbn; lia|]. cbn. rewrite zlen_app, zlen_cons, IH.
  - rewrite H; [lia|]. now left.
  - intros b Hb; apply H; now right.
Qed.
Lemma all_pixels_len : zlen (all_pixels g) = g_width g * g_height g.
Proof.
  assert (W := Hg). unfold wf in W. unfold all_pixels. rewrite (flat_map_const _ _ (g_width g)).
  - now rewrite zlen_zrange by lia.
  - intros y Hy. apply zrange_In in Hy. rewrite flat_map_ones; [apply zlen_zrange; lia|].
    intros x Hx. apply zrange_In in Hx. destruct (pixel_exists g x y) as (v & ->); auto. split; auto.
Qed.

Lemma scan_window_ok {S} (f : A -> S -> outcome S) s : scan_window g f s = mfold f (all_pixels g) s.
Proof.
  assert (W := Hg). unfold wf in W. unfold scan_window, all_pixels. rewrite <- for_mfold by lia.
  apply for_range_ext. intros y s0 Hy. cbn zeta. rewrite <- for_mfold by lia.
  destruct (Z.eq_dec (g_width g) 0) as [Z0|NZ].
  - rewrite Z0, Z.add_0_r, u32_u32. now rewrite !for_range_nil by lia.
  - assert (I0 : inside g (g_width g - 1) y) by (split; lia). pose proof (wf_pos _ _ _ Hg I0) as P. unfold pos in P.
    assert (0 <= y * g_stride g) by (apply Z.mul_nonneg_nonneg; lia).
    rewrite (u32_id (g_offset g + y * g_stride g)) by lia. rewrite (u32_id (_ + g_width g)) by lia.
    set (b := g_offset g + y * g_stride g).
    replace (for_range b (b + g_width g)) with (for_range (S := S) (0 + b) (g_width g + b)) by (f_equal; lia).
    rewrite for_range_shift. apply for_range_ext. intros x s1 Hx.
    destruct (pixel_exists g x y) as (v & E); auto; [split; lia|]. rewrite E.
    rewrite pixel_inside in E by (split; lia). unfold pos in E. fold b in E.
    replace (x + b) with (b + x) by lia. unfold bget. rewrite E. cbn. destruct (f v s1); auto.
Qed.

Lemma total_ok : g_sub g = false -> gray_total_pixels g = g_width g * g_height g.
Proof.
  intros E. assert (W := Hg). unfold wf in W. destruct W as (W1 & W2 & W3 & W4 & W5 & W6 & W7). destruct (W7 E) as [W8 W9].
  unfold gray_total_pixels. destruct (Z.eq_dec (g_width g) 0) as [->|]; [reflexivity|].
  destruct (Z.eq_dec (g_height g) 0) as [->|]; [now rewrite Z.mul_0_r|]. apply u32_id. specialize (W6 ltac:(lia) ltac:(lia)).
  rewrite W9 in W6. nia.
Qed.

Lemma scan_flat_ok {S} (f : A -> S -> outcome S) s : g_sub g = false -> scan_flat g f s = mfold f (all_pixels g) s.
Proof.
  intros E. rewrite <- scan_window_ok. unfold scan_flat. rewrite total_ok by auto.
  assert (W := Hg). unfold wf in W. destruct W as (W1 & W2 & W3 & W4 & W5 & W6 & W7). destruct (W7 E) as [W8 W9].
  unfold scan_window. rewrite W8, W9. clear W7.
  assert (H : forall h s, 0 <= h <= g_height g ->
     for_range 0 (g_width g * h) (fun i s => let* v := bget (g_data g) i in f v s) s =
     for_range 0 h (fun y s => let index := u32 (0 + y * g_width g) in
       for_range index (u32 (index + g_width g)) (fun i s => let* v := bget (g_data g) i in f v s) s) s).
  { intros h s0 Hh. destruct Hh as [H0 H1]. revert s0 H1. pattern h. apply natlike_ind; [| |exact H0]; clear h H0.
    - intros s0 _. rewrite Z.mul_0_r. reflexivity.
    - intros h Hh IH s0 H1. unfold Z.succ. rewrite for_range_last by lia. rewrite <- IH by lia.
      rewrite (for_range_split 0 (g_width g * h)) by nia.
      destruct (for_range 0 (g_width g * h) _ s0) as [s1| | |]; auto. cbn [bind]. cbn zeta. rewrite Z.add_0_l.
      destruct (Z.eq_dec (g_width g) 0) as [Z0|NZ].
      + rewrite Z0, Z.add_0_r, u32_u32. now rewrite !for_range_nil by lia.
      + specialize (W6 ltac:(lia) ltac:(lia)). rewrite W8, W9 in W6.
        assert (0 <= h * g_width g) by nia. assert (h * g_width g <= (g_height g - 1) * g_width g) by nia.
        rewrite (u32_id (h * g_width g)) by lia. rewrite (u32_id (_ + g_width g)) by lia.
        f_equal; lia. }
  apply H. lia.
Qed.
End Img.

(** ** Sums *)
Lemma zsum_app l k : zsum (l ++ k) = zsum l + zsum k.
Proof. induction l as [|a l IH]; cbn; [reflexivity|]. unfold zsum in *. lia. Qed.
Lemma zsum_le l M : (forall v, In v l -> Z.abs v <= M) -> Z.abs (zsum l) <= zlen l * M.
Proof.
  induction l as [|a l IH]; intros H; [cbn; unfold zlen; cbn; lia|]. rewrite zlen_cons. cbn [zsum fold_right].
  specialize (IH (fun v Hv => H v (or_intror Hv))). specialize (H a (or_introl eq_refl)). unfold zsum in *. lia.
Qed.
Lemma zsum_nonneg l : (forall v, In v l -> 0 <= v) -> 0 <= zsum l.
Proof.
  induction l as [|a l IH]; intros H; [cbn; lia|]. cbn [zsum fold_right].
  specialize (IH (fun v Hv => H v (or_intror Hv))). specialize (H a (or_introl eq_refl)). unfold zsum in *. lia.
Qed.
Lemma zsum_upper l m : (forall v, In v l -> v <= m) -> zsum l <= m * zlen l.
Proof.
  induction l as [|a l IH]; intros H; [cbn; unfold zlen; cbn; lia|]. rewrite zlen_cons. cbn [zsum fold_right].
  specialize (IH (fun v Hv => H v (or_intror Hv))). specialize (H a (or_introl eq_refl)). unfold zsum in *. lia.
Qed.
Lemma zsum_lower l m : (forall v, In v l -> m <= v) -> m * zlen l <= zsum l.
Proof.
  induction l as [|a l IH]; intros H; [cbn; unfold zlen; cbn; lia|]. rewrite zlen_cons. cbn [zsum fold_right].
  specialize (IH (fun v Hv => H v (or_intror Hv))). specialize (H a (or_introl eq_refl)). unfold zsum in *. lia.
Qed.

Lemma u32_add_u32 a b : u32 (u32 a + b) = u32 (a + b).
Proof. apply u32_add_l. Qed.

Lemma mfold_sum_wrap t l : ity_signed (sum_type t) = false ->
  forall s, mfold (fun v s => arith_result (sum_type t) (s + v)) l (u32 s) = Ok (u32 (s + zsum l)).
Proof.
  intros Ht. induction l as [|a l IH]; intros s; cbn.
  - now rewrite Z.add_0_r.
  - unfold arith_result at 1. rewrite Ht. replace (cast (sum_type t)) with u32 by (destruct t; try discriminate; reflexivity).
    cbn [bind]. rewrite u32_add_l. rewrite IH. unfold zsum. do 2 f_equal. lia.
Qed.
Lemma mfold_sum t l M : 0 <= M -> (forall v, In v l -> Z.abs v <= M) ->
  forall done, (ity_signed (sum_type t) = false -> 0 <= done /\ forall v, In v l -> 0 <= v) ->
  Z.abs done + zlen l * M <= ity_max (sum_type t) ->
  mfold (fun v s => arith_result (sum_type t) (s + v)) l done = Ok (done + zsum l).
Proof.
  intros HM. induction l as [|a l IH]; intros H done Hu Hb; cbn.
  - now rewrite Z.add_0_r.
  - pose proof (H a (or_introl eq_refl)) as Ha. rewrite zlen_cons in Hb. pose proof (zlen_nonneg l).
    assert (0 <= zlen l * M) by nia.
    assert (E : arith_result (sum_type t) (done + a) = Ok (done + a)).
    { apply arith_result_in. destruct (ity_signed (sum_type t)) eqn:Es.
      - destruct t; cbn in *; try discriminate; lia.
      - destruct (Hu eq_refl) as [D0 V0]. specialize (V0 a (or_introl eq_refl)). destruct t; cbn in *; try discriminate; lia. }
    rewrite E. cbn [bind]. rewrite IH.
    + unfold zsum. f_equal. lia.
    + intros v Hv; apply H; now right.
    + intros Es. destruct (Hu Es) as [D0 V0]. split; [specialize (V0 a (or_introl eq_refl)); lia|].
      intros v Hv; apply V0; now right.
    + nia.
Qed.

(** Pixels that belong to type [t] and are at most [M] in size. *)
Definition pixels_in (t : ity) (M : Z) (l : list Z) : Prop :=
  forall v, In v l -> ity_min t <= v <= ity_max t /\ Z.abs v <= M.

Lemma image_sum_ok t g M : wf g -> 0 <= M ->
  (forall x y v, pixel g x y = Some v -> ity_min t <= v <= ity_max t /\ Z.abs v <= M) ->
  g_width g * g_height g * M <= ity_max (sum_type t) ->
  image_sum t g = Ok (zsum (all_pixels g)).
Proof.
  intros Hg HM HP HB. unfold image_sum. rewrite scan_window_ok by auto.
  rewrite (mfold_sum t (all_pixels g) M); auto.
  - intros v Hv. apply all_pixels_In in Hv as (x & y & E). now apply HP in E.
  - intros Es. split; [lia|]. intros v Hv. apply all_pixels_In in Hv as (x & y & E). apply HP in E.
    destruct t; cbn in *; try discriminate; lia.
  - rewrite all_pixels_len by auto. lia.
Qed.
Lemma image_sum_wrap t g : wf g -> ity_signed (sum_type t) = false ->
  image_sum t g = Ok (u32 (zsum (all_pixels g))).
Proof.
  intros Hg Ht. unfold image_sum. rewrite scan_window_ok by auto. change 0 with (u32 0) at 1.
  now rewrite mfold_sum_wrap.
Qed.

Lemma wf_total_small {A} (g : gray A) : wf g -> 0 <= g_width g * g_height g < 4294967296.
Proof.
  intros Hg. unfold wf in Hg. destruct Hg as (W1 & W2 & W3 & W4 & W5 & W6 & _).
  destruct (Z.eq_dec (g_width g) 0) as [->|]; [lia|]. destruct (Z.eq_dec (g_height g) 0) as [->|]; [lia|].
  specialize (W6 ltac:(lia) ltac:(lia)). nia.
Qed.

(** The average of numbers of type [t] is one. *)
Lemma average_in t l : 0 < zlen l -> (forall v, In v l -> ity_min t <= v <= ity_max t) ->
  ity_min t <= Z.quot (zsum l) (zlen l) <= ity_max t.
Proof.
  intros Hn Hv. pose proof (zsum_upper l (ity_max t) (fun v H => proj2 (Hv v H))) as U.
  pose proof (zsum_lower l (ity_min t) (fun v H => proj1 (Hv v H))) as L.
  assert (Z0 : ity_min t <= 0 <= ity_max t) by (destruct t; cbn; lia).
  destruct (Z.leb_spec 0 (zsum l)).
  - rewrite Z.quot_div_nonneg by lia. split.
    + pose proof (Z.div_pos (zsum l) (zlen l) ltac:(lia) Hn). lia.
    + apply Z.div_le_upper_bound; lia.
  - replace (zsum l) with (- (- zsum l)) by lia. rewrite Z.quot_opp_l by lia. rewrite Z.quot_div_nonneg by lia. split.
    + assert (- zsum l / zlen l <= - ity_min t) by (apply Z.div_le_upper_bound; lia). lia.
    + pose proof (Z.div_pos (- zsum l) (zlen l) ltac:(lia) Hn). lia.
Qed.

Lemma image_mean_ok t g M : wf g -> 0 <= M -> 0 < g_width g -> 0 < g_height g ->
  (forall x y v, pixel g x y = Some v -> ity_min t <= v <= ity_max t /\ Z.abs v <= M) ->
  g_width g * g_height g * M <= ity_max (sum_type t) ->
  t = S64 \/ 0 <= zsum (all_pixels g) ->
  image_mean t g = Ok (Z.quot (zsum (all_pixels g)) (g_width g * g_height g)).
Proof.
  intros Hg HM Hw Hh HP HB HS. unfold image_mean. rewrite (image_sum_ok t g M) by auto. cbn [bind].
  pose proof (wf_total_small g Hg) as T. rewrite (u32_id (g_width g * g_height g)) by lia.
  assert (N : 0 < g_width g * g_height g) by nia.
  pose proof (all_pixels_len g Hg) as L.
  assert (V : forall v, In v (all_pixels g) -> ity_min t <= v <= ity_max t /\ Z.abs v <= M).
  { intros v Hv. apply all_pixels_In in Hv as (x & y & E). now apply HP in E. }
  pose proof (average_in t (all_pixels g) ltac:(lia) (fun v H => proj1 (V v H))) as R. rewrite L in R.
  pose proof (zsum_le (all_pixels g) M (fun v H => proj2 (V v H))) as B. rewrite L in B.
  assert (E : div_u32 (sum_type t) (zsum (all_pixels g)) (g_width g * g_height g) =
              Ok (Z.quot (zsum (all_pixels g)) (g_width g * g_height g))).
  { destruct HS as [->|HS].
    - cbn [sum_type div_u32]. unfold int_div. replace (_ =? 0) with false by lia. apply arith_result_in. exact R.
    - destruct t; cbn [sum_type div_u32]; cbn [sum_type ity_max] in HB;
        try (replace (_ =? 0) with false by lia; rewrite u32_id by lia; now rewrite Z.quot_div_nonneg by lia).
      unfold int_div. replace (_ =? 0) with false by lia. apply arith_result_in. exact R. }
  rewrite E. cbn [bind]. now rewrite cast_id.
Qed.
Lemma image_mean_empty t g : wf g -> g_width g = 0 \/ g_height g = 0 -> image_mean t g = Undef.
Proof.
  intros Hg HZ. unfold image_mean, image_sum. rewrite scan_window_ok by auto.
  assert (L : zlen (all_pixels g) = 0) by (rewrite all_pixels_len by auto; lia).
  destruct (all_pixels g) as [|a l]; [|rewrite zlen_cons in L; pose proof (zlen_nonneg l); lia].
  cbn [mfold bind]. replace (u32 (g_width g * g_height g)) with 0.
  - destruct t; reflexivity.
  - destruct HZ as [-> | ->]; [reflexivity|now rewrite Z.mul_0_r].
Qed.

(** ** Extrema *)
Lemma mfold_min l : forall m, mfold (fun v m => Ok (if v <? m then v else m)) l m = Ok (fold_left Z.min l m).
Proof.
  induction l as [|a l IH]; intros m; cbn; auto. rewrite IH. do 2 f_equal. destruct (Z.ltb_spec a m); lia.
Qed.
Lemma mfold_max l : forall m, mfold (fun v m => Ok (if m <? v then v else m)) l m = Ok (fold_left Z.max l m).
Proof.
  induction l as [|a l IH]; intros m; cbn; auto. rewrite IH. do 2 f_equal. destruct (Z.ltb_spec m a); lia.
Qed.
Lemma fold_min_spec l : forall m, (fold_left Z.min l m = m \/ In (fold_left Z.min l m) l) /\ fold_left Z.min l m <= m /\
  forall v, In v l -> fold_left Z.min l m <= v.
Proof.
  induction l as [|a l IH]; intros m; cbn.
  - repeat split; auto; [lia|tauto].
  - destruct (IH (Z.min m a)) as (H1 & H2 & H3). split; [|split].
    + destruct H1 as [H1|H1]; auto. rewrite H1. destruct (Z.min_spec m a) as [[_ ->]|[_ ->]]; auto.
    + lia.
    + intros v [<-|Hv]; auto. lia.
Qed.
Lemma fold_max_spec l : forall m, (fold_left Z.max l m = m \/ In (fold_left Z.max l m) l) /\ m <= fold_left Z.max l m /\
  forall v, In v l -> v <= fold_left Z.max l m.
Proof.
  induction l as [|a l IH]; intros m; cbn.
  - repeat split; auto; [lia|tauto].
  - destruct (IH (Z.max m a)) as (H1 & H2 & H3). split; [|split].
    + destruct H1 as [H1|H1]; auto. rewrite H1. destruct (Z.max_spec m a) as [[_ ->]|[_ ->]]; auto.
    + lia.
    + intros v [<-|Hv]; auto. lia.
Qed.

Lemma image_min_ok t g : wf g -> g_sub g = false -> 0 < g_width g -> 0 < g_height g ->
  (forall x y v, pixel g x y = Some v -> ity_min t <= v <= ity_max t) ->
  exists m, image_min t g = Ok m /\ (exists x y, pixel g x y = Some m) /\ forall x y v, pixel g x y = Some v -> m <= v.
Proof.
  intros Hg Hs Hw Hh HP. unfold image_min, image_extreme. rewrite scan_flat_ok, mfold_min by auto. eexists. split; auto.
  destruct (fold_min_spec (all_pixels g) (ity_max t)) as (H1 & H2 & H3). split.
  - destruct H1 as [H1|H1]; [|now apply all_pixels_In].
    destruct (pixel_exists g 0 0 Hg) as (v & E); [split; lia|]. exists 0, 0. rewrite E. f_equal.
    assert (In v (all_pixels g)) as Hv by (apply all_pixels_In; eauto). specialize (H3 v Hv). apply HP in E. lia.
  - intros x y v E. apply H3. apply all_pixels_In; eauto.
Qed.
Lemma image_max_ok t g : wf g -> g_sub g = false -> 0 < g_width g -> 0 < g_height g ->
  (forall x y v, pixel g x y = Some v -> ity_min t <= v <= ity_max t) ->
  exists m, image_max t g = Ok m /\ (exists x y, pixel g x y = Some m) /\ forall x y v, pixel g x y = Some v -> v <= m.
Proof.
  intros Hg Hs Hw Hh HP. unfold image_max, image_extreme. rewrite scan_flat_ok, mfold_max by auto. eexists. split; auto.
  destruct (fold_max_spec (all_pixels g) (ity_min t)) as (H1 & H2 & H3). split.
  - destruct H1 as [H1|H1]; [|now apply all_pixels_In].
    destruct (pixel_exists g 0 0 Hg) as (v & E); [split; lia|]. exists 0, 0. rewrite E. f_equal.
    assert (In v (all_pixels g)) as Hv by (apply all_pixels_In; eauto). specialize (H3 v Hv). apply HP in E. lia.
  - intros x y v E. apply H3. apply all_pixels_In; eauto.
Qed.

(** ** Histogram *)
Lemma zcount_app v l k : zcount v (l ++ k) = zcount v l + zcount v k.
Proof. induction l as [|a l IH]; cbn; lia. Qed.
Lemma zcount_range v l : 0 <= zcount v l <= zlen l.
Proof. induction l as [|a l IH]; [cbn; unfold zlen; cbn; lia|]. rewrite zlen_cons. cbn. destruct (a =? v); lia. Qed.

Lemma histogram_ok t g mn h : wf g -> ga_size h <= zlen (ga_data h) -> 0 <= ga_size h < 2147483648 ->
  (forall x y v, pixel g x y = Some v -> 0 <= v - mn < ga_size h) ->
  exists h', image_histogram t g mn h = Ok h' /\ ga_size h' = ga_size h /\
    forall i, 0 <= i < ga_size h -> ga_at h' i = Ok (zcount (mn + i) (all_pixels g)).
Proof.
  intros Hg Hs Hb HP. unfold image_histogram, ga_fill. replace (ga_size h <=? zlen (ga_data h)) with true by lia.
  cbn [bind]. rewrite scan_window_ok by auto.
  set (h0 := mkGA _ _ _ _ _).
  set (Inv := fun (k : list Z) (h' : growarr Z) => ga_size h' = ga_size h /\ zlen (ga_data h') = zlen (ga_data h) /\
     forall i, 0 <= i < ga_size h -> znth (ga_data h') i = Some (Some (u32 (zcount (mn + i) k)))).
  destruct (mfold_inv Inv (fun v h => let* i := arith_result (promote t) (v - mn) in ga_inc h (u32 i)) (all_pixels g) [] h0)
    as (h' & E & I1 & I2 & I3).
  - unfold Inv, h0. cbn [ga_size ga_data]. split; auto. split.
    + rewrite zlen_app, zlen_repeat. unfold zlen in *. rewrite skipn_length. lia.
    + intros i Hi. rewrite znth_app_l by (rewrite zlen_repeat; lia). rewrite znth_repeat by lia. reflexivity.
  - intros v k h1 Hv (J1 & J2 & J3). apply all_pixels_In in Hv as (x & y & E). apply HP in E.
    assert (EA : arith_result (promote t) (v - mn) = Ok (v - mn)).
    { apply arith_result_in. destruct t; cbn; lia. }
    rewrite EA. cbn [bind]. rewrite u32_id by lia. unfold ga_inc, ga_idx. rewrite J3 by lia. cbn [bind].
    destruct (bset_exists (ga_data h1) (v - mn) (Some (u32 (u32 (zcount (mn + (v - mn)) k) + 1)))) as (d & Ed & Ld & Gd); [lia|].
    rewrite Ed. cbn [bind]. eexists. split; [reflexivity|]. unfold Inv. cbn [ga_size ga_data]. split; auto. split; [lia|].
    intros i Hi. rewrite Gd. rewrite zcount_app. cbn [zcount]. destruct (Z.eqb_spec i (v - mn)) as [->|N].
    + rewrite u32_add_l. replace (v =? mn + (v - mn)) with true by lia. do 3 f_equal.
    + replace (v =? mn + i) with false by lia. rewrite J3 by lia. do 3 f_equal. lia.
  - exists h'. cbn [app] in *. split; auto. split; auto. intros i Hi. unfold ga_at. rewrite I1.
    replace (ga_size h <=? i) with false by lia. rewrite I3 by lia. f_equal. apply u32_id.
    pose proof (zcount_range (mn + i) (all_pixels g)). rewrite all_pixels_len in H by auto.
    pose proof (wf_total_small g Hg). lia.
Qed.

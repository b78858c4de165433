(** Lemmas about separable convolution. *)
From Verif Require Import BaseFacts M_Image S_Image L_Image M_Border S_Border L_Border M_Convolve S_Convolve L_ConvolveInt S_Separable.
Open Scope Z_scope.

(** ** Sums *)
Lemma zdot_app a c f i : zdot (a ++ c) f i = zdot a f i + zdot c f (i + zlen a).
Proof.
  revert i. induction a as [|x a IH]; intros i; cbn [app zdot].
  - unfold zlen; cbn. now rewrite Z.add_0_r.
  - rewrite IH, zlen_cons. replace (i + 1 + zlen a) with (i + (1 + zlen a)) by lia. lia.
Qed.
Lemma zdot_ext ks f f' i i' : (forall j, 0 <= j < zlen ks -> f (i + j) = f' (i' + j)) -> zdot ks f i = zdot ks f' i'.
Proof.
  revert i i'. induction ks as [|c ks IH]; intros i i' H; cbn [zdot]; auto. rewrite zlen_cons in H. pose proof (zlen_nonneg ks).
  pose proof (H 0 ltac:(lia)) as Hz. rewrite !Z.add_0_r in Hz. rewrite Hz. f_equal. apply IH. intros j Hj.
  replace (i + 1 + j) with (i + (j + 1)) by lia. replace (i' + 1 + j) with (i' + (j + 1)) by lia. apply H. lia.
Qed.
Lemma zdot_zero ks i : zdot ks (fun _ => 0) i = 0.
Proof. revert i. induction ks; intros; cbn [zdot]; auto. rewrite IHks. lia. Qed.
Lemma zdot_scale c ks f i : zdot (map (Z.mul c) ks) f i = c * zdot ks f i.
Proof. revert i. induction ks as [|k ks IH]; intros; cbn [map zdot]; [lia|]. rewrite IH. lia. Qed.
Lemma zdot_bound ks f M i : 0 <= M -> (forall j, Z.abs (f j) <= M) -> Z.abs (zdot ks f i) <= zabs_sum ks * M.
Proof.
  intros HM H. revert i. induction ks as [|c ks IH]; intros i; cbn [zdot zabs_sum]; [lia|]. specialize (IH (i + 1)). specialize (H i).
  assert (Z.abs (c * f i) <= Z.abs c * M) by (rewrite Z.abs_mul; nia). lia.
Qed.
Lemma zlen_product kh kv : zlen (concat (map (fun c : Z => map (Z.mul c) kh) kv)) = zlen kv * zlen kh.
Proof.
  induction kv as [|c kv IH]; cbn [map concat]; [reflexivity|]. rewrite zlen_app, IH, zlen_cons.
  replace (zlen (map (Z.mul c) kh)) with (zlen kh) by (unfold zlen; now rewrite map_length). lia.
Qed.
Lemma zabs_app a c : zabs_sum (a ++ c) = zabs_sum a + zabs_sum c.
Proof. induction a; cbn [app zabs_sum]; lia. Qed.
Lemma zabs_scale c ks : zabs_sum (map (Z.mul c) ks) = Z.abs c * zabs_sum ks.
Proof. induction ks; cbn [map zabs_sum]; [lia|]. rewrite IHks, Z.abs_mul. lia. Qed.
Lemma zabs_product kh kv : zabs_sum (concat (map (fun c : Z => map (Z.mul c) kh) kv)) = zabs_sum kv * zabs_sum kh.
Proof. induction kv as [|c kv IH]; cbn [map concat zabs_sum]; [reflexivity|]. rewrite zabs_app, IH, zabs_scale. lia. Qed.

Lemma zdot_product kh kv (f : Z -> Z -> Z) : 0 < zlen kh -> forall m,
  zdot (concat (map (fun c : Z => map (Z.mul c) kh) kv)) (fun p => f (p mod zlen kh) (p / zlen kh)) (m * zlen kh) =
  zdot kv (fun j => zdot kh (fun i => f i j) 0) m.
Proof.
  intros H. induction kv as [|c kv IH]; intros m; cbn [map concat zdot]; auto.
  rewrite zdot_app, zdot_scale. replace (zlen (map (Z.mul c) kh)) with (zlen kh) by (unfold zlen; now rewrite map_length).
  replace (m * zlen kh + zlen kh) with ((m + 1) * zlen kh) by lia. rewrite IH. f_equal. f_equal. apply zdot_ext. intros j Hj.
  rewrite Z.add_comm, Z.mod_add, Z.div_add, Z.mod_small, Z.div_small by lia. f_equal; lia.
Qed.

(** ** The extension of a function on the rectangle *)
Definition spread (b : border Z) (w h : Z) (Q : Z -> Z -> Z) (x y : Z) : Z :=
  match b with
  | BValue v => if (0 <=? x) && (x <? w) && (0 <=? y) && (y <? h) then Q x y else v
  | BExtend => Q (nearest w x) (nearest h y)
  | BReflect => Q (mirrored w x) (mirrored h y)
  | BWrap => Q (periodic w x) (periodic h y)
  end.

Lemma extended_spread b g Q x y : 0 < g_width g -> 0 < g_height g -> (forall x y, inside g x y -> pixel g x y = Some (Q x y)) ->
  extended b g x y = Some (spread b (g_width g) (g_height g) Q x y).
Proof.
  intros Hw Hh H. destruct b; cbn.
  - destruct (_ && _ && _ && _) eqn:E; auto. apply H. split; lia.
  - apply H. split; now apply nearest_range.
  - apply H. split; now apply mirrored_range.
  - apply H. split; now apply periodic_range.
Qed.
Lemma spread_bound b w h Q M x y : 0 < w -> 0 < h -> 0 <= M -> border_by_lines b ->
  (forall x y, 0 <= x < w -> 0 <= y < h -> Z.abs (Q x y) <= M) -> Z.abs (spread b w h Q x y) <= M.
Proof.
  intros Hw Hh HM B H. destruct b; cbn in *.
  - subst. destruct (_ && _ && _ && _) eqn:E; [apply H; lia|cbn; lia].
  - apply H; now apply nearest_range.
  - apply H; now apply mirrored_range.
  - apply H; now apply periodic_range.
Qed.
Lemma spread_line b w h Q ks off x y : 0 < w -> 0 < h -> border_by_lines b -> 0 <= x < w ->
  spread b w h (fun x y => zdot ks (fun i => spread b w h Q (x - off + i) y) 0) x y = zdot ks (fun i => spread b w h Q (x - off + i) y) 0.
Proof.
  intros Hw Hh B Hx. destruct b; cbn in *.
  - subst. destruct (_ && _ && _ && _) eqn:E; auto. rewrite <- (zdot_zero ks 0) at 1. apply zdot_ext. intros j _.
    destruct ((0 <=? x - off + (0 + j)) && (x - off + (0 + j) <? w) && (0 <=? y) && (y <? h)) eqn:E'; auto. exfalso. lia.
  - rewrite nearest_in by auto. apply zdot_ext. intros j _. f_equal. apply nearest_in. now apply nearest_range.
  - rewrite mirrored_in by auto. apply zdot_ext. intros j _. f_equal. apply mirrored_in. now apply mirrored_range.
  - rewrite periodic_in by auto. apply zdot_ext. intros j _. f_equal. apply periodic_in. now apply periodic_range.
Qed.

(** ** Two passes and one *)
Lemma separable t r kh kv b (g tmp out out2 : gray Z) M :
  signed_type t = S32 -> wf g -> wf tmp -> wf out -> wf out2 -> 0 < g_width g <= 1073741824 -> 0 < g_height g <= 1073741824 ->
  g_sub tmp = false \/ (g_width tmp = g_width g /\ g_height tmp = g_height g) ->
  g_sub out = false \/ (g_width out = g_width g /\ g_height out = g_height g) ->
  g_sub out2 = false \/ (g_width out2 = g_width g /\ g_height out2 = g_height g) ->
  kernel1_ok kh -> kernel1_ok kv -> k_width kv = k_width kh -> k_offset kv = k_offset kh -> k_width kh < 65536 ->
  border_by_lines b -> fits b (g_width g) kh -> fits b (g_height g) kv ->
  0 <= M -> (forall x y v, pixel g x y = Some v -> Z.abs v <= M) ->
  zabs_sum (k_data kh) * M <= 2147483647 -> zabs_sum (k_data kv) * (zabs_sum (k_data kh) * M) <= 2147483647 ->
  exists tmp' out' out2', convolve_h (int_arith t S32) 0 kh b g tmp = Ok tmp' /\
    convolve_v (int_arith S32 r) 0 kv b tmp' out = Ok out' /\
    convolve_2 (int_arith t r) 0 (product_kernel kh kv) b g out2 = Ok out2' /\
    g_width out' = g_width g /\ g_height out' = g_height g /\ g_width out2' = g_width g /\ g_height out2' = g_height g /\
    forall x y, inside g x y -> exists v, pixel out' x y = Some v /\ pixel out2' x y = Some v.
Proof.
  intros Ht Wg Wt Wo Wo2 Hw Hh St So So2 Hkh Hkv Ew Eo Kw Hb Fh Fv HM HP HS1 HS2.
  set (w := g_width g) in *. set (h := g_height g) in *. set (off := k_offset kh) in *.
  set (Q := fun x y => match pixel g x y with Some v => v | None => 0 end).
  assert (HQ : forall x y, inside g x y -> pixel g x y = Some (Q x y)).
  { intros x y I. unfold Q. destruct (pixel_exists g x y Wg I) as [v ->]. reflexivity. }
  assert (BQ : forall x y, Z.abs (Q x y) <= M).
  { intros x y. unfold Q. destruct (pixel g x y) eqn:E; [eapply HP; eauto|cbn; lia]. }
  set (P := spread b w h Q).
  assert (EP : forall x y, extended b g x y = Some (P x y) /\ Z.abs (P x y) <= M).
  { intros x y. split; [apply extended_spread; auto; lia|]. apply spread_bound; auto; lia. }
  destruct (convolve_h_int t S32 0 kh b g tmp P M) as (tmp1 & tmp' & E1 & E2 & Hd); auto; try lia.
  { now rewrite Ht. }
  destruct Hd as (Dw & Dh & Dl & Dp & _). fold w in Dw. fold h in Dh.
  set (Q1 := fun x y => zdot (k_data kh) (fun i => P (x - off + i) y) 0).
  set (M1 := zabs_sum (k_data kh) * M) in *.
  assert (HM1 : 0 <= M1) by (pose proof (zabs_sum_nonneg (k_data kh)); unfold M1; nia).
  assert (BQ1 : forall x y, Z.abs (Q1 x y) <= M1) by (intros; apply zdot_bound; auto; intros; apply EP).
  assert (Wt' : wf tmp').
  { eapply wf_layout; [exact Dl|]. destruct Wg as (W1 & W2 & W3 & W4 & W5 & W6 & W7). eapply gray_reshape_wf; [exact Wt| | | |exact E1]; unfold w, h in *; nia. }
  assert (HQ1 : forall x y, inside tmp' x y -> pixel tmp' x y = Some (Q1 x y)).
  { intros x y [I1 I2]. rewrite Dw in I1. rewrite Dh in I2. rewrite Dp by (split; auto). f_equal. apply cast_id. specialize (BQ1 x y). cbn. unfold Q1, P in *. lia. }
  assert (EP1 : forall x y, extended b tmp' x y = Some (spread b w h Q1 x y) /\ Z.abs (spread b w h Q1 x y) <= M1).
  { intros x y. rewrite (extended_spread b tmp' Q1) by (auto; lia). rewrite Dw, Dh. split; auto. apply spread_bound; auto; lia. }
  destruct (convolve_v_int S32 r 0 kv b tmp' out (spread b w h Q1) M1) as (o1 & out' & E3 & E4 & He); auto; try lia.
  { now rewrite Dw, Dh. } { now rewrite Dh. }
  destruct He as (Xw & Xh & _ & Xp & _).
  assert (Kl : zlen (k_data (product_kernel kh kv)) = k_width kh * k_width kh).
  { cbn. rewrite zlen_product. destruct Hkh as (_ & _ & ->). destruct Hkv as (_ & _ & ->). lia. }
  destruct (convolve_2_int t r 0 (product_kernel kh kv) b g out2 P M) as (o2 & out2' & E5 & E6 & Hf); auto; try lia.
  { cbn [product_kernel k_data]. rewrite zabs_product, Ht. unfold M1 in HS2. rewrite <- Z.mul_assoc. exact HS2. }
  { split; [apply Hkh|]. split; [exact Kw|exact Kl]. }
  { unfold fits in *. destruct b; auto; cbn in *; rewrite Ew, Eo in Fv; auto. }
  destruct Hf as (Yw & Yh & _ & Yp & _).
  exists tmp', out', out2'. split; auto. split; auto. split; auto. split; [congruence|]. split; [congruence|]. split; auto. split; auto.
  intros x y I. eexists. split.
  - apply Xp. destruct I. split; lia.
  - rewrite Yp by auto. do 2 f_equal. cbn [product_kernel k_data k_width k_offset].
    pose proof (zdot_product (k_data kh) (k_data kv) (fun i j => P (x - off + i) (y - off + j))) as Z.
    destruct Hkh as (K1 & K2 & K3). rewrite K3 in Z. specialize (Z ltac:(lia) 0). rewrite Z.mul_0_l in Z. fold off. rewrite Z.
    apply zdot_ext. intros j _. cbv beta. rewrite !Z.add_0_l, Eo. fold off. destruct I as [I1 I2]. symmetry.
    apply (spread_line b w h Q (k_data kh) off x (y - off + j)); auto; lia.
Qed.

(** ** Columns first *)
Lemma zdot_add ks f f' i : zdot ks (fun j => f j + f' j) i = zdot ks f i + zdot ks f' i.
Proof. revert i. induction ks; intros; cbn [zdot]; auto. rewrite IHks. lia. Qed.
Lemma zdot_mul ks c f i : zdot ks (fun j => c * f j) i = c * zdot ks f i.
Proof. revert i. induction ks; intros; cbn [zdot]; [lia|]. rewrite IHks. lia. Qed.
Lemma zdot_swap ks ls (f : Z -> Z -> Z) i j : zdot ks (fun a => zdot ls (f a) j) i = zdot ls (fun c => zdot ks (fun a => f a c) i) j.
Proof.
  revert j. induction ls as [|l ls IH]; intros j; cbn [zdot]; [apply zdot_zero|].
  rewrite <- IH, <- zdot_mul, <- zdot_add. apply zdot_ext. intros k _. reflexivity.
Qed.
Lemma spread_column b w h Q ks off x y : 0 < w -> 0 < h -> border_by_lines b -> 0 <= y < h ->
  spread b w h (fun x y => zdot ks (fun i => spread b w h Q x (y - off + i)) 0) x y = zdot ks (fun i => spread b w h Q x (y - off + i)) 0.
Proof.
  intros Hw Hh B Hx. destruct b; cbn in *.
  - subst. destruct (_ && _ && _ && _) eqn:E; auto. rewrite <- (zdot_zero ks 0) at 1. apply zdot_ext. intros j _.
    destruct ((0 <=? x) && (x <? w) && (0 <=? y - off + (0 + j)) && (y - off + (0 + j) <? h)) eqn:E2; auto. exfalso. lia.
  - rewrite (nearest_in h y) by auto. apply zdot_ext. intros j _. f_equal. apply nearest_in. now apply nearest_range.
  - rewrite (mirrored_in h y) by auto. apply zdot_ext. intros j _. f_equal. apply mirrored_in. now apply mirrored_range.
  - rewrite (periodic_in h y) by auto. apply zdot_ext. intros j _. f_equal. apply periodic_in. now apply periodic_range.
Qed.

Lemma separable_columns t r kh kv b (g tmp out out2 : gray Z) M :
  signed_type t = S32 -> wf g -> wf tmp -> wf out -> wf out2 -> 0 < g_width g <= 1073741824 -> 0 < g_height g <= 1073741824 ->
  g_sub tmp = false \/ (g_width tmp = g_width g /\ g_height tmp = g_height g) ->
  g_sub out = false \/ (g_width out = g_width g /\ g_height out = g_height g) ->
  g_sub out2 = false \/ (g_width out2 = g_width g /\ g_height out2 = g_height g) ->
  kernel1_ok kh -> kernel1_ok kv -> k_width kv = k_width kh -> k_offset kv = k_offset kh -> k_width kh < 65536 ->
  border_by_lines b -> fits b (g_width g) kh -> fits b (g_height g) kv ->
  0 <= M -> (forall x y v, pixel g x y = Some v -> Z.abs v <= M) ->
  zabs_sum (k_data kv) * M <= 2147483647 -> zabs_sum (k_data kh) * (zabs_sum (k_data kv) * M) <= 2147483647 ->
  exists tmp' out' out2', convolve_v (int_arith t S32) 0 kv b g tmp = Ok tmp' /\
    convolve_h (int_arith S32 r) 0 kh b tmp' out = Ok out' /\
    convolve_2 (int_arith t r) 0 (product_kernel kh kv) b g out2 = Ok out2' /\
    g_width out' = g_width g /\ g_height out' = g_height g /\ g_width out2' = g_width g /\ g_height out2' = g_height g /\
    forall x y, inside g x y -> exists v, pixel out' x y = Some v /\ pixel out2' x y = Some v.
Proof.
  intros Ht Wg Wt Wo Wo2 Hw Hh St So So2 Hkh Hkv Ew Eo Kw Hb Fh Fv HM HP HS1 HS2.
  set (w := g_width g) in *. set (h := g_height g) in *. set (off := k_offset kh) in *.
  set (Q := fun x y => match pixel g x y with Some v => v | None => 0 end).
  assert (HQ : forall x y, inside g x y -> pixel g x y = Some (Q x y)).
  { intros x y I. unfold Q. destruct (pixel_exists g x y Wg I) as [v ->]. reflexivity. }
  assert (BQ : forall x y, Z.abs (Q x y) <= M).
  { intros x y. unfold Q. destruct (pixel g x y) eqn:E; [eapply HP; eauto|cbn; lia]. }
  set (P := spread b w h Q).
  assert (EP : forall x y, extended b g x y = Some (P x y) /\ Z.abs (P x y) <= M).
  { intros x y. split; [apply extended_spread; auto; lia|]. apply spread_bound; auto; lia. }
  destruct (convolve_v_int t S32 0 kv b g tmp P M) as (tmp1 & tmp' & E1 & E2 & Hd); auto; try lia.
  { now rewrite Ht. }
  destruct Hd as (Dw & Dh & Dl & Dp & _). fold w in Dw. fold h in Dh. rewrite Eo in Dp. fold off in Dp.
  set (Q1 := fun x y => zdot (k_data kv) (fun i => P x (y - off + i)) 0).
  set (M1 := zabs_sum (k_data kv) * M) in *.
  assert (HM1 : 0 <= M1) by (pose proof (zabs_sum_nonneg (k_data kv)); unfold M1; nia).
  assert (BQ1 : forall x y, Z.abs (Q1 x y) <= M1) by (intros; apply zdot_bound; auto; intros; apply EP).
  assert (Wt' : wf tmp').
  { eapply wf_layout; [exact Dl|]. destruct Wg as (W1 & W2 & W3 & W4 & W5 & W6 & W7). eapply gray_reshape_wf; [exact Wt| | | |exact E1]; unfold w, h in *; nia. }
  assert (HQ1 : forall x y, inside tmp' x y -> pixel tmp' x y = Some (Q1 x y)).
  { intros x y [I1 I2]. rewrite Dw in I1. rewrite Dh in I2. rewrite Dp by (split; auto). f_equal. apply cast_id. specialize (BQ1 x y). cbn. unfold Q1, P in *. lia. }
  assert (EP1 : forall x y, extended b tmp' x y = Some (spread b w h Q1 x y) /\ Z.abs (spread b w h Q1 x y) <= M1).
  { intros x y. rewrite (extended_spread b tmp' Q1) by (auto; lia). rewrite Dw, Dh. split; auto. apply spread_bound; auto; lia. }
  destruct (convolve_h_int S32 r 0 kh b tmp' out (spread b w h Q1) M1) as (o1 & out' & E3 & E4 & He); auto; try lia.
  { now rewrite Dw, Dh. } { now rewrite Dw. }
  destruct He as (Xw & Xh & _ & Xp & _).
  assert (Kl : zlen (k_data (product_kernel kh kv)) = k_width kh * k_width kh).
  { cbn. rewrite zlen_product. destruct Hkh as (_ & _ & ->). destruct Hkv as (_ & _ & ->). lia. }
  destruct (convolve_2_int t r 0 (product_kernel kh kv) b g out2 P M) as (o2 & out2' & E5 & E6 & Hf); auto; try lia.
  { cbn [product_kernel k_data]. rewrite zabs_product, Ht. unfold M1 in HS2. cbn [ity_max]. nia. }
  { split; [apply Hkh|]. split; [exact Kw|exact Kl]. }
  { unfold fits in *. destruct b; auto; cbn in *; rewrite Ew, Eo in Fv; auto. }
  destruct Hf as (Yw & Yh & _ & Yp & _).
  exists tmp', out', out2'. split; auto. split; auto. split; auto. split; [congruence|]. split; [congruence|]. split; auto. split; auto.
  intros x y I. eexists. split.
  - apply Xp. destruct I. split; lia.
  - rewrite Yp by auto. do 2 f_equal. cbn [product_kernel k_data k_width k_offset].
    pose proof (zdot_product (k_data kh) (k_data kv) (fun i j => P (x - off + i) (y - off + j))) as Z.
    destruct Hkh as (K1 & K2 & K3). rewrite K3 in Z. specialize (Z ltac:(lia) 0). rewrite Z.mul_0_l in Z. fold off. rewrite Z.
    rewrite zdot_swap.
    apply zdot_ext. intros j _. cbv beta. rewrite !Z.add_0_l. fold off. destruct I as [I1 I2]. symmetry.
    apply (spread_column b w h Q (k_data kv) off (x - off + j) y); auto; lia.
Qed.

(** Lemmas about statistics that do not depend on where the pixels are. *)
From Coq Require Import Lia Permutation Floats.SpecFloat.
From Verif Require Import Base BaseFacts M_Image S_Image L_Image M_GrowArray M_Blur S_Blur M_Float M_Stats S_Stats L_Stats S_Symmetry S_Brightness L_Brightness S_Places.
Open Scope Z_scope.

(** ** Lists *)
Lemma zcount_occ v l : zcount v l = Z.of_nat (count_occ Z.eq_dec l v).
Proof. induction l as [|a l IH]; cbn [zcount count_occ]; auto. rewrite IH. destruct (Z.eqb_spec a v), (Z.eq_dec a v); try congruence; lia. Qed.
Lemma counts_perm k l m : (forall v, zcount (v + k) m = zcount v l) -> Permutation m (map (fun a => a + k) l).
Proof.
  intros H. apply (Permutation_count_occ Z.eq_dec). intros x. apply Nat2Z.inj. rewrite <- !zcount_occ. replace x with (x - k + k) by lia. rewrite H. symmetry. apply zcount_map.
Qed.
Lemma zsum_perm l m : Permutation l m -> zsum l = zsum m.
Proof. unfold zsum. induction 1; cbn [fold_right]; lia. Qed.
Lemma zsum_shift k l : zsum (map (fun a => a + k) l) = zsum l + k * zlen l.
Proof. unfold zsum, zlen. induction l as [|a l IH]; cbn [map fold_right length]; lia. Qed.
Lemma zlen_perm {A} (l m : list A) : Permutation l m -> zlen l = zlen m.
Proof. intros H. unfold zlen. now rewrite (Permutation_length H). Qed.

(** Sums by value. *)
Lemma single (w : Z -> Z) a mn n : zsum (map (fun i => w (mn + i) * (if a =? mn + i then 1 else 0)) (zrange (Z.of_nat n))) =
  if (mn <=? a) && (a <? mn + Z.of_nat n) then w a else 0.
Proof.
  induction n as [|n IH].
  - cbn [Z.of_nat]. change (zrange 0) with (@nil Z). cbn [map]. unfold zsum. cbn [fold_right]. rewrite Z.add_0_r. destruct (Z.leb_spec mn a), (Z.ltb_spec a mn); cbn [andb]; auto; lia.
  - rewrite Nat2Z.inj_succ. unfold Z.succ. rewrite zrange_S, map_app, zsum_app, IH by lia. cbn [map]. unfold zsum at 1. cbn [fold_right].
    destruct (Z.eqb_spec a (mn + Z.of_nat n)) as [->|N].
    + destruct (Z.leb_spec mn (mn + Z.of_nat n)), (Z.ltb_spec (mn + Z.of_nat n) (mn + Z.of_nat n)), (Z.ltb_spec (mn + Z.of_nat n) (mn + (Z.of_nat n + 1))); cbn [andb]; lia.
    + destruct (Z.leb_spec mn a), (Z.ltb_spec a (mn + Z.of_nat n)), (Z.ltb_spec a (mn + (Z.of_nat n + 1))); cbn [andb]; lia.
Qed.
Lemma zsum_plus {A} (f k : A -> Z) l : zsum (map (fun a => f a + k a) l) = zsum (map f l) + zsum (map k l).
Proof. unfold zsum. induction l as [|a l IH]; cbn [map fold_right]; lia. Qed.
Lemma by_value (w : Z -> Z) mn n l : 0 <= n -> (forall a, In a l -> 0 <= a - mn < n) ->
  zsum (map (fun i => w (mn + i) * zcount (mn + i) l) (zrange n)) = zsum (map w l).
Proof.
  intros N. induction l as [|a l IH]; intros H.
  - cbn [zcount map]. unfold zsum. cbn [fold_right]. induction (zrange n); cbn [map fold_right]; lia.
  - cbn [map]. change (zsum (w a :: map w l)) with (w a + zsum (map w l)). rewrite <- IH by (intros; apply H; now right).
    rewrite (map_ext _ (fun i => w (mn + i) * (if a =? mn + i then 1 else 0) + w (mn + i) * zcount (mn + i) l)) by (intros i; cbn [zcount]; lia).
    rewrite zsum_plus. f_equal. replace n with (Z.of_nat (Z.to_nat n)) by lia. rewrite single.
    specialize (H a (or_introl eq_refl)). destruct (Z.leb_spec mn a), (Z.ltb_spec a (mn + Z.of_nat (Z.to_nat n))); cbn [andb]; auto; lia.
Qed.
Lemma zsum_one {A} (l : list A) : zsum (map (fun _ => 1) l) = zlen l.
Proof. unfold zsum, zlen. induction l as [|a l IH]; cbn [map fold_right length]; lia. Qed.

(** ** Images with the same counts *)
Section Counts.
Variables (t : ity) (k : Z) (g h : gray Z).
Hypothesis Wg : wf g.
Hypothesis Wh : wf h.
Hypothesis C : same_counts k g h.
Lemma places_perm : Permutation (all_pixels h) (map (fun a => a + k) (all_pixels g)).
Proof. now apply counts_perm. Qed.
Lemma places_len : g_width h * g_height h = g_width g * g_height g.
Proof. rewrite <- !all_pixels_len by auto. rewrite (zlen_perm _ _ places_perm). unfold zlen. now rewrite map_length. Qed.
Lemma places_pixel v : (exists x y, pixel h x y = Some (v + k)) <-> exists x y, pixel g x y = Some v.
Proof.
  rewrite <- !all_pixels_In by auto. split; intros I.
  - apply (Permutation_in _ places_perm) in I. apply in_map_iff in I as (a & E & I). now replace v with a by lia.
  - apply (Permutation_in _ (Permutation_sym places_perm)). apply in_map_iff. now exists v.
Qed.
Lemma places_sum M1 M2 : summable t M1 g -> summable t M2 h -> exists s, image_sum t g = Ok s /\ image_sum t h = Ok (s + k * (g_width g * g_height g)).
Proof.
  intros (P1 & V1 & S1) (P2 & V2 & S2). exists (zsum (all_pixels g)). split; [now apply (image_sum_ok t g M1)|].
  rewrite (image_sum_ok t h M2) by auto. f_equal. rewrite (zsum_perm _ _ places_perm), zsum_shift, all_pixels_len by auto. reflexivity.
Qed.
Lemma places_mean M1 M2 : summable t M1 g -> summable t M2 h -> 0 < g_width g -> 0 < g_height g -> 0 < g_width h -> 0 < g_height h ->
  (forall x y v, pixel g x y = Some v -> 0 <= v) -> (forall x y v, pixel h x y = Some v -> 0 <= v) ->
  exists m, image_mean t g = Ok m /\ image_mean t h = Ok (m + k).
Proof.
  intros (P1 & V1 & S1) (P2 & V2 & S2) Hw Hh Hw2 Hh2 N1 N2.
  assert (Q : forall l, (forall v, In v l -> 0 <= v) -> 0 <= zsum l). { unfold zsum. induction l as [|a l IH]; cbn [fold_right]; intros H; [lia|]. pose proof (H a (or_introl eq_refl)). specialize (IH (fun v I => H v (or_intror I))). lia. }
  assert (Q1 : 0 <= zsum (all_pixels g)). { apply Q. intros v I. apply all_pixels_In in I as (x & y & E); auto. eauto. }
  assert (Q2 : 0 <= zsum (all_pixels h)). { apply Q. intros v I. apply all_pixels_In in I as (x & y & E); auto. eauto. }
  exists (Z.quot (zsum (all_pixels g)) (g_width g * g_height g)). split; [now apply (image_mean_ok t g M1); auto|].
  rewrite (image_mean_ok t h M2) by auto. f_equal. rewrite places_len. revert Q2. rewrite (zsum_perm _ _ places_perm), zsum_shift, all_pixels_len by auto. intros Q2.
  rewrite !Z.quot_div_nonneg by nia. now rewrite Z.div_add by nia.
Qed.
Lemma places_extremes : g_sub g = false -> g_sub h = false -> 0 < g_width g -> 0 < g_height g -> 0 < g_width h -> 0 < g_height h ->
  (forall x y v, pixel g x y = Some v -> ity_min t <= v <= ity_max t) -> (forall x y v, pixel h x y = Some v -> ity_min t <= v <= ity_max t) ->
  exists a b, image_min t g = Ok a /\ image_max t g = Ok b /\ image_min t h = Ok (a + k) /\ image_max t h = Ok (b + k).
Proof.
  intros S1 S2 Hw Hh Hw2 Hh2 R1 R2. destruct (image_min_ok t g Wg S1 Hw Hh R1) as (a & Ea & Ia & La). destruct (image_max_ok t g Wg S1 Hw Hh R1) as (b & Eb & Ib & Lb).
  destruct (image_min_ok t h Wh S2 Hw2 Hh2 R2) as (a' & Ea' & Ia' & La'). destruct (image_max_ok t h Wh S2 Hw2 Hh2 R2) as (b' & Eb' & Ib' & Lb').
  exists a, b. split; auto. split; auto. rewrite Ea', Eb'.
  assert (X : forall v, (exists x y, pixel h x y = Some v) -> exists x y, pixel g x y = Some (v - k)) by (intros v I; apply places_pixel; now replace (v - k + k) with v by lia).
  destruct (X _ Ia') as (x1 & y1 & X1). destruct (X _ Ib') as (x2 & y2 & X2). destruct (proj2 (places_pixel a) Ia) as (x3 & y3 & X3). destruct (proj2 (places_pixel b) Ib) as (x4 & y4 & X4).
  apply La in X1. apply Lb in X2. apply La' in X3. apply Lb' in X4. split; f_equal; lia.
Qed.
Lemma places_histogram mn hg hh : bins_for g mn hg -> bins_for h (mn + k) hh -> ga_size hg = ga_size hh ->
  exists rg rh, image_histogram t g mn hg = Ok rg /\ image_histogram t h (mn + k) hh = Ok rh /\ forall i, 0 <= i < ga_size hg -> ga_at rg i = ga_at rh i.
Proof.
  intros (L1 & S1 & B1) (L2 & S2 & B2) E. destruct (histogram_ok t g mn hg Wg L1 S1 B1) as (rg & E1 & _ & P1). destruct (histogram_ok t h (mn + k) hh Wh L2 S2 B2) as (rh & E2 & _ & P2).
  exists rg, rh. split; auto. split; auto. intros i I. rewrite P1, P2 by lia. f_equal. replace (mn + k + i) with (mn + i + k) by lia. symmetry. apply C.
Qed.
End Counts.

(** ** What the histogram tells *)
Lemma histogram_tells t g mn h M : wf g -> bins_for g mn h -> summable t M g -> exists r, image_histogram t g mn h = Ok r /\
  zsum (map (bin_of r) (zrange (ga_size h))) = g_width g * g_height g /\
  image_sum t g = Ok (zsum (map (fun i => (mn + i) * bin_of r i) (zrange (ga_size h)))).
Proof.
  intros W (L & S & B) (P & V & Sm). destruct (histogram_ok t g mn h W L S B) as (r & E & _ & R). exists r. split; auto.
  assert (X : forall i, In i (zrange (ga_size h)) -> bin_of r i = zcount (mn + i) (all_pixels g)). { intros i I. apply zrange_In in I. unfold bin_of. now rewrite R. }
  assert (Y : forall a, In a (all_pixels g) -> 0 <= a - mn < ga_size h). { intros a I. apply all_pixels_In in I as (x & y & I); auto. eauto. }
  pose proof (by_value (fun _ => 1) mn (ga_size h) (all_pixels g) (proj1 S) Y) as V1. pose proof (by_value (fun a => a) mn (ga_size h) (all_pixels g) (proj1 S) Y) as V2.
  cbn beta in V1, V2. rewrite zsum_one in V1. rewrite map_id in V2. split.
  - rewrite <- (all_pixels_len g W), <- V1. f_equal. apply map_ext_in. intros i I. rewrite X by auto. lia.
  - rewrite (image_sum_ok t g M) by auto. f_equal. rewrite <- V2. f_equal. apply map_ext_in. intros i I. now rewrite X.
Qed.
Lemma zcount_zero v l : zcount v l = 0 <-> ~ In v l.
Proof.
  rewrite zcount_occ. rewrite (count_occ_not_In Z.eq_dec). lia.
Qed.
Lemma histogram_extremes t g mn h : wf g -> bins_for g mn h -> g_sub g = false -> 0 < g_width g -> 0 < g_height g ->
  (forall x y v, pixel g x y = Some v -> ity_min t <= v <= ity_max t) ->
  exists r a b, image_histogram t g mn h = Ok r /\ image_min t g = Ok (mn + a) /\ image_max t g = Ok (mn + b) /\ 0 <= a <= b /\ b < ga_size h /\
    0 < bin_of r a /\ 0 < bin_of r b /\ forall i, 0 <= i < ga_size h -> i < a \/ b < i -> bin_of r i = 0.
Proof.
  intros W (L & S & B) Sb Hw Hh V. destruct (histogram_ok t g mn h W L S B) as (r & E & _ & R).
  destruct (image_min_ok t g W Sb Hw Hh V) as (a & Ea & (x1 & y1 & Ia) & La). destruct (image_max_ok t g W Sb Hw Hh V) as (b & Eb & (x2 & y2 & Ib) & Lb).
  exists r, (a - mn), (b - mn). replace (mn + (a - mn)) with a by lia. replace (mn + (b - mn)) with b by lia. split; auto. split; auto. split; auto.
  pose proof (B _ _ _ Ia) as Ba. pose proof (B _ _ _ Ib) as Bb. pose proof (Lb _ _ _ Ia) as Lab.
  assert (X : forall i, 0 <= i < ga_size h -> bin_of r i = zcount (mn + i) (all_pixels g)) by (intros i I; unfold bin_of; now rewrite R).
  assert (Y : forall v x y, pixel g x y = Some v -> 0 < zcount v (all_pixels g)).
  { intros v x y I. pose proof (zcount_range v (all_pixels g)). assert (zcount v (all_pixels g) <> 0); [|lia]. rewrite zcount_zero. intros N. apply N. apply all_pixels_In; eauto. }
  split; [lia|]. split; [lia|]. split; [rewrite X by lia; replace (mn + (a - mn)) with a by lia; eauto|]. split; [rewrite X by lia; replace (mn + (b - mn)) with b by lia; eauto|].
  intros i I O. rewrite X by auto. apply zcount_zero. intros J. apply all_pixels_In in J as (x & y & J); auto. pose proof (La _ _ _ J). pose proof (Lb _ _ _ J). lia.
Qed.

(** ** Examples *)
Definition spot (l : list Z) : gray Z := mkGray 3 1 0 3 false l.
Lemma spot_wf l : zlen l = 3 -> wf (spot l).
Proof. intros H. unfold wf, spot. cbn [g_width g_height g_offset g_stride g_data g_sub]. rewrite H. repeat split; try lia; intros; discriminate. Qed.
Lemma spot_pixel a b c x y v : pixel (spot [a; b; c]) x y = Some v -> v = a \/ v = b \/ v = c.
Proof.
  intros E. pose proof (pixel_Some _ _ _ _ E) as N. unfold inside in N. cbn in N. assert (y = 0) as -> by lia.
  assert (x = 0 \/ x = 1 \/ x = 2) as [->|[->| ->]] by lia; cbn in E; injection E as <-; auto.
Qed.
Lemma spot_counts : same_counts 10 (spot [4; 9; 4]) (spot [14; 14; 19]).
Proof.
  intros v. change (all_pixels (spot [14; 14; 19])) with [14; 14; 19]. change (all_pixels (spot [4; 9; 4])) with [4; 9; 4]. cbn [zcount].
  destruct (Z.eqb_spec 14 (v + 10)), (Z.eqb_spec 19 (v + 10)), (Z.eqb_spec 4 v), (Z.eqb_spec 9 v); lia.
Qed.
Lemma overflow_order : exists g h, wf g /\ wf h /\ same_counts 0 g h /\ image_sum S32 g = Undef /\ exists s, image_sum S32 h = Ok s.
Proof.
  exists (spot [2147483647; 1; -1]), (spot [1; -1; 2147483647]). split; [apply spot_wf; reflexivity|]. split; [apply spot_wf; reflexivity|]. split.
  { intros v. change (all_pixels (spot [1; -1; 2147483647])) with [1; -1; 2147483647]. change (all_pixels (spot [2147483647; 1; -1])) with [2147483647; 1; -1].
    rewrite Z.add_0_r. cbn [zcount]. lia. }
  split; [vm_compute; reflexivity|]. eexists. vm_compute. reflexivity.
Qed.
Definition spot_f (l : list Z) : gray spec_float := mkGray 3 1 0 3 false (map (float_of_Z F32) l).
Lemma float_order : exists g h a b, wf g /\ wf h /\ Permutation (all_pixels g) (all_pixels h) /\ float_sum F32 g = Ok a /\ float_sum F32 h = Ok b /\ a <> b.
Proof.
  exists (spot_f [16777216; 1; 1]), (spot_f [1; 1; 16777216]). eexists _, _.
  split; [unfold wf; cbn; repeat split; try lia; intros; discriminate|]. split; [unfold wf; cbn; repeat split; try lia; intros; discriminate|]. split.
  { change (all_pixels (spot_f [16777216; 1; 1])) with (map (float_of_Z F32) [16777216; 1; 1]). change (all_pixels (spot_f [1; 1; 16777216])) with (map (float_of_Z F32) [1; 1; 16777216]).
    apply Permutation_map. apply (Permutation_app_comm [16777216] [1; 1]). }
  split; [vm_compute; reflexivity|]. split; [vm_compute; reflexivity|]. vm_compute. congruence.
Qed.

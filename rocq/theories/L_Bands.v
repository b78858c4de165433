(** Lemmas about averages of bands. *)
From Coq Require Import Lia Permutation.
From Verif Require Import Base BaseFacts M_Image S_Image L_Image L_Inter S_Convolve S_Blur M_Misc S_Stats L_Stats L_Misc L_Places S_Bands.
Open Scope Z_scope.

Lemma average_is t M g out : band_args t M g out -> exists r, convert_average t g out = Ok r /\ g_width r = i_width g /\ g_height r = i_height g /\
  forall x y, in_frame g x y -> pixel r x y = Some (zsum (bands_of g x y) / i_bands g).
Proof.
  intros [Wg Wo B Mp V S Sb].
  assert (V' : forall x y b v, i_pixel g x y b = Some v -> ity_min t <= v <= ity_max t /\ Z.abs v <= M) by (intros x y b v E; apply V in E; lia).
  assert (N : t = S64 \/ (forall x y b v, i_pixel g x y b = Some v -> 0 <= v)) by (right; intros x y b v E; apply V in E; lia).
  destruct (convert_average_ok t g out M Wg Wo B Mp V' S N Sb) as (o & r & Eo & E & Rw & Rh & _ & P & _).
  destruct (convert_reshape t g out M Wg Wo B V' Sb) as (o2 & Eo2 & _ & Ow & Oh). rewrite Eo in Eo2. injection Eo2 as <-.
  exists r. split; auto. split; [congruence|]. split; [congruence|]. intros x y (Hx & Hy). rewrite P by (unfold inside; rewrite Ow, Oh; auto). f_equal.
  apply Z.quot_div_nonneg; [|lia]. assert (Q : forall v, In v (bands_of g x y) -> 0 <= v) by (intros v I; apply bands_In in I as (b & I); apply V in I; lia).
  revert Q. generalize (bands_of g x y). unfold zsum. induction l as [|a l IH]; intros Q; cbn [fold_right]; [lia|].
  pose proof (Q a (or_introl eq_refl)). specialize (IH (fun v I => Q v (or_intror I))). lia.
Qed.
Lemma zsum_bounds l lo hi : (forall v, In v l -> lo <= v <= hi) -> lo * zlen l <= zsum l <= hi * zlen l.
Proof.
  unfold zsum, zlen. induction l as [|a l IH]; intros H; cbn [fold_right length]; [lia|].
  pose proof (H a (or_introl eq_refl)). specialize (IH (fun v I => H v (or_intror I))). lia.
Qed.
Lemma average_between t M g out : band_args t M g out -> exists r, convert_average t g out = Ok r /\
  forall x y lo hi, in_frame g x y -> (forall b v, i_pixel g x y b = Some v -> lo <= v <= hi) -> exists v, pixel r x y = Some v /\ lo <= v <= hi.
Proof.
  intros A. destruct (average_is t M g out A) as (r & E & _ & _ & P). exists r. split; auto. intros x y lo hi F H. eexists. split; [now apply P|].
  destruct A as [Wg _ B _ _ _ _]. destruct F as (Hx & Hy). assert (Q : forall v, In v (bands_of g x y) -> lo <= v <= hi) by (intros v I; apply bands_In in I as (b & I); eauto).
  apply zsum_bounds in Q. rewrite bands_len in Q by auto. split; [apply Z.div_le_lower_bound; lia|]. apply Z.div_le_upper_bound; lia.
Qed.
Lemma flat_sums {A} (f k : A -> list Z) l c : (forall a, In a l -> zsum (f a) + c <= zsum (k a)) -> zsum (flat_map f l) + c * zlen l <= zsum (flat_map k l).
Proof.
  unfold zlen. induction l as [|a l IH]; intros H; cbn [flat_map length]; [unfold zsum; cbn; lia|]. rewrite !zsum_app.
  pose proof (H a (or_introl eq_refl)). specialize (IH (fun v I => H v (or_intror I))). lia.
Qed.
Lemma some_band g x y b : i_wf g -> in_frame g x y -> 0 <= b < i_bands g -> exists v, i_pixel g x y b = Some v.
Proof. intros W (Hx & Hy) Hb. destruct (inter_get_inside g x y b W) as (v & _ & E); [unfold i_inside; auto|]. eauto. Qed.
Lemma average_order t M1 M2 g h out1 out2 : band_args t M1 g out1 -> band_args t M2 h out2 -> same_frame g h ->
  (forall x y b u v, i_pixel g x y b = Some u -> i_pixel h x y b = Some v -> u <= v) ->
  exists r s, convert_average t g out1 = Ok r /\ convert_average t h out2 = Ok s /\
    forall x y, in_frame g x y -> exists u v, pixel r x y = Some u /\ pixel s x y = Some v /\ u <= v.
Proof.
  intros A1 A2 (S1 & S2 & S3) H. destruct (average_is t M1 g out1 A1) as (r & E1 & _ & _ & P1). destruct (average_is t M2 h out2 A2) as (s & E2 & _ & _ & P2).
  exists r, s. split; auto. split; auto. intros x y F. assert (F2 : in_frame h x y) by (unfold in_frame in *; rewrite S1, S2; auto). eexists _, _. split; [now apply P1|]. split; [now apply P2|].
  rewrite S3. apply Z.div_le_mono; [apply A1|]. unfold bands_of. rewrite S3.
  pose proof (flat_sums (fun b => opt_list (i_pixel g x y b)) (fun b => opt_list (i_pixel h x y b)) (zrange (i_bands g)) 0) as X.
  rewrite Z.mul_0_l, Z.add_0_r in X. apply X. intros b I. apply zrange_In in I. destruct (some_band g x y b) as (u & Eu); auto; [apply A1|]. destruct (some_band h x y b) as (v & Ev); [apply A2|auto|lia|].
  rewrite Eu, Ev. unfold zsum. cbn. pose proof (H _ _ _ _ _ Eu Ev). lia.
Qed.
Lemma average_shift t M1 M2 k g h out1 out2 : band_args t M1 g out1 -> band_args t M2 h out2 -> same_frame g h ->
  (forall x y b u v, i_pixel g x y b = Some u -> i_pixel h x y b = Some v -> v = u + k) ->
  exists r s, convert_average t g out1 = Ok r /\ convert_average t h out2 = Ok s /\
    forall x y, in_frame g x y -> exists u, pixel r x y = Some u /\ pixel s x y = Some (u + k).
Proof.
  intros A1 A2 (S1 & S2 & S3) H. destruct (average_is t M1 g out1 A1) as (r & E1 & _ & _ & P1). destruct (average_is t M2 h out2 A2) as (s & E2 & _ & _ & P2).
  exists r, s. split; auto. split; auto. intros x y F. assert (F2 : in_frame h x y) by (unfold in_frame in *; rewrite S1, S2; auto). eexists. split; [now apply P1|]. rewrite P2 by auto. f_equal.
  rewrite S3. assert (B : 0 < i_bands g) by apply A1. rewrite <- Z.div_add by lia. f_equal. unfold bands_of. rewrite S3.
  assert (X : forall b, In b (zrange (i_bands g)) -> zsum (opt_list (i_pixel h x y b)) = zsum (opt_list (i_pixel g x y b)) + k).
  { intros b I. apply zrange_In in I. destruct (some_band g x y b) as (u & Eu); auto; [apply A1|]. destruct (some_band h x y b) as (v & Ev); [apply A2|auto|lia|].
    rewrite Eu, Ev. unfold zsum. cbn. pose proof (H _ _ _ _ _ Eu Ev). lia. }
  pose proof (flat_sums (fun b => opt_list (i_pixel g x y b)) (fun b => opt_list (i_pixel h x y b)) (zrange (i_bands g)) k) as Y1.
  pose proof (flat_sums (fun b => opt_list (i_pixel h x y b)) (fun b => opt_list (i_pixel g x y b)) (zrange (i_bands g)) (- k)) as Y2. rewrite zlen_zrange in Y1, Y2 by lia.
  assert (Z1 := Y1 ltac:(intros b I; rewrite X by auto; lia)). assert (Z2 := Y2 ltac:(intros b I; rewrite X by auto; lia)). lia.
Qed.
Lemma average_exchange t M1 M2 g h out1 out2 : band_args t M1 g out1 -> band_args t M2 h out2 -> same_frame g h ->
  (forall x y, in_frame g x y -> Permutation (bands_of g x y) (bands_of h x y)) ->
  exists r s, convert_average t g out1 = Ok r /\ convert_average t h out2 = Ok s /\ forall x y, in_frame g x y -> pixel r x y = pixel s x y.
Proof.
  intros A1 A2 (S1 & S2 & S3) H. destruct (average_is t M1 g out1 A1) as (r & E1 & _ & _ & P1). destruct (average_is t M2 h out2 A2) as (s & E2 & _ & _ & P2).
  exists r, s. split; auto. split; auto. intros x y F. assert (F2 : in_frame h x y) by (unfold in_frame in *; rewrite S1, S2; auto).
  rewrite P1, P2, S3 by auto. now rewrite (zsum_perm _ _ (H x y F)).
Qed.

(** ** Examples *)
Definition rgb (l : list Z) : inter Z := mkInter 2 1 3 0 6 false l.
Lemma rgb_args l M : zlen l = 6 -> 0 <= M <= 255 -> (forall v, In v l -> 0 <= v <= M) -> band_args U8 M (rgb l) (gray_new 0 1 1).
Proof.
  intros L HM V. split; try (cbn; lia); auto.
  - unfold i_wf, rgb. cbn [i_width i_height i_bands i_offset i_stride i_data i_sub]. rewrite L. repeat split; try lia; intros; discriminate.
  - apply wf_new; lia.
  - intros x y b v E. assert (I : In v l). { unfold i_pixel in E. destruct (_ && _); [|discriminate]. eapply znth_In; exact E. } apply V in I. cbn. lia.
Qed.
Definition signed_pair (l : list Z) : inter Z := mkInter 1 1 2 0 2 false l.
Lemma signed_shift : exists g h out r s u v, i_wf g /\ i_wf h /\ same_frame g h /\ (forall x y b u v, i_pixel g x y b = Some u -> i_pixel h x y b = Some v -> v = u + 1) /\
  convert_average S64 g out = Ok r /\ convert_average S64 h out = Ok s /\ pixel r 0 0 = Some u /\ pixel s 0 0 = Some v /\ v <> u + 1.
Proof.
  exists (signed_pair [-1; 0]), (signed_pair [0; 1]), (gray_new 0 1 1). eexists _, _, _, _.
  split; [unfold i_wf; cbn; repeat split; try lia; intros; discriminate|]. split; [unfold i_wf; cbn; repeat split; try lia; intros; discriminate|].
  split; [repeat split|]. split.
  { intros x y b u v Eu Ev. unfold i_pixel in Eu, Ev. cbn [i_width i_height i_bands signed_pair] in *. destruct (_ && _) eqn:C; [|discriminate].
    rewrite !andb_true_iff in C. assert (x = 0) as -> by lia. assert (y = 0) as -> by lia. assert (b = 0 \/ b = 1) as [->| ->] by lia; cbn in Eu, Ev; injection Eu as <-; injection Ev as <-; lia. }
  split; [vm_compute; reflexivity|]. split; [vm_compute; reflexivity|]. split; [vm_compute; reflexivity|]. split; [vm_compute; reflexivity|]. vm_compute. congruence.
Qed.

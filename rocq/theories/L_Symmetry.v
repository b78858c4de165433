(** Lemmas about relations between images that blurs keep. *)
From Coq Require Import Reals Lra.
From Flocq Require Import Core.
From Verif Require Import Base BaseFacts M_Image S_Image L_Image M_Convolve S_Convolve M_Normalized S_Normalized M_Blur S_Blur L_Blur L_BlurTop
  M_Otsu M_Config M_Kernel S_Stats S_Kernel L_Kernel L_Gauss L_GaussInt L_NormalizedInt L_GaussBlur S_Symmetry.
Open Scope Z_scope.

(** ** Weighted sums *)
Definition both (R : Z -> Z -> Prop) (a b : option Z) : Prop :=
  match a, b with Some u, Some v => R u v | None, None => True | _, _ => False end.

Lemma covered_le ks : forall px qx i, (forall c, In c ks -> 0 <= c) -> (forall j, 0 <= j < zlen ks -> both Z.le (px (i + j)) (qx (i + j))) ->
  fst (zcovered ks px i) <= fst (zcovered ks qx i) /\ snd (zcovered ks px i) = snd (zcovered ks qx i).
Proof.
  induction ks as [|c ks IH]; intros px qx i Hc H; cbn [zcovered]; [cbn; lia|].
  rewrite zlen_cons in H. pose proof (zlen_nonneg ks) as L. destruct (IH px qx (i + 1)) as (A & B).
  { intros; apply Hc; now right. }
  { intros j Hj. replace (i + 1 + j) with (i + (j + 1)) by lia. apply H; lia. }
  destruct (zcovered ks px (i + 1)) as (t1, w1), (zcovered ks qx (i + 1)) as (t2, w2). cbn [fst snd] in *.
  pose proof (H 0 ltac:(lia)) as X. rewrite Z.add_0_r in X. pose proof (Hc c (or_introl eq_refl)).
  destruct (px i), (qx i); cbn in *; try contradiction; split; nia.
Qed.
Lemma covered_shift k ks : forall px qx i, (forall j, 0 <= j < zlen ks -> both (fun u v => v = u + k) (px (i + j)) (qx (i + j))) ->
  fst (zcovered ks qx i) = fst (zcovered ks px i) + k * snd (zcovered ks px i) /\ snd (zcovered ks qx i) = snd (zcovered ks px i).
Proof.
  induction ks as [|c ks IH]; intros px qx i H; cbn [zcovered]; [cbn; lia|].
  rewrite zlen_cons in H. pose proof (zlen_nonneg ks) as L. destruct (IH px qx (i + 1)) as (A & B).
  { intros j Hj. replace (i + 1 + j) with (i + (j + 1)) by lia. apply H; lia. }
  destruct (zcovered ks px (i + 1)) as (t1, w1), (zcovered ks qx (i + 1)) as (t2, w2). cbn [fst snd] in *.
  pose proof (H 0 ltac:(lia)) as X. rewrite Z.add_0_r in X.
  destruct (px i), (qx i); cbn in *; try contradiction; subst; split; lia.
Qed.
Lemma covered_total_nonneg ks : forall px i, (forall c, In c ks -> 0 <= c) -> (forall j v, 0 <= j < zlen ks -> px (i + j) = Some v -> 0 <= v) ->
  0 <= fst (zcovered ks px i).
Proof.
  induction ks as [|c ks IH]; intros px i Hc H; cbn [zcovered]; [cbn; lia|].
  rewrite zlen_cons in H. pose proof (zlen_nonneg ks) as L.
  assert (A : 0 <= fst (zcovered ks px (i + 1))).
  { apply IH; [intros; apply Hc; now right|]. intros j v Hj. replace (i + 1 + j) with (i + (j + 1)) by lia. apply H; lia. }
  destruct (zcovered ks px (i + 1)) as (t1, w1). cbn [fst snd] in *. pose proof (Hc c (or_introl eq_refl)).
  pose proof (H 0) as X. rewrite Z.add_0_r in X. destruct (px i) as [v|]; cbn; auto. specialize (X v ltac:(lia) eq_refl). nia.
Qed.
Lemma covered_app ks : forall ls px i, zcovered (ks ++ ls) px i =
  (fst (zcovered ks px i) + fst (zcovered ls px (i + zlen ks)), snd (zcovered ks px i) + snd (zcovered ls px (i + zlen ks))).
Proof.
  induction ks as [|c ks IH]; intros ls px i; cbn [app zcovered].
  - replace (i + zlen (@nil Z)) with i by (change (zlen (@nil Z)) with 0; lia). destruct (zcovered ls px i); reflexivity.
  - rewrite IH, zlen_cons. replace (i + 1 + zlen ks) with (i + (1 + zlen ks)) by lia. replace (zlen ks + 1) with (1 + zlen ks) by lia.
    destruct (zcovered ks px (i + 1)) as (t1, w1). destruct (zcovered ls px _) as (t2, w2). cbn [fst snd]. destruct (px i); cbn [fst snd]; f_equal; lia.
Qed.
Lemma covered_rev ks : forall px i j, zcovered (rev ks) (fun k => px (j - k)) i = zcovered ks px (j - i - zlen ks + 1).
Proof.
  induction ks as [|c ks IH]; intros px i j; [reflexivity|].
  cbn [rev]. rewrite covered_app, IH, zlen_cons. cbn [zcovered].
  assert (L : zlen (rev ks) = zlen ks) by (unfold zlen; now rewrite rev_length). rewrite L.
  replace (j - i - (zlen ks + 1) + 1) with (j - (i + zlen ks)) by lia.
  replace (j - i - (1 + zlen ks) + 1) with (j - (i + zlen ks)) by lia.
  replace (j - i - zlen ks + 1) with (j - (i + zlen ks) + 1) by lia.
  destruct (zcovered ks px (j - (i + zlen ks) + 1)) as (t, w). cbn [fst snd]. destruct (px _); cbn [fst snd]; f_equal; lia.
Qed.

Lemma rounded_le a b : fst a <= fst b -> snd a = snd b -> 0 < snd a -> rounded a <= rounded b.
Proof. destruct a, b; cbn; intros A -> P. unfold rounded. cbn [fst snd]. apply Z.quot_le_mono; lia. Qed.
Lemma rounded_nonneg a : 0 <= fst a -> 0 < snd a -> 0 <= rounded a.
Proof. destruct a; unfold rounded; cbn [fst snd]. intros A P. apply Z.quot_pos; auto. pose proof (Z.quot_pos z0 2). lia. Qed.
Lemma rounded_shift a b k : fst b = fst a + k * snd a -> snd b = snd a -> 0 < snd a -> 0 <= fst a -> 0 <= fst b -> rounded b = rounded a + k.
Proof.
  destruct a as (t, w), b as (t', w'). unfold rounded. cbn [fst snd]. intros -> -> P A B. pose proof (Z.quot_pos w 2 ltac:(lia) ltac:(lia)).
  rewrite (Z.quot_div_nonneg (t + k * w + w ÷ 2) w), (Z.quot_div_nonneg (t + w ÷ 2) w) by lia.
  replace (t + k * w + w ÷ 2) with (t + w ÷ 2 + k * w) by lia. now rewrite Z.div_add by lia.
Qed.

(** ** Both passes *)
Section Passes.
Variables (ks : list Z) (off : Z).
Hypothesis Kp : forall c, In c ks -> 0 <= c.
Hypothesis Ko : exists c, znth ks off = Some c /\ 0 < c.

Lemma weight_pos px i : px (i + off) <> None -> 0 < snd (zcovered ks px i).
Proof. intros P. destruct Ko as (c & E & C). pose proof (covered_pos px ks i off c Kp E P). lia. Qed.

Definition row (g : gray Z) (x y : Z) : Z := rounded (zcovered ks (fun j => pixel g (x - off + j) y) 0).
Definition col (g : gray Z) (x y i : Z) : option Z := let y' := y - off + i in if (0 <=? y') && (y' <? g_height g) then Some (row g x y') else None.
Lemma two_pass_col g x y : two_pass ks off g x y = rounded (zcovered ks (col g x y) 0).
Proof. reflexivity. Qed.
Lemma row_pos g x y : wf g -> inside g x y -> 0 < snd (zcovered ks (fun j => pixel g (x - off + j) y) 0).
Proof.
  intros W I. apply weight_pos. replace (x - off + (0 + off)) with x by lia. destruct (pixel_exists g x y W I) as (v & ->). discriminate.
Qed.
Lemma col_pos g x y : inside g x y -> 0 < snd (zcovered ks (col g x y) 0).
Proof.
  intros [I1 I2]. apply weight_pos. unfold col. replace (y - off + (0 + off)) with y by lia. replace (_ && _) with true by lia. discriminate.
Qed.
Lemma pixels_both (R : Z -> Z -> Prop) g h x y : wf g -> wf h -> same_size g h ->
  (forall u v, pixel g x y = Some u -> pixel h x y = Some v -> R u v) -> both R (pixel g x y) (pixel h x y).
Proof.
  intros Wg Wh (S1 & S2) H.
  assert (D : inside g x y \/ ~ inside g x y) by (unfold inside; lia). destruct D as [I|N].
  - destruct (pixel_exists g x y Wg I) as (u & Eu). destruct (pixel_exists h x y Wh) as (v & Ev); [unfold inside in *; lia|]. rewrite Eu, Ev. cbn. auto.
  - rewrite (pixel_outside g) by auto. rewrite (pixel_outside h) by (unfold inside in *; lia). exact I.
Qed.

Lemma two_pass_le g h x y : wf g -> wf h -> not_above g h -> inside g x y -> two_pass ks off g x y <= two_pass ks off h x y.
Proof.
  intros Wg Wh (Sz & Hle) [I1 I2]. assert (Sz' := Sz). destruct Sz' as (S1 & S2). rewrite !two_pass_col.
  destruct (covered_le ks (col g x y) (col h x y) 0 Kp) as (A & B).
  - intros j Hj. unfold col. cbn zeta. rewrite S2. destruct (_ && _) eqn:C; [|exact I]. cbn [both].
    destruct (covered_le ks (fun k => pixel g (x - off + k) (y - off + (0 + j))) (fun k => pixel h (x - off + k) (y - off + (0 + j))) 0 Kp) as (A & B).
    { intros k Hk. apply pixels_both; auto. apply Hle. }
    apply rounded_le; auto. apply row_pos; auto. split; lia.
  - apply rounded_le; auto. apply col_pos. split; lia.
Qed.
Lemma two_pass_shift k g h x y : wf g -> wf h -> shifted k g h -> (forall x y v, pixel g x y = Some v -> 0 <= v) ->
  (forall x y v, pixel h x y = Some v -> 0 <= v) -> inside g x y -> two_pass ks off h x y = two_pass ks off g x y + k.
Proof.
  intros Wg Wh (Sz & Hle) Pg Ph [I1 I2]. assert (Sz' := Sz). destruct Sz' as (S1 & S2). rewrite !two_pass_col.
  assert (RN : forall q, wf q -> (forall x y v, pixel q x y = Some v -> 0 <= v) -> forall x y, inside q x y -> 0 <= row q x y).
  { intros q Wq Pq u v I. apply rounded_nonneg; [|now apply row_pos]. apply covered_total_nonneg; auto. intros j w _ E. eapply Pq; eauto. }
  assert (CN : forall q, wf q -> (forall x y v, pixel q x y = Some v -> 0 <= v) -> 0 <= x < g_width q -> 0 <= fst (zcovered ks (col q x y) 0)).
  { intros q Wq Pq Ix. apply covered_total_nonneg; auto. intros j v _. unfold col. cbn zeta. destruct (_ && _) eqn:C; [|discriminate]. intros E. injection E as <-.
    apply RN; auto. split; lia. }
  destruct (covered_shift k ks (col g x y) (col h x y) 0) as (A & B).
  - intros j Hj. unfold col. cbn zeta. rewrite S2. destruct (_ && _) eqn:C; [|exact I]. cbn [both].
    destruct (covered_shift k ks (fun j' => pixel g (x - off + j') (y - off + (0 + j))) (fun j' => pixel h (x - off + j') (y - off + (0 + j))) 0) as (A & B).
    { intros j' Hk. apply pixels_both; auto. intros u v Eu Ev. rewrite (Hle _ _ _ Eu) in Ev. congruence. }
    apply rounded_shift; auto.
    + apply row_pos; auto. split; lia.
    + apply covered_total_nonneg; auto. intros j' v _ E. eapply Pg; eauto.
    + apply covered_total_nonneg; auto. intros j' v _ E. eapply Ph; eauto.
  - apply rounded_shift; auto; [apply col_pos; split; lia|apply CN; auto; lia].
Qed.

Hypothesis Ks : rev ks = ks.
Hypothesis Kc : zlen ks = 2 * off + 1.
Lemma covered_mirror px i : zcovered ks (fun j => px (i + 2 * off - j)) 0 = zcovered ks (fun j => px (i + j)) 0.
Proof.
  rewrite <- Ks at 1. rewrite (covered_rev ks px 0 (i + 2 * off)). replace (i + 2 * off - 0 - zlen ks + 1) with (i + 0) by lia.
  clear Kp Ko Ks Kc. generalize 0. induction ks as [|c r IH]; intros z; cbn [zcovered]; auto. rewrite <- (IH (z + 1)). now rewrite Z.add_assoc.
Qed.
Lemma two_pass_mirror_x g h x y : mirrored_x g h -> inside g x y -> two_pass ks off h x y = two_pass ks off g (g_width g - 1 - x) y.
Proof.
  intros ((S1 & S2) & M) _. rewrite !two_pass_col. f_equal. apply zcovered_ext. intros j Hj. unfold col. cbn zeta. rewrite S2.
  destruct (_ && _) eqn:C; auto. f_equal. unfold row. f_equal. set (y' := y - off + (0 + j)) in *.
  rewrite <- (covered_mirror (fun X => pixel g X y') (g_width g - 1 - x - off)). apply zcovered_ext. intros k Hk.
  replace (g_width g - 1 - x - off + 2 * off - (0 + k)) with (g_width g - 1 - (x - off + (0 + k))) by lia.
  assert (D : inside g (x - off + (0 + k)) y' \/ ~ inside g (x - off + (0 + k)) y') by (unfold inside; lia). destruct D as [I|N]; [now apply M|].
  rewrite !pixel_outside; auto; unfold inside in *; lia.
Qed.
Lemma two_pass_mirror_y g h x y : mirrored_y g h -> inside g x y -> two_pass ks off h x y = two_pass ks off g x (g_height g - 1 - y).
Proof.
  intros ((S1 & S2) & M) _. rewrite !two_pass_col. f_equal.
  pose proof (covered_mirror (col g x (g_height g - 1 - y)) 0) as CM. cbn [Z.add] in CM.
  transitivity (zcovered ks (fun j => col g x (g_height g - 1 - y) (0 + 2 * off - j)) 0); [|exact CM]. apply zcovered_ext. intros j Hj. unfold col. cbn zeta. rewrite S2.
  replace (g_height g - 1 - y - off + (0 + 2 * off - (0 + j))) with (g_height g - 1 - (y - off + (0 + j))) by lia.
  set (y' := y - off + (0 + j)). destruct (_ && _) eqn:C.
  - replace (_ && _) with true by lia. f_equal. unfold row. f_equal. apply zcovered_ext. intros k Hk.
    assert (D : inside g (x - off + (0 + k)) y' \/ ~ inside g (x - off + (0 + k)) y') by (unfold inside; lia). destruct D as [I|N]; [now apply M|].
    rewrite !pixel_outside; auto; unfold inside in *; lia.
  - replace (_ && _) with false by lia. reflexivity.
Qed.
End Passes.

(** ** From the values to the images *)
Definition result (ks : list Z) (off : Z) (g o : gray Z) : Prop :=
  same_size g o /\ forall x y, inside g x y -> pixel o x y = Some (two_pass ks off g x y).

Section Results.
Variables (ks : list Z) (off : Z) (g h o p : gray Z).
Hypothesis Kp : forall c, In c ks -> 0 <= c.
Hypothesis Ko : exists c, znth ks off = Some c /\ 0 < c.
Hypothesis Wg : wf g.
Hypothesis Wh : wf h.
Hypothesis Rg : result ks off g o.
Hypothesis Rh : result ks off h p.

Lemma result_size : same_size g h -> same_size o p.
Proof. destruct Rg as ((A & B) & _), Rh as ((C & D) & _). unfold same_size. intros (E & F). split; congruence. Qed.
Lemma result_in x y v : pixel o x y = Some v -> inside g x y.
Proof. intros E. apply pixel_Some in E. destruct Rg as ((A & B) & _). unfold inside in *. lia. Qed.
Lemma result_le : not_above g h -> not_above o p.
Proof.
  intros N. split; [now apply result_size; apply N|]. intros x y u v Eu Ev. pose proof (result_in _ _ _ Eu) as I. destruct Rg as (_ & Pg), Rh as (_ & Ph).
  rewrite Pg in Eu by auto. rewrite Ph in Ev by (destruct N as ((A & B) & _); unfold inside in *; lia). injection Eu as <-. injection Ev as <-.
  now apply two_pass_le.
Qed.
Lemma result_shift k : shifted k g h -> (forall x y v, pixel g x y = Some v -> 0 <= v) -> (forall x y v, pixel h x y = Some v -> 0 <= v) -> shifted k o p.
Proof.
  intros N N1 N2. split; [now apply result_size; apply N|]. intros x y u Eu. pose proof (result_in _ _ _ Eu) as I. destruct Rg as (_ & Pg), Rh as (_ & Ph).
  rewrite Pg in Eu by auto. rewrite Ph by (destruct N as ((A & B) & _); unfold inside in *; lia). injection Eu as <-. f_equal. now apply two_pass_shift.
Qed.
Hypothesis Ks : rev ks = ks.
Hypothesis Kc : zlen ks = 2 * off + 1.
Lemma result_mirror_x : mirrored_x g h -> mirrored_x o p.
Proof.
  intros N. split; [now apply result_size; apply N|]. intros x y I. destruct Rg as ((A & B) & Pg), Rh as ((C & D) & Ph). destruct N as ((E & F) & N).
  rewrite A. rewrite Pg by (unfold inside in *; lia). rewrite Ph by (unfold inside in *; lia). f_equal.
  apply two_pass_mirror_x; auto; [split; [split|]; auto|unfold inside in *; lia].
Qed.
Lemma result_mirror_y : mirrored_y g h -> mirrored_y o p.
Proof.
  intros N. split; [now apply result_size; apply N|]. intros x y I. destruct Rg as ((A & B) & Pg), Rh as ((C & D) & Ph). destruct N as ((E & F) & N).
  rewrite B. rewrite Pg by (unfold inside in *; lia). rewrite Ph by (unfold inside in *; lia). f_equal.
  apply two_pass_mirror_y; auto; [split; [split|]; auto|unfold inside in *; lia].
Qed.
End Results.

(** ** Mean *)
Definition ones (r : Z) : list Z := repeat 1 (Z.to_nat (2 * r + 1)).
Lemma ones_nonneg r c : In c (ones r) -> 0 <= c.
Proof. intros I. apply repeat_spec in I. lia. Qed.
Lemma ones_centre r : 0 <= r -> exists c, znth (ones r) r = Some c /\ 0 < c.
Proof. intros H. exists 1. split; [|lia]. unfold ones. rewrite table_repeat. apply (table_znth _ (fun _ => 1) r). lia. Qed.
Lemma ones_rev r : rev (ones r) = ones r.
Proof.
  unfold ones. set (n := Z.to_nat _). clearbody n. induction n as [|n IH]; auto. cbn [repeat rev]. rewrite IH.
  clear IH. induction n as [|n IH]; auto. cbn [repeat app]. now rewrite IH.
Qed.
Lemma ones_len r : 0 <= r -> zlen (ones r) = 2 * r + 1.
Proof. intros H. unfold zlen, ones. rewrite repeat_length. lia. Qed.
Lemma round_mean_ones px i r : round_mean (present px i (Z.to_nat (2 * r + 1))) = rounded (zcovered (ones r) (fun j => px (i + j)) 0).
Proof.
  assert (E : zcovered (ones r) (fun j => px (i + j)) 0 = zcovered (ones r) px i).
  { assert (Q : forall l z, zcovered l (fun j => px (i + j)) z = zcovered l px (i + z)).
    { induction l as [|c l IH]; intros z; cbn [zcovered]; auto. rewrite IH. now rewrite Z.add_assoc. }
    rewrite Q. now rewrite Z.add_0_r. }
  rewrite E. unfold ones. rewrite present_zcovered. unfold rounded, round_mean. cbn [fst snd].
  set (l := present px i (Z.to_nat (2 * r + 1))). pose proof (zlen_nonneg l). now rewrite (Z.quot_div_nonneg (zlen l) 2) by lia.
Qed.
Lemma mean_box_two g r x y : mean_box g r x y = two_pass (ones r) r g x y.
Proof.
  unfold mean_box, two_pass. rewrite round_mean_ones. f_equal. apply zcovered_ext. intros j Hj. cbn zeta. destruct (_ && _); auto. f_equal.
  unfold mean_row. now rewrite round_mean_ones.
Qed.
Lemma mean_result t r M g out work : mean_ready t r M g out work ->
  exists o w, blur_mean (int_narith t) (int_marith t) 0 1 r g out work = Ok (o, w) /\ result (ones r) r g o.
Proof.
  intros (A1 & A2 & A3 & A4 & A5 & A6 & A7 & A8 & A9 & A10 & A11 & A12 & A13).
  destruct (blur_mean_ok t r M g out work) as (o & o' & w & w' & _ & _ & E & (W & H & _ & P & _) & _); auto.
  exists o', w'. split; auto. split; [now split|]. intros x y I. rewrite P by auto. f_equal. apply mean_box_two.
Qed.

(** ** Gaussian *)
Lemma place_mirror w i : place w (w - 1 - i) = (- place w i)%R.
Proof. unfold place. rewrite !minus_IZR. lra. Qed.
Lemma gauss_int_mirror s w i : gauss_int s w (w - 1 - i) = gauss_int s w i.
Proof. unfold gauss_int, gauss_coef. rewrite place_mirror. unfold bell. now rewrite Rmult_opp_opp. Qed.
Lemma table_rev {A} n (f : Z -> A) : 0 <= n -> rev (table n f) = table n (fun i => f (n - 1 - i)).
Proof.
  intros H. revert f. pattern n. apply natlike_ind; [reflexivity| |exact H].
  intros k Hk IH f. unfold Z.succ. rewrite (table_succ k f) by auto. rewrite rev_app_distr, IH. cbn [rev app].
  replace (k + 1) with (1 + k) by lia. rewrite table_app by lia. change (table 1 (fun i => f (1 + k - 1 - i))) with [f (1 + k - 1 - 0)].
  cbn [app]. f_equal; [f_equal; lia|]. apply table_ext. intros i Hi. f_equal. lia.
Qed.
Lemma gauss_result t sigma width s w g out work : gauss_ready t sigma width s w g out work ->
  exists o q, gaussian_blur reals exp real_ceil t sigma width g out work = Ok (o, q) /\ result (table w (gauss_int s w)) (w / 2) g o.
Proof.
  intros (A1 & A2 & A3 & A4 & A5 & A6 & A7 & A8 & A9 & A10 & A11).
  destruct (gaussian_blur_range t sigma width s w g out work 0 (ity_max t)) as (o & o' & q & q' & _ & _ & E & (W & H & _ & P & _) & _); auto; try lia.
  exists o', q'. split; auto. split; [now split|]. auto.
Qed.
Lemma gauss_kernel sigma width s w : chosen sigma width s w ->
  (forall c, In c (table w (gauss_int s w)) -> 0 <= c) /\ (exists c, znth (table w (gauss_int s w)) (w / 2) = Some c /\ 0 < c) /\
  rev (table w (gauss_int s w)) = table w (gauss_int s w) /\ zlen (table w (gauss_int s w)) = w.
Proof.
  intros C. destruct (chosen_pos _ _ _ _ C) as (Ps & Pw). pose proof (half_lt w Pw) as Hh. split; [|split; [|split]].
  - intros c I. apply table_In in I as (i & Hi & <-). apply gauss_int_range; auto.
  - exists (gauss_int s w (w / 2)). split; [now apply table_znth|]. pose proof (gauss_int_centre s w Ps Pw). lia.
  - rewrite table_rev by lia. apply table_ext. intros. apply gauss_int_mirror.
  - apply table_zlen. lia.
Qed.

(** ** The functions *)
Section Mean.
Variables (t : ity) (r M1 M2 : Z) (g out work h out2 work2 : gray Z).
Hypothesis Rg : mean_ready t r M1 g out work.
Hypothesis Rh : mean_ready t r M2 h out2 work2.
Lemma mean_both (R : gray Z -> gray Z -> Prop) : (forall o p, result (ones r) r g o -> result (ones r) r h p -> R o p) ->
  exists o w p v, blur_mean (int_narith t) (int_marith t) 0 1 r g out work = Ok (o, w) /\
    blur_mean (int_narith t) (int_marith t) 0 1 r h out2 work2 = Ok (p, v) /\ R o p.
Proof.
  intros X. destruct (mean_result _ _ _ _ _ _ Rg) as (o & w & E1 & R1), (mean_result _ _ _ _ _ _ Rh) as (p & v & E2 & R2). exists o, w, p, v. auto.
Qed.
Let Hr : 0 < r := proj1 Rg.
Let Wg : wf g := proj1 (proj2 (proj2 Rg)).
Let Wh : wf h := proj1 (proj2 (proj2 Rh)).
Lemma mean_order : not_above g h ->
  exists o w p v, blur_mean (int_narith t) (int_marith t) 0 1 r g out work = Ok (o, w) /\
    blur_mean (int_narith t) (int_marith t) 0 1 r h out2 work2 = Ok (p, v) /\ not_above o p.
Proof. intros N. apply mean_both. intros o p R1 R2. apply (result_le (ones r) r g h o p); auto; try apply ones_nonneg; try (apply ones_centre; lia). Qed.
Lemma mean_shift k : ity_min t = 0 -> shifted k g h ->
  exists o w p v, blur_mean (int_narith t) (int_marith t) 0 1 r g out work = Ok (o, w) /\
    blur_mean (int_narith t) (int_marith t) 0 1 r h out2 work2 = Ok (p, v) /\ shifted k o p.
Proof.
  intros T N. apply mean_both. intros o p R1 R2. apply (result_shift (ones r) r g h o p); auto; try apply ones_nonneg; try (apply ones_centre; lia).
  - intros x y v E. pose proof Rg as (_ & _ & _ & _ & _ & _ & _ & _ & P & _). destruct (P _ _ _ E). lia.
  - intros x y v E. pose proof Rh as (_ & _ & _ & _ & _ & _ & _ & _ & P & _). destruct (P _ _ _ E). lia.
Qed.
Lemma mean_mirror : exists o w p v, blur_mean (int_narith t) (int_marith t) 0 1 r g out work = Ok (o, w) /\
    blur_mean (int_narith t) (int_marith t) 0 1 r h out2 work2 = Ok (p, v) /\
    (mirrored_x g h -> mirrored_x o p) /\ (mirrored_y g h -> mirrored_y o p).
Proof.
  apply mean_both. intros o p R1 R2.
  split; intros N; [apply (result_mirror_x (ones r) r g h o p)|apply (result_mirror_y (ones r) r g h o p)]; auto using ones_rev;
    try apply ones_nonneg; (apply ones_len || apply ones_centre); lia.
Qed.
End Mean.

Section Gauss.
Variables (t : ity) (sigma s : R) (width w : Z) (g out work h out2 work2 : gray Z).
Hypothesis Rg : gauss_ready t sigma width s w g out work.
Hypothesis Rh : gauss_ready t sigma width s w h out2 work2.
Let B (i o q : gray Z) := gaussian_blur reals exp real_ceil t sigma width i o q.
Let ks := table w (gauss_int s w).
Lemma gauss_both (R : gray Z -> gray Z -> Prop) : (forall o p, result ks (w / 2) g o -> result ks (w / 2) h p -> R o p) ->
  exists o q p v, B g out work = Ok (o, q) /\ B h out2 work2 = Ok (p, v) /\ R o p.
Proof.
  intros X. destruct (gauss_result _ _ _ _ _ _ _ _ Rg) as (o & q & E1 & R1), (gauss_result _ _ _ _ _ _ _ _ Rh) as (p & v & E2 & R2). exists o, q, p, v. auto.
Qed.
Let C : chosen sigma width s w := proj1 (proj2 Rg).
Lemma gauss_order : not_above g h -> exists o q p v, B g out work = Ok (o, q) /\ B h out2 work2 = Ok (p, v) /\ not_above o p.
Proof.
  intros N. apply gauss_both. intros o p R1 R2. destruct (gauss_kernel _ _ _ _ C) as (K1 & K2 & K3 & K4).
  apply (result_le ks (w / 2) g h o p); auto; try apply Rg; try apply Rh.
Qed.
Lemma gauss_shift k : shifted k g h -> exists o q p v, B g out work = Ok (o, q) /\ B h out2 work2 = Ok (p, v) /\ shifted k o p.
Proof.
  intros N. apply gauss_both. intros o p R1 R2. destruct (gauss_kernel _ _ _ _ C) as (K1 & K2 & K3 & K4).
  apply (result_shift ks (w / 2) g h o p); auto; try apply Rg; try apply Rh.
Qed.
Lemma gauss_mirror : w = 2 * (w / 2) + 1 -> exists o q p v, B g out work = Ok (o, q) /\ B h out2 work2 = Ok (p, v) /\
  (mirrored_x g h -> mirrored_x o p) /\ (mirrored_y g h -> mirrored_y o p).
Proof.
  intros Od. apply gauss_both. intros o p R1 R2. destruct (gauss_kernel _ _ _ _ C) as (K1 & K2 & K3 & K4).
  split; intros N; [apply (result_mirror_x ks (w / 2) g h o p)|apply (result_mirror_y ks (w / 2) g h o p)]; auto; unfold ks; lia.
Qed.
End Gauss.

(** Lemmas about filling images and averaging bands. *)
From Verif Require Import BaseFacts M_Image S_Image L_Image L_Inter M_Convolve S_Convolve L_Window L_Convolve2 M_Stats
  S_Blur S_Stats L_Stats M_Misc.

Section Fill.
Context {A : Type}.
Variable g : gray A.
Hypothesis Hg : wf g.

Lemma flat_loop (f : Z -> A) : g_sub g = false ->
  exists d, for_range 0 (gray_total_pixels g) (fun i d => bset d i (f i)) (g_data g) = Ok d /\
    zlen d = zlen (g_data g) /\
    writes (g_data g) (win g (fun x y => Some (f (y * g_width g + x))) (fun _ _ => True)) d.
Proof.
  intros E. rewrite total_ok by auto. assert (W := Hg). unfold wf in W.
  destruct W as (W1 & W2 & W3 & W4 & W5 & W6 & W7). destruct (W7 E) as [W8 W9]. clear W7.
  assert (T : g_width g * g_height g <= zlen (g_data g)).
  { destruct (Z.eq_dec (g_width g) 0) as [->|]; [apply zlen_nonneg|]. destruct (Z.eq_dec (g_height g) 0) as [->|].
    - rewrite Z.mul_0_r. apply zlen_nonneg.
    - specialize (W6 ltac:(lia) ltac:(lia)). rewrite W8, W9 in W6. lia. }
  destruct (for_range_writes (zlen (g_data g)) (fun i j v => j = i /\ v = f i) 0 (g_width g * g_height g)
     (fun i d => bset d i (f i)) (g_data g) eq_refl) as (d & Ed & Wd).
  { intros i d Hi L. destruct (bset_exists d i (f i)) as (d' & E' & _); [lia|]. exists d'. split; auto.
    now apply writes_single. }
  exists d. split; auto. split; [now destruct Wd|]. eapply writes_iff; [|exact Wd]. intros j v; split.
  - intros (i & Hi & -> & ->). assert (Hw : 0 < g_width g) by nia.
    assert (Ei : i = i / g_width g * g_width g + i mod g_width g) by (rewrite Z.mul_comm; apply Z.div_mod; lia).
    pose proof (Z.mod_pos_bound i (g_width g) Hw).
    assert (0 <= i / g_width g < g_height g).
    { split; [apply Z.div_pos; lia|apply Z.div_lt_upper_bound; lia]. }
    exists (i mod g_width g), (i / g_width g). split; [split; lia|]. split; [exact I|]. unfold pos. rewrite W8, W9.
    split; [lia|]. now rewrite <- Ei.
  - intros (x & y & [I1 I2] & _ & -> & Ev). unfold pos. rewrite W8, W9. exists (y * g_width g + x).
    assert (y * g_width g <= (g_height g - 1) * g_width g) by nia. split; [nia|]. split; [lia|congruence].
Qed.

Lemma gray_fill_ok v : exists g', gray_fill g v = Ok g' /\ holds g g g' (fun _ _ => Some v).
Proof.
  unfold gray_fill. destruct (g_sub g) eqn:E.
  - match goal with |- context [for_range 0 (g_height g) ?b (g_data g)] =>
      destruct (win_loop g (fun _ _ => Some v) (fun y x' y' => y' = y /\ 0 <= x' < g_width g) 0 (g_height g) b (g_data g) eq_refl) as (d & Ed & L & W) end.
    { intros y d Hy L. destruct (Z.eq_dec (g_width g) 0) as [Z0|NZ].
      - exists d. rewrite Z0, for_range_nil by lia. split; auto. apply writes_none.
        intros j v' (x & y' & _ & H & _). lia.
      - assert (0 < g_width g) by (assert (W := Hg); unfold wf in W; lia).
        destruct (wf_row g y Hg ltac:(lia) Hy) as (R1 & R2 & R3). rewrite R1. cbn zeta.
        match goal with |- context [for_range 0 (g_width g) ?b d] =>
          destruct (win_row g (fun _ _ => Some v) Hg y 0 (g_width g) b d L) as (d' & E' & L' & W') end.
        + intros x d0 Hx L0. split; [split; lia|]. exists v. split; auto.
        + eauto. }
    rewrite Ed. cbn [bind]. eexists; split; [reflexivity|]. apply finish; auto; [intros; eauto|].
    eapply win_iff; [|exact W]. intros x y [I1 I2]; split; auto. intros _. exists y. lia.
  - destruct (flat_loop (fun _ => v) E) as (d & Ed & L & W). rewrite Ed. cbn [bind]. eexists; split; [reflexivity|].
    apply finish; auto. intros; eauto.
Qed.

Lemma gray_fill_uniform_ok (f : Z -> A) : g_sub g = false ->
  exists g', gray_fill_uniform g f = Ok g' /\ holds g g g' (fun x y => Some (f (y * g_width g + x))).
Proof.
  intros E. unfold gray_fill_uniform. destruct (flat_loop f E) as (d & Ed & L & W). rewrite Ed. cbn [bind].
  eexists; split; [reflexivity|]. apply finish; auto. intros; eauto.
Qed.

Lemma put2 (F : Z -> Z -> option A) v x1 y1 x2 y2 d : inside g x1 y1 -> inside g x2 y2 -> zlen d = zlen (g_data g) ->
  F x1 y1 = Some v -> F x2 y2 = Some v ->
  exists d', (let* d := bset d (pos g x1 y1) v in bset d (pos g x2 y2) v) = Ok d' /\
    writes d (win g F (fun x y => (x = x1 /\ y = y1) \/ (x = x2 /\ y = y2))) d'.
Proof.
  intros I1 I2 L F1 F2. destruct (bset_exists d (pos g x1 y1) v) as (d1 & E1 & L1 & _).
  { rewrite L. now apply wf_pos. }
  rewrite E1. cbn [bind]. destruct (bset_exists d1 (pos g x2 y2) v) as (d2 & E2 & L2 & _).
  { rewrite L1, L. now apply wf_pos. }
  exists d2. split; auto. eapply win_seq; eapply win_put; eauto.
Qed.

Lemma gray_fill_border_ok v r : 0 <= r ->
  exists g', gray_fill_border g v r = Ok g' /\
    holds g g g' (fun x y => if near_edge g r x y then Some v else pixel g x y).
Proof.
  intros Hr. unfold gray_fill_border. destruct (_ || _) eqn:B.
  { destruct (gray_fill_ok v) as (g' & E & H1 & H2 & H3 & H4 & H5). exists g'. split; auto. split; auto. split; auto. split; auto.
    split; auto. intros x y Hi. rewrite H4 by auto. destruct Hi. unfold near_edge. now replace (_ || _) with true by lia. }
  assert (W := Hg). unfold wf in W. destruct W as (W1 & W2 & W3 & W4 & W5 & W6 & W7). clear W7.
  set (F := fun x y => if near_edge g r x y then Some v else pixel g x y).
  assert (P0 : forall x y, inside g x y -> 0 <= pos g x y < 4294967296).
  { intros x y Hi. pose proof (wf_pos g x y Hg Hi). lia. }
  (* top and bottom *)
  match goal with |- context [for_range 0 r ?b (g_data g)] =>
    destruct (win_loop g F (fun y x' y' => (y' = y \/ y' = g_height g - y - 1) /\ 0 <= x' < g_width g) 0 r b (g_data g) eq_refl)
      as (d1 & E1 & L1 & Q1) end.
  { intros y d Hy L. rewrite (u32_id (g_height g - y - 1)) by lia. cbn zeta.
    match goal with |- context [for_range 0 (g_width g) ?b d] =>
      destruct (win_loop g F (fun x x' y' => (x' = x /\ y' = y) \/ (x' = x /\ y' = g_height g - y - 1)) 0 (g_width g) b d L)
        as (d' & E' & L' & Q') end.
    - intros x d0 Hx L0.
      assert (J1 : inside g x y) by (split; lia). assert (J2 : inside g x (g_height g - y - 1)) by (split; lia).
      rewrite !u32_add_l. fold (pos g x y). fold (pos g x (g_height g - y - 1)).
      rewrite (u32_id (pos g x y)) by auto. rewrite (u32_id (pos g x (g_height g - y - 1))) by auto.
      apply put2; auto; unfold F, near_edge; now replace (_ || _) with true by lia.
    - exists d'. split; auto. eapply win_iff; [|exact Q']. intros x' y' _; split.
      + intros (i & Hi & H). lia.
      + intros [H Hx]. exists x'. lia. }
  rewrite E1. cbn [bind]. rewrite (u32_id (g_height g - r)) by lia.
  match goal with |- context [for_range 0 r ?b d1] =>
    destruct (win_loop g F (fun x x' y' => (x' = x \/ x' = g_width g - 1 - x) /\ r <= y' < g_height g - r) 0 r b d1 L1)
      as (d2 & E2 & L2 & Q2) end.
  { intros x d Hx L. cbn zeta.
    match goal with |- context [for_range r (g_height g - r) ?b d] =>
      destruct (win_loop g F (fun y x' y' => (x' = x /\ y' = y) \/ (x' = g_width g - 1 - x /\ y' = y)) r (g_height g - r) b d L)
        as (d' & E' & L' & Q') end.
    - intros y d0 Hy L0.
      assert (J1 : inside g x y) by (split; lia). assert (J2 : inside g (g_width g - 1 - x) y) by (split; lia).
      rewrite !u32_add_l.
      replace (u32 (g_offset g + r * g_stride g) + x + (y - r) * g_stride g)
        with (u32 (g_offset g + r * g_stride g) + (x + (y - r) * g_stride g)) by lia.
      replace (u32 (g_offset g + r * g_stride g) + g_width g - 1 - x + (y - r) * g_stride g)
        with (u32 (g_offset g + r * g_stride g) + (g_width g - 1 - x + (y - r) * g_stride g)) by lia.
      rewrite !u32_add_l.
      replace (g_offset g + r * g_stride g + (x + (y - r) * g_stride g)) with (pos g x y) by (unfold pos; lia).
      replace (g_offset g + r * g_stride g + (g_width g - 1 - x + (y - r) * g_stride g))
        with (pos g (g_width g - 1 - x) y) by (unfold pos; lia).
      rewrite (u32_id (pos g x y)) by auto. rewrite (u32_id (pos g (g_width g - 1 - x) y)) by auto.
      apply put2; auto; unfold F, near_edge; now replace (_ || _) with true by lia.
    - exists d'. split; auto. eapply win_iff; [|exact Q']. intros x' y' _; split.
      + intros (i & Hi & H). lia.
      + intros [H Hy]. exists y'. lia. }
  rewrite E2. cbn [bind]. eexists; split; [reflexivity|].
  assert (Q : writes (g_data g) (win g F (fun x y => near_edge g r x y = true)) d2).
  { eapply win_iff; [|eapply win_seq; [exact Q1|exact Q2]]. intros x y [I1 I2]. unfold near_edge. split.
    - intros [(i & Hi & H)|(i & Hi & H)]; lia.
    - intros H. destruct (Z.ltb_spec y r); [left; exists y; lia|].
      destruct (Z.leb_spec (g_height g - r) y); [left; exists (g_height g - y - 1); lia|]. right.
      destruct (Z.ltb_spec x r); [exists x; lia|]. exists (g_width g - 1 - x). lia. }
  split; [reflexivity|]. split; [reflexivity|]. split; [now apply with_data_layout|]. split.
  - intros x y Hi. fold (F x y). destruct (near_edge g r x y) eqn:N.
    + rewrite (win_pixel g F Hg (g_data g) d2 _ x y Q Hi N); auto. unfold F. rewrite N. eauto.
    + rewrite (win_keep g F Hg (g_data g) d2 _ x y Q Hi) by (rewrite N; discriminate). unfold F. rewrite N. reflexivity.
  - intros j Hj. eapply win_frame; eauto.
Qed.
End Fill.

(** ** Interleaved images *)
Lemma inter_fill_ok {A} (g : inter A) v : i_wf g -> i_sub g = false ->
  exists g', inter_fill g v = Ok g' /\ i_width g' = i_width g /\ i_height g' = i_height g /\ i_bands g' = i_bands g /\
    (forall x y b, i_inside g x y b -> i_pixel g' x y b = Some v) /\
    (forall j, i_outside_window g j -> znth (i_data g') j = znth (i_data g) j).
Proof.
  intros Hg E. pose proof (i_wf_total g Hg) as T. assert (W := Hg). unfold i_wf in W.
  destruct W as (W1 & W2 & W3 & W4 & W5 & W6 & W7 & W8). destruct (W8 E) as [W9 W10]. clear W8.
  assert (ET : u32 (u32 (i_width g * i_height g) * i_bands g) = i_width g * i_height g * i_bands g).
  { rewrite u32_mul_l. apply u32_id. nia. }
  unfold inter_fill. rewrite ET.
  assert (TL : i_width g * i_height g * i_bands g <= zlen (i_data g)).
  { destruct (Z.eq_dec (i_width g) 0) as [->|]; [apply zlen_nonneg|]. destruct (Z.eq_dec (i_height g) 0) as [->|].
    - rewrite Z.mul_0_r. apply zlen_nonneg.
    - destruct (Z.eq_dec (i_bands g) 0) as [->|]; [rewrite Z.mul_0_r; apply zlen_nonneg|].
      specialize (W7 ltac:(lia) ltac:(lia) ltac:(lia)). rewrite W9, W10 in W7. lia. }
  destruct (for_range_writes (zlen (i_data g)) (fun i j u => j = i /\ u = v) 0 (i_width g * i_height g * i_bands g)
     (fun i d => bset d i v) (i_data g) eq_refl) as (d & Ed & Wd).
  { intros i d Hi L. destruct (bset_exists d i v) as (d' & E' & _); [lia|]. exists d'. split; auto. now apply writes_single. }
  rewrite Ed. cbn [bind]. eexists; split; [reflexivity|]. do 3 (split; [reflexivity|]). destruct Wd as [L Wd]. split.
  - intros x y b Hi. rewrite i_pixel_inside by exact Hi.
    change (znth d (i_pos g x y b) = Some v). destruct (Wd (i_pos g x y b)) as [(u & (i & _ & _ & ->) & Eu)|(N & _)]; auto.
    exfalso. apply (N v). exists (i_pos g x y b). split; auto. destruct Hi as (H1 & H2 & H3). unfold i_pos.
    rewrite W9, W10. assert (0 <= x * i_bands g) by nia.
    assert (x * i_bands g + b < i_width g * i_bands g) by nia.
    set (s := i_width g * i_bands g) in *. assert (0 <= y * s <= (i_height g - 1) * s) by nia. split; [lia|].
    replace (i_width g * i_height g * i_bands g) with (i_height g * s) by (unfold s; lia). lia.
  - intros j Hj. change (znth d j = znth (i_data g) j). destruct (Wd j) as [(u & (i & Hi & -> & ->) & Eu)|(_ & Ej)]; auto.
    exfalso.
    assert (Hb : 0 < i_bands g) by nia. assert (Hw : 0 < i_width g) by nia.
    set (s := i_width g * i_bands g) in *. assert (Hs : 0 < s) by (unfold s; nia).
    apply (Hj (i mod s / i_bands g) (i / s) (i mod s mod i_bands g)).
    + pose proof (Z.mod_pos_bound i s Hs). pose proof (Z.mod_pos_bound (i mod s) (i_bands g) Hb).
      split; [|split]; auto.
      * split; [apply Z.div_pos; lia|apply Z.div_lt_upper_bound; [lia|]]. fold s. rewrite Z.mul_comm. fold s. lia.
      * split; [apply Z.div_pos; lia|apply Z.div_lt_upper_bound; [lia|]].
        replace (s * i_height g) with (i_width g * i_height g * i_bands g) by (unfold s; lia). lia.
    + unfold i_pos. rewrite W9, W10. pose proof (Z.div_mod i s ltac:(lia)).
      pose proof (Z.div_mod (i mod s) (i_bands g) ltac:(lia)). lia.
Qed.

(** ** Average of the bands *)
Lemma bands_In {A} (g : inter A) x y v : In v (bands_of g x y) <-> exists b, i_pixel g x y b = Some v.
Proof.
  unfold bands_of. rewrite in_flat_map. split.
  - intros (b & Hb & H). exists b. destruct (i_pixel g x y b); cbn in H; [destruct H as [->|[]]; auto|destruct H].
  - intros (b & E). exists b. split; [|rewrite E; now left]. apply zrange_In.
    destruct (Z.leb_spec 0 b), (Z.ltb_spec b (i_bands g)); try lia;
      rewrite i_pixel_outside in E by (unfold i_inside; lia); discriminate.
Qed.
Lemma bands_len {A} (g : inter A) x y : i_wf g -> 0 <= x < i_width g -> 0 <= y < i_height g ->
  zlen (bands_of g x y) = i_bands g.
Proof.
  intros Hg Hx Hy. assert (W := Hg). unfold i_wf in W. unfold bands_of. rewrite flat_map_ones; [apply zlen_zrange; lia|].
  intros b Hb. apply zrange_In in Hb. destruct (inter_get_inside g x y b Hg) as (v & _ & ->); [|reflexivity].
  split; [lia|split; lia].
Qed.

Section Avg.
Variables (t : ity) (g : inter Z) (out : gray Z) (M : Z).
Hypothesis Hg : i_wf g.
Hypothesis Hout : wf out.
Hypothesis Hb : 0 < i_bands g.
Hypothesis HM : 0 <= M.
Hypothesis HP : forall x y b v, i_pixel g x y b = Some v -> ity_min t <= v <= ity_max t /\ Z.abs v <= M.
Hypothesis HS : i_bands g * M <= ity_max (sum_type t).
Hypothesis Hsg : t = S64 \/ (forall x y b v, i_pixel g x y b = Some v -> 0 <= v).
Hypothesis Hs : g_sub out = false \/ (g_width out = i_width g /\ g_height out = i_height g).

Lemma convert_reshape : exists o, gray_reshape 0 out (i_width g) (i_height g) = Ok o /\ wf o /\
  g_width o = i_width g /\ g_height o = i_height g.
Proof.
  assert (W := Hg). unfold i_wf in W. pose proof (i_wf_total g Hg) as T.
  assert (T' : i_width g * i_height g < 4294967296) by nia.
  assert (X : exists o, gray_reshape 0 out (i_width g) (i_height g) = Ok o).
  { unfold gray_reshape. destruct (_ && _) eqn:B; eauto. destruct (g_sub out) eqn:Su; eauto.
    destruct Hs as [H|[H1 H2]]; [congruence|]. exfalso. lia. }
  destruct X as (o & Eo). exists o. split; auto. eapply gray_reshape_wf; eauto; lia.
Qed.

Lemma convert_average_ok : exists o out', gray_reshape 0 out (i_width g) (i_height g) = Ok o /\
  convert_average t g out = Ok out' /\
  holds o o out' (fun x y => Some (Z.quot (zsum (bands_of g x y)) (i_bands g))).
Proof.
  destruct convert_reshape as (o & Eo & Ho & Ow & Oh). unfold convert_average. rewrite Eo. cbn [bind].
  assert (W := Hg). unfold i_wf in W. destruct W as (W1 & W2 & W3 & W4 & W5 & W6 & W7 & W8). clear W8.
  set (F := fun x y => Some (Z.quot (zsum (bands_of g x y)) (i_bands g))).
  exists o.
  match goal with |- context [for_range 0 (i_height g) ?b (g_data o)] =>
    destruct (win_loop o F (fun y x' y' => y' = y /\ 0 <= x' < i_width g) 0 (i_height g) b (g_data o) eq_refl) as (d & Ed & L & Q) end.
  { intros y d Hy L. destruct (Z.eq_dec (i_width g) 0) as [Z0|NZ].
    - exists d. rewrite Z0, for_range_nil by lia. split; auto. apply writes_none. intros j v' (x & y' & _ & H & _). lia.
    - destruct (wf_row o y Ho ltac:(lia) ltac:(lia)) as (R1 & R2 & R3). rewrite R1. cbn zeta.
      assert (IP : u32 (i_offset g + y * i_stride g) = i_offset g + y * i_stride g).
      { pose proof (i_wf_pos g 0 y 0 Hg ltac:(split; [lia|split; lia])) as P. unfold i_pos in P. apply u32_id. lia. }
      rewrite IP.
      match goal with |- context [for_range 0 (i_width g) ?b d] =>
        destruct (win_row o F Ho y 0 (i_width g) b d L) as (d' & E' & L' & Q') end; [|eauto].
      intros x d0 Hx L0. split; [split; lia|]. eexists. split; [reflexivity|].
      assert (SUM : for_range 0 (i_bands g) (fun b s => let* p := bget (i_data g) (i_offset g + y * i_stride g + x * i_bands g + b) in
           arith_result (sum_type t) (s + p)) 0 = Ok (zsum (bands_of g x y))).
      { rewrite <- (Z.add_0_l (zsum (bands_of g x y))). rewrite <- (mfold_sum t (bands_of g x y) M); auto.
        - unfold bands_of. rewrite <- for_mfold by lia. apply for_range_ext. intros b s Hbb.
          assert (J : i_inside g x y b) by (split; [lia|split; lia]).
          destruct (inter_get_inside g x y b Hg J) as (v & _ & E). rewrite E.
          rewrite i_pixel_inside in E by auto. unfold i_pos in E. unfold bget. rewrite E. cbn.
          destruct (arith_result (sum_type t) (s + v)); auto.
        - intros v Hv. apply bands_In in Hv as (b & E). now apply HP in E.
        - intros Es. split; [lia|]. intros v Hv. apply bands_In in Hv as (b & E). apply HP in E.
          destruct t; cbn in *; try discriminate; lia.
        - rewrite bands_len by auto. lia. }
      rewrite SUM. cbn [bind].
      pose proof (bands_len g x y Hg Hx Hy) as BL.
      assert (V : forall v, In v (bands_of g x y) -> ity_min t <= v <= ity_max t /\ Z.abs v <= M).
      { intros v Hv. apply bands_In in Hv as (b & E). now apply HP in E. }
      pose proof (average_in t (bands_of g x y) ltac:(lia) (fun v H => proj1 (V v H))) as R. rewrite BL in R.
      pose proof (zsum_le (bands_of g x y) M (fun v H => proj2 (V v H))) as B. rewrite BL in B.
      assert (DIV : div_u32 (sum_type t) (zsum (bands_of g x y)) (i_bands g) = Ok (Z.quot (zsum (bands_of g x y)) (i_bands g))).
      { assert (S64D : div_u32 S64 (zsum (bands_of g x y)) (i_bands g) = arith_result S64 (Z.quot (zsum (bands_of g x y)) (i_bands g))).
        { cbn [div_u32]. unfold int_div. now replace (_ =? 0) with false by lia. }
        destruct Hsg as [->|NN].
        - change (sum_type S64) with S64. rewrite S64D. now apply arith_result_in.
        - assert (0 <= zsum (bands_of g x y)).
          { apply zsum_nonneg. intros v Hv. apply bands_In in Hv as (b & E). eapply NN; eauto. }
          destruct t; cbn [sum_type]; cbn [sum_type ity_max] in HS;
            try (cbn [div_u32]; replace (_ =? 0) with false by lia; rewrite u32_id by lia; now rewrite Z.quot_div_nonneg by lia).
          rewrite S64D. now apply arith_result_in. }
      rewrite DIV. cbn [bind]. rewrite cast_id by auto. unfold pos. reflexivity. }
  eexists. split; [reflexivity|]. rewrite Ed. cbn [bind]. split; [reflexivity|]. apply finish; auto; [unfold F; intros; eauto|].
  eapply win_iff; [|exact Q]. intros x y [I1 I2]; split; auto. intros _. exists y. lia.
Qed.
End Avg.

Lemma convert_average_no_bands t (g : inter Z) (out : gray Z) : i_wf g -> wf out -> g_sub out = false ->
  i_width g * i_height g < 4294967296 -> i_bands g = 0 -> 0 < i_width g -> 0 < i_height g ->
  convert_average t g out = Undef.
Proof.
  intros Hg Ho Hs T Hb Hw Hh. unfold convert_average.
  assert (X : exists o, gray_reshape 0 out (i_width g) (i_height g) = Ok o).
  { unfold gray_reshape. destruct (_ && _); eauto. rewrite Hs. eauto. }
  destruct X as (o & ->). cbn [bind]. rewrite Hb.
  replace (for_range 0 (i_height g)) with (for_range (S := list Z) 0 (i_height g)) by reflexivity.
  rewrite for_range_step by lia. rewrite for_range_step by lia. rewrite for_range_nil by lia. cbn [bind].
  assert (D : div_u32 (sum_type t) 0 0 = Undef) by (destruct t; reflexivity). rewrite D. reflexivity.
Qed.

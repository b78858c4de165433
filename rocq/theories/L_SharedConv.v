(** Lemmas about convolution of images that share memory. *)
From Verif Require Import BaseFacts M_Image S_Image L_Image M_Border S_Border L_Border M_Convolve S_Convolve L_Convolve L_Convolve2 M_Heap S_Heap L_Heap
  M_Shared S_Shared L_Shared L_SharedTop M_SharedConv.

Lemma acc1_ext {E S R} (A : arith E S R) n coef p q : (forall k, 0 <= k < n -> p k = q k) -> acc1 A n coef p = acc1 A n coef q.
Proof. intros H. unfold acc1. apply for_range_ext. intros k s Hk. now rewrite H. Qed.
Lemma acc2_ext {E S R} (A : arith E S R) n coef p q : (forall i j, 0 <= i < n -> 0 <= j < n -> p i j = q i j) -> acc2 A n coef p = acc2 A n coef q.
Proof. intros H. unfold acc2. apply for_range_ext. intros i s Hi. apply for_range_ext. intros j t Hj. now rewrite H. Qed.

Section Conv.
Context {Px S : Type}.
Variables (A : arith Px S Px) (K : kernel S) (b : border Px).
Variables (H : heap Px) (a o : himg) (g go : gray Px).
Hypothesis Ga : good H a g.
Hypothesis Go : good H o go.
Hypothesis Sw : h_width o = h_width a.
Hypothesis Sh : h_height o = h_height a.
Hypothesis Ap : apart a o.
Hypothesis Lw : g_width g <= 1073741824.
Hypothesis Lh : g_height g <= 1073741824.

Let rel := st_rel H o go (fun _ _ => True).
Definition sim (f : list Px -> outcome (list Px)) (k : heap Px -> outcome (heap Px)) : Prop :=
  forall d H', rel d H' -> orel rel (f d) (k H').
Lemma sim_range lo hi f k : (forall i, lo <= i < hi -> sim (f i) (k i)) -> sim (for_range lo hi f) (for_range lo hi k).
Proof.
  intros Hs d H' R. destruct (Z_lt_ge_dec hi lo) as [L|L]; [rewrite !for_range_nil by lia; exact R|].
  apply (orel_range (fun _ => rel)); auto; try lia. intros i s t Hi. now apply Hs.
Qed.
Lemma sim_seq f k f' k' : sim f k -> sim f' k' -> sim (fun d => let* d := f d in f' d) (fun h => let* h := k h in k' h).
Proof. intros S1 S2 d H' R. eapply orel_bind; [apply S1; eauto|]. intros; now apply S2. Qed.

(** The input as it is seen at some time during the loops. *)
Definition like (g' : gray Px) : Prop := g_width g' = g_width g /\ g_height g' = g_height g /\ wf g' /\
  forall x y, inside g x y -> pixel g' x y = pixel g x y /\ bget (g_data g') (pos g x y) = bget (g_data g) (pos g x y).
Lemma dims : g_width g = h_width a /\ g_height g = h_height a /\ g_offset g = h_offset a /\ g_stride g = h_stride a /\
  g_width go = g_width g /\ g_height go = g_height g /\ g_offset go = h_offset o /\ g_stride go = h_stride o.
Proof. destruct (sim_dims H a o g go Ga Go Sw Sh) as (E1 & E2 & E3 & E4 & F1 & F2 & F3 & F4). repeat split; congruence. Qed.
Lemma now_like d H' : rel d H' -> exists g', h_image H' a = Ok g' /\ like g'.
Proof.
  intros R. pose proof R as (E & L & C). destruct dims as (D1 & D2 & D3 & D4 & D5 & D6 & D7 & D8).
  assert (Ga' := Ga). destruct Ga' as (Va & Wa & La). assert (Go' := Go). destruct Go' as (Vo & Wo & Lo).
  pose proof (view_inv _ _ _ Va) as (Ea & _). pose proof (view_inv _ _ _ Vo) as (Eo & _).
  assert (X : exists d', nth_error H' (h_block a) = Some (Some d') /\ zlen d' = zlen (g_data g)).
  { rewrite E, upd_nth. destruct (Nat.eqb_spec (h_block o) (h_block a)) as [Eb|]; [|eauto].
    pose proof (nth_some_lt _ _ _ Eo) as Lt. apply Nat.ltb_lt in Lt. rewrite Lt. exists d. split; auto. rewrite L. congruence. }
  destruct X as (d' & X & Ld). unfold h_image. rewrite X. eexists. split; [reflexivity|]. unfold like. cbn [g_width g_height g_data].
  split; [auto|]. split; [auto|]. split.
  { assert (W := Wa). unfold wf in *. cbn [g_width g_height g_offset g_stride g_data g_sub]. pose proof (view_inv _ _ _ Va) as (_ & V1 & V2 & V3 & V4 & V5).
    rewrite Ld, <- V1, <- V2, <- V3, <- V4, <- V5. exact W. }
  intros x y Hi. assert (B : bget d' (pos g x y) = bget (g_data g) (pos g x y)).
  { pose proof (st_read H a o g go Ga Go _ _ _ x y R Hi) as Q. unfold hread in Q. rewrite X in Q. apply Q.
    intros Eb x' y' [Ix Iy] Ep _. destruct Hi. apply (Ap Eb x y x' y'); try lia. unfold pos in Ep. lia. }
  split; [|exact B]. rewrite (pixel_inside g) by auto. rewrite pixel_inside by (destruct Hi; split; cbn; lia).
  unfold pos at 1. cbn [g_offset g_stride g_data]. rewrite <- D3, <- D4. fold (pos g x y). unfold bget in B.
  destruct (znth d' (pos g x y)), (znth (g_data g) (pos g x y)); congruence.
Qed.

Lemma like_extended g' x y : like g' -> extended b g' x y = extended b g x y.
Proof.
  intros (W & Hh & _ & P). assert (Q : forall x y, pixel g' x y = pixel g x y).
  { intros u v. unfold pixel at 1. destruct (_ && _)%bool eqn:B.
    - rewrite W, Hh in B. assert (I : inside g u v) by (split; lia). destruct (P u v I) as (<- & _). unfold pixel. rewrite W, Hh. now rewrite B.
    - unfold pixel. rewrite W, Hh in B. now rewrite B. }
  destruct b; cbn; rewrite ?W, ?Hh, ?Q; auto.
Qed.
Lemma like_border g' x y : like g' -> 0 < g_width g -> 0 < g_height g -> i32 x -> i32 y -> near b (g_width g) x -> near b (g_height g) y ->
  border_get b g' x y = border_get b g x y.
Proof.
  intros L W0 H0 Ix Iy Nx Ny. pose proof L as (W & Hh & Wf & _).
  destruct (border_get_total b g x y) as (v & E & ->); auto; try lia; [apply Ga|].
  apply border_get_ok; auto; try lia; try (now rewrite ?W, ?Hh). now rewrite like_extended.
Qed.

Lemma sim_put x y j total : inside g x y -> j = pos go x y -> (forall g', like g' -> total g' = total g) ->
  sim (fun d => let* s := total g in let* r := a_out A s in bset d j r) (h_put A a o j total).
Proof.
  intros Hi -> Ht d H' R. destruct (now_like d H' R) as (g' & E & L). unfold h_put. rewrite E. cbn [bind]. rewrite (Ht g' L).
  apply orel_same. intros s _. apply orel_same. intros r _. eapply st_write; eauto.
  destruct dims as (_ & _ & _ & _ & D5 & D6 & _). destruct Hi. split; lia.
Qed.
Lemma sim_put_at x y total : inside g x y -> (forall g', like g' -> total g' = total g) ->
  sim (fun d => let* s := total g in let* r := a_out A s in put_at go x y r d) (h_put_at A a o x y total).
Proof.
  intros Hi Ht d H' R. destruct (now_like d H' R) as (g' & E & L). unfold h_put_at. rewrite E. cbn [bind]. rewrite (Ht g' L).
  apply orel_same. intros s _. apply orel_same. intros r _.
  destruct dims as (D1 & D2 & D3 & D4 & D5 & D6 & D7 & D8). assert (Io : inside go x y) by (destruct Hi; split; lia).
  rewrite put_at_ok; [|apply Go|apply R|exact Io].
  unfold h_set. destruct Io as [I1 I2]. replace (h_width o <=? x) with false by lia. replace (h_height o <=? y) with false by lia. cbn [orb].
  unfold h_index. rewrite <- D7, <- D8. change (u32 (g_offset go + y * g_stride go + x)) with (gray_index go x y).
  rewrite wf_index by (try apply Go; split; lia). eapply st_write; eauto. split; lia.
Qed.

Lemma at_row (k : gray Px) x y : wf k -> inside k x y -> u32 (g_offset k + y * g_stride k) + x = pos k x y.
Proof.
  intros W [I1 I2]. pose proof (wf_index k 0 y W ltac:(split; lia)) as X. unfold gray_index, pos in *. rewrite Z.add_0_r in X. rewrite X. lia.
Qed.
Lemma at_from (k : gray Px) x0 x y : wf k -> inside k x0 y -> inside k x y -> u32 (g_offset k + y * g_stride k + x0) + (x - x0) = pos k x y.
Proof. intros W I1 I2. pose proof (wf_index k x0 y W I1) as X. unfold gray_index, pos in *. rewrite X. lia. Qed.

Section Two.
Hypothesis HK2 : kernel2_ok K.
Lemma pos_range x y : inside g x y -> 0 <= pos go x y < 4294967296.
Proof.
  intros Hi. destruct dims as (_ & _ & _ & _ & D5 & D6 & _). assert (Io : inside go x y) by (destruct Hi; split; lia).
  pose proof (wf_pos go x y ltac:(apply Go) Io). destruct Go as (_ & W & _). unfold wf in W. lia.
Qed.
Lemma like_near g' x y i j : like g' -> inside g x y -> fits b (g_width g) K -> fits b (g_height g) K -> 0 <= i < k_width K -> 0 <= j < k_width K ->
  border_get b g' (s32 (u32 (x - k_offset K + j))) (s32 (u32 (y - k_offset K + i))) = border_get b g (s32 (u32 (x - k_offset K + j))) (s32 (u32 (y - k_offset K + i))).
Proof.
  intros L [I1 I2] F1 F2 Hi Hj. destruct HK2 as (K1 & K2 & _). rewrite !s32_u32 by lia.
  apply like_border; auto; try lia; try (red; lia); apply fits_near; auto; lia.
Qed.
Lemma like_total2 g' x y : like g' -> inside g x y -> fits b (g_width g) K -> fits b (g_height g) K ->
  border_total2 A K b g' (k_offset K) (k_width K) x y = border_total2 A K b g (k_offset K) (k_width K) x y.
Proof.
  intros L I F1 F2. unfold border_total2. apply acc2_ext. intros i j Hi Hj.
  replace (x + (j - k_offset K)) with (x - k_offset K + j) by lia. replace (y + (i - k_offset K)) with (y - k_offset K + i) by lia. now apply like_near.
Qed.
Lemma naive_2_sim : fits b (g_width g) K -> fits b (g_height g) K -> sim (naive_2 A K b g go) (h_naive_2 A K b a o).
Proof.
  intros F1 F2 d H' R. unfold naive_2, h_naive_2. destruct dims as (D1 & D2 & _). rewrite <- D1, <- D2. revert d H' R.
  apply sim_range. intros y Hy. apply sim_range. intros x Hx.
  apply (sim_put_at x y (fun g => acc2 A (k_width K) (fun k l => k2_at K l k)
          (fun k l => border_get b g (s32 (u32 (x - k_offset K + l))) (s32 (u32 (y - k_offset K + k)))))); [split; lia|].
  intros g' L. apply acc2_ext. intros i j Hi Hj. apply like_near; auto. split; lia.
Qed.
Lemma inner_2_sim : k_width K < g_width g -> k_width K < g_height g -> sim (inner_2 A K g go) (h_inner_2 A K a o).
Proof.
  intros F1 F2 d H' R. unfold inner_2, h_inner_2. destruct dims as (D1 & D2 & D3 & D4 & D5 & D6 & D7 & D8). rewrite <- D1, <- D2, <- D3, <- D4, <- D7, <- D8.
  destruct HK2 as (K1 & K2 & _). rewrite (u32_id (k_width K - _ - _)) by lia. rewrite (u32_id (g_height g - _)), (u32_id (g_width g - _)) by lia. cbv zeta. revert d H' R.
  apply sim_range. intros y Hy. apply sim_range. intros x Hx.
  apply (sim_put x y _ (fun g0 => acc2 A (k_width K) (fun ki kj => k_raw K (ki * k_width K + kj))
          (fun ki kj => bget (g_data g0) (u32 (g_offset g + u32 (y + ki - k_offset K) * g_stride g + x - k_offset K) + kj)))).
  - split; lia.
  - rewrite u32_add_l. rewrite u32_id; [unfold pos; lia|]. pose proof (pos_range x y ltac:(split; lia)) as P. unfold pos in P. lia.
  - intros g' L. apply acc2_ext. intros i j Hi Hj. rewrite (u32_id (y + i - k_offset K)) by lia.
    replace (u32 (g_offset g + (y + i - k_offset K) * g_stride g + x - k_offset K) + j) with (pos g (x - k_offset K + j) (y + i - k_offset K)).
    + apply L. split; lia.
    + rewrite <- (at_from g (x - k_offset K)); try apply Ga; try (split; lia).
      replace (x - k_offset K + j - (x - k_offset K)) with j by lia. do 2 f_equal. lia.
Qed.
Lemma border_2_sim : k_width K < g_width g -> k_width K < g_height g -> sim (border_2 A K b g go) (h_border_2 A K b a o).
Proof.
  intros F1 F2 d H' R. unfold border_2, h_border_2. destruct dims as (D1 & D2 & D3 & D4 & D5 & D6 & D7 & D8). rewrite Sw, Sh, <- D1, <- D2, <- D7, <- D8, D5, D6.
  destruct HK2 as (K1 & K2 & _). rewrite (s32_id (k_offset K)) by lia. rewrite (s32_u32 (k_width K - _ - _)) by lia. cbv zeta.
  replace (k_offset K + (k_width K - k_offset K - 1) + 1) with (k_width K) by lia. rewrite (u32_id (g_width g - _)), (u32_id (g_height g - _)) by lia. revert d H' R.
  assert (T1 : fits b (g_width g) K) by (apply narrow_fits; lia). assert (T2 : fits b (g_height g) K) by (apply narrow_fits; lia).
  assert (PUT : forall x y j, inside g x y -> j = pos go x y ->
    sim (fun d => let* s := border_total2 A K b g (k_offset K) (k_width K) x y in let* r := a_out A s in bset d j r)
        (h_put A a o j (fun g => border_total2 A K b g (k_offset K) (k_width K) x y))).
  { intros x y j Hi Ej. apply (sim_put x y j (fun g => border_total2 A K b g (k_offset K) (k_width K) x y)); auto. intros g' L. now apply like_total2. }
  apply sim_seq; apply sim_range.
  - intros y Hy. apply sim_seq; apply sim_range; intros x Hx; (apply PUT; [split; lia|]); rewrite u32_add_l;
      (rewrite u32_id; [unfold pos; lia|]); pose proof (pos_range x y ltac:(split; lia)) as P; unfold pos in P; lia.
  - intros x Hx. apply sim_seq; apply sim_range; intros y Hy; (apply PUT; [split; lia|]); rewrite u32_add_l;
      (rewrite u32_id; [unfold pos; lia|]); pose proof (pos_range x y ltac:(split; lia)) as P; unfold pos in P; lia.
Qed.
End Two.

Hypothesis HK : kernel1_ok K.

Lemma naive_h_sim : fits b (g_width g) K -> sim (naive_h A K b g go) (h_naive_h A K b a o).
Proof.
  intros F d H' R. unfold naive_h, h_naive_h. destruct dims as (D1 & D2 & _). rewrite <- D1, <- D2. revert d H' R.
  apply sim_range. intros y Hy. apply sim_range. intros x Hx.
  apply (sim_put_at x y (fun g => acc1 A (k_width K) (k1_at K) (fun k => border_get b g (s32 (u32 (x - k_offset K + k))) (s32 y)))); [split; lia|].
  intros g' L. apply acc1_ext. intros k Hk. destruct HK as (K1 & K2 & _). rewrite s32_u32 by lia. rewrite (s32_id y) by lia.
  apply like_border; auto; try lia; try (red; lia); [now apply fits_near|apply near_in; lia].
Qed.
Lemma naive_v_sim : fits b (g_height g) K -> sim (naive_v A K b g go) (h_naive_v A K b a o).
Proof.
  intros F d H' R. unfold naive_v, h_naive_v. destruct dims as (D1 & D2 & _). rewrite <- D1, <- D2. revert d H' R.
  apply sim_range. intros y Hy. apply sim_range. intros x Hx.
  apply (sim_put_at x y (fun g => acc1 A (k_width K) (k1_at K) (fun k => border_get b g (s32 x) (s32 (u32 (y - k_offset K + k)))))); [split; lia|].
  intros g' L. apply acc1_ext. intros k Hk. destruct HK as (K1 & K2 & _). rewrite s32_u32 by lia. rewrite (s32_id x) by lia.
  apply like_border; auto; try lia; try (red; lia); [apply near_in; lia|now apply fits_near].
Qed.
Lemma inner_h_sim : k_width K < g_width g -> sim (inner_h_ptr A K g go) (h_inner_h A K a o).
Proof.
  intros F d H' R. unfold inner_h_ptr, h_inner_h. destruct dims as (D1 & D2 & D3 & D4 & D5 & D6 & D7 & D8). rewrite <- D1, <- D2, <- D3, <- D4, <- D7, <- D8.
  destruct HK as (K1 & K2 & _). rewrite (u32_id (g_width g - _)) by lia. revert d H' R.
  apply sim_range. intros y Hy. apply sim_range. intros j Hj.
  apply (sim_put (k_offset K + j) y _ (fun g0 => acc1 A (k_width K) (k_raw K) (fun k => bget (g_data g0) (u32 (g_offset g + y * g_stride g) + j + k)))).
  - split; lia.
  - rewrite <- (at_from go (k_offset K)); try lia; try apply Go; split; lia.
  - intros g' L. apply acc1_ext. intros k Hk. rewrite <- Z.add_assoc, at_row by (try apply Ga; split; lia). apply L. split; lia.
Qed.
Lemma inner_v_sim : k_width K < g_height g -> sim (inner_v_ptr A K g go) (h_inner_v A K a o).
Proof.
  intros F d H' R. unfold inner_v_ptr, h_inner_v. destruct dims as (D1 & D2 & D3 & D4 & D5 & D6 & D7 & D8). rewrite <- D1, <- D2, <- D3, <- D4, <- D7, <- D8.
  destruct HK as (K1 & K2 & _). rewrite (s32_u32 (g_height g - _)) by lia. rewrite (s32_id (k_offset K)) by lia. revert d H' R.
  apply sim_range. intros y Hy. apply sim_range. intros x Hx.
  apply (sim_put x y _ (fun g0 => acc1 A (k_width K) (k_raw K) (fun k => bget (g_data g0) (u32 (g_offset g + u32 (y - k_offset K) * g_stride g) + x + k * g_stride g)))).
  - split; lia.
  - apply at_row; [apply Go|split; lia].
  - intros g' L. apply acc1_ext. intros k Hk. rewrite (u32_id (y - k_offset K)) by lia. rewrite at_row by (try apply Ga; split; lia).
    replace (pos g x (y - k_offset K) + k * g_stride g) with (pos g x (y - k_offset K + k)) by (unfold pos; lia). apply L. split; lia.
Qed.
Lemma border_h_sim : k_width K < g_width g -> sim (border_h A K b g go) (h_border_h A K b a o).
Proof.
  intros F d H' R. unfold border_h, h_border_h. destruct dims as (D1 & D2 & D3 & D4 & D5 & D6 & D7 & D8). rewrite Sw, Sh, <- D1, <- D2, <- D7, <- D8, D5, D6.
  destruct HK as (K1 & K2 & _). rewrite (s32_id (k_offset K)) by lia. rewrite (s32_u32 (k_width K - _ - _)) by lia. cbv zeta. revert d H' R.
  assert (FT : fits b (g_width g) K) by (apply narrow_fits; lia).
  apply sim_range. intros y Hy. rewrite (u32_id (g_width g - _)) by lia. apply sim_seq.
  - apply sim_range. intros x Hx.
    apply (sim_put x y _ (fun g => acc1 A (k_width K) (k_raw K) (fun k => let* xx := coord x k (k_offset K) in border_get b g xx (s32 y)))).
    + split; lia.
    + apply at_row; [apply Go|split; lia].
    + intros g' L. apply acc1_ext. intros k Hk. rewrite coord_ok by lia. cbn [bind]. rewrite (s32_id y) by lia. replace (x + k - k_offset K) with (x - k_offset K + k) by lia.
      apply like_border; auto; try lia; try (red; lia); [|apply near_in; lia]. apply fits_near; auto; lia.
  - apply sim_range. intros x Hx.
    pose proof (sim_put x y (u32 (g_offset go + y * g_stride go + g_width g - (k_width K - k_offset K - 1)) + (x - (g_width g - (k_width K - k_offset K - 1))))
       (fun g => let* xx := arith_result S32 (x - k_offset K) in acc1 A (k_width K) (k_raw K) (fun k => border_get b g (s32 (u32 (xx + k))) (s32 y)))) as Q.
    intros d H' R. rewrite arith_result_in in * by (cbn; lia). cbn [bind] in *. apply Q; auto.
    + split; lia.
    + rewrite <- (at_from go (g_width g - (k_width K - k_offset K - 1))); try apply Go; try (split; lia). do 2 f_equal. lia.
    + intros g' L. apply acc1_ext. intros k Hk. rewrite s32_u32 by lia. rewrite (s32_id y) by lia.
      apply like_border; auto; try lia; try (red; lia); [|apply near_in; lia]. apply fits_near; auto; lia.
Qed.
Lemma border_v_sim : k_width K < g_height g -> sim (border_v A K b g go) (h_border_v A K b a o).
Proof.
  intros F d H' R. unfold border_v, h_border_v. destruct dims as (D1 & D2 & D3 & D4 & D5 & D6 & D7 & D8). rewrite Sw, Sh, <- D1, <- D2, <- D7, <- D8, D5, D6.
  destruct HK as (K1 & K2 & _). rewrite (s32_u32 (k_width K - _ - _)) by lia. cbv zeta. revert d H' R.
  assert (FT : fits b (g_height g) K) by (apply narrow_fits; lia).
  assert (PG : forall x y, inside g x y -> 0 <= pos go x y < 4294967296 /\ 0 <= y * g_stride go).
  { intros x y Hi. assert (Io : inside go x y) by (destruct Hi; split; lia). pose proof (wf_pos go x y ltac:(apply Go) Io). destruct Go as (_ & W & _). unfold wf in W. destruct Hi. split; [lia|nia]. }
  apply sim_range. intros x Hx. rewrite (u32_id (g_height g - _)) by lia. apply sim_seq.
  - apply sim_range. intros y Hy.
    apply (sim_put x y _ (fun g => acc1 A (k_width K) (k_raw K) (fun k => border_get b g (s32 x) (s32 (u32 (y + k - k_offset K)))))).
    + split; lia.
    + rewrite u32_add_l. rewrite u32_id; [unfold pos; lia|]. pose proof (PG x y ltac:(split; lia)) as (P & _). unfold pos in P. lia.
    + intros g' L. apply acc1_ext. intros k Hk. rewrite (s32_id x) by lia. rewrite s32_u32 by lia. replace (y + k - k_offset K) with (y - k_offset K + k) by lia.
      apply like_border; auto; try lia; try (red; lia); [apply near_in; lia|]. apply fits_near; auto; lia.
  - apply sim_range. intros y Hy.
    apply (sim_put x y _ (fun g => acc1 A (k_width K) (k_raw K) (fun k => border_get b g (s32 x) (s32 (u32 (y + k - k_offset K)))))).
    + split; lia.
    + rewrite u32_add_l. rewrite u32_id; [unfold pos; lia|]. pose proof (PG x y ltac:(split; lia)) as (P & _). unfold pos in P. lia.
    + intros g' L. apply acc1_ext. intros k Hk. rewrite (s32_id x) by lia. rewrite s32_u32 by lia. replace (y + k - k_offset K) with (y - k_offset K + k) by lia.
      apply like_border; auto; try lia; try (red; lia); [apply near_in; lia|]. apply fits_near; auto; lia.
Qed.
End Conv.

(** ** The functions of ConvolveImage *)
Section Whole.
Context {Px S : Type} (t0 : Px).
Variables (A : arith Px S Px) (K : kernel S) (b : border Px).
Variables (H : heap Px) (a out : himg) (g go : gray Px).
Hypothesis Ga : good H a g.
Hypothesis Go : good H out go.
Hypothesis Hs : h_width out = h_width a /\ h_height out = h_height a \/ h_sub out = false.
Hypothesis Ap : apart a (target a out).
Hypothesis Lw : h_width a <= 1073741824.
Hypothesis Lh : h_height a <= 1073741824.

Lemma whole (f : gray Px -> list Px -> outcome (list Px)) (k : himg -> heap Px -> outcome (heap Px)) :
  (forall H1 o g1, good H1 a g -> good H1 o g1 -> h_width o = h_width a -> h_height o = h_height a -> apart a o ->
     sim H1 o g1 (f g1) (k o)) ->
  as_copies H out (only (let* o := gray_reshape t0 go (g_width g) (g_height g) in let* d := f o (g_data o) in Ok (with_data o d)))
    (only (let* '(H, o) := h_reshape t0 H out (h_width a) (h_height a) in let* H := k o H in Ok (H, o))).
Proof.
  intros Sm. destruct (take_reshape t0 H a out g go Ga Go Hs) as (H1 & o & g1 & E1 & E2 & Ga1 & G1 & Sw & Sh & Ta & Fr).
  assert (Ap' : apart a o).
  { intros Eb. destruct (Ta Eb) as [Eb' ->]. apply Ap. unfold target. destruct (_ && _); auto. }
  assert (X := Ga). destruct X as (Va & Wg & _). pose proof (view_inv _ _ _ Va) as (_ & D1 & D2 & _).
  unfold only. rewrite D1, D2, E1, E2. cbn [bind].
  apply as_copies_orel. rewrite !bind_assoc. eapply orel_bind with (R := st_rel H1 o g1 (fun _ _ => True)).
  - apply (Sm H1 o g1 Ga1 G1 Sw Sh Ap'). now apply st_init.
  - intros d H2 R. cbn [bind orel]. eapply finish; eauto.
Qed.
Lemma dim_g : g_width g = h_width a /\ g_height g = h_height a.
Proof. destruct Ga as (Va & _). pose proof (view_inv _ _ _ Va) as (_ & D1 & D2 & _). auto. Qed.

Lemma convolve_h_shared : kernel1_ok K -> fits b (h_width a) K ->
  as_copies H out (only (convolve_h A t0 K b g go)) (only (h_convolve_h A t0 K b H a out)).
Proof.
  intros HK F. destruct dim_g as (D1 & D2).
  apply (whole (fun o d => if g_width o <=? k_width K then naive_h A K b g o d else let* d := inner_h_ptr A K g o d in border_h A K b g o d)
    (fun o H => if h_width o <=? k_width K then h_naive_h A K b a o H else let* H := h_inner_h A K a o H in h_border_h A K b a o H)).
  intros H1 o g1 Ga1 G1 Sw Sh Ap1. destruct (dims H1 a o g g1 Ga1 G1 Sw Sh) as (_ & _ & _ & _ & D5 & _). rewrite D5, Sw, D1.
  destruct (Z.leb_spec (h_width a) (k_width K)).
  - apply (naive_h_sim A K b H1 a o g g1); auto; lia || congruence.
  - apply sim_seq; [apply (inner_h_sim A K H1 a o g g1)|apply (border_h_sim A K b H1 a o g g1)]; auto; lia.
Qed.
Lemma convolve_v_shared : kernel1_ok K -> fits b (h_height a) K ->
  as_copies H out (only (convolve_v A t0 K b g go)) (only (h_convolve_v A t0 K b H a out)).
Proof.
  intros HK F. destruct dim_g as (D1 & D2).
  apply (whole (fun o d => if g_height o <=? k_width K then naive_v A K b g o d else let* d := inner_v_ptr A K g o d in border_v A K b g o d)
    (fun o H => if h_height o <=? k_width K then h_naive_v A K b a o H else let* H := h_inner_v A K a o H in h_border_v A K b a o H)).
  intros H1 o g1 Ga1 G1 Sw Sh Ap1. destruct (dims H1 a o g g1 Ga1 G1 Sw Sh) as (_ & _ & _ & _ & _ & D6 & _). rewrite D6, Sh, D2.
  destruct (Z.leb_spec (h_height a) (k_width K)).
  - apply (naive_v_sim A K b H1 a o g g1); auto; lia || congruence.
  - apply sim_seq; [apply (inner_v_sim A K H1 a o g g1)|apply (border_v_sim A K b H1 a o g g1)]; auto; lia.
Qed.
Lemma convolve_2_shared : kernel2_ok K -> fits b (h_width a) K -> fits b (h_height a) K ->
  as_copies H out (only (convolve_2 A t0 K b g go)) (only (h_convolve_2 A t0 K b H a out)).
Proof.
  intros HK F1 F2. destruct dim_g as (D1 & D2).
  apply (whole (fun o d => if (g_width o <=? k_width K) || (g_height o <=? k_width K) then naive_2 A K b g o d else let* d := inner_2 A K g o d in border_2 A K b g o d)
    (fun o H => if (h_width o <=? k_width K) || (h_height o <=? k_width K) then h_naive_2 A K b a o H else let* H := h_inner_2 A K a o H in h_border_2 A K b a o H)).
  intros H1 o g1 Ga1 G1 Sw Sh Ap1. destruct (dims H1 a o g g1 Ga1 G1 Sw Sh) as (_ & _ & _ & _ & D5 & D6 & _). rewrite D5, D6, Sw, Sh, D1, D2.
  destruct (_ || _) eqn:B.
  - apply (naive_2_sim A K b H1 a o g g1); auto; lia || congruence.
  - apply sim_seq; [apply (inner_2_sim A K H1 a o g g1)|apply (border_2_sim A K b H1 a o g g1)]; auto; lia.
Qed.
End Whole.

(** ** Windows of one image *)
Lemma windows_apart {Px} (H : heap Px) p (gp : gray Px) x0 y0 x1 y1 s u0 v0 u1 v1 t : good H p gp -> h_sub p = false ->
  is32 x0 -> is32 y0 -> is32 x1 -> is32 y1 -> is32 u0 -> is32 v0 -> is32 u1 -> is32 v1 ->
  h_subimage p x0 y0 x1 y1 = Ok s -> h_subimage p u0 v0 u1 v1 = Ok t ->
  u1 - u0 = x1 - x0 -> v1 - v0 = y1 - y0 -> x1 <= u0 \/ u1 <= x0 \/ y1 <= v0 \/ v1 <= y0 ->
  (exists gs, good H s gs) /\ (exists gt, good H t gt) /\ h_width t = h_width s /\ h_height t = h_height s /\ apart s (target s t).
Proof.
  intros G Sp A1 A2 A3 A4 B1 B2 B3 B4 Es Et Ew Eh Dj.
  destruct (take_parent H p gp x0 y0 x1 y1 s G Sp) as (gs & Gs & _); auto. destruct (take_parent H p gp u0 v0 u1 v1 t G Sp) as (gt & Gt & _); auto.
  split; [eauto|]. split; [eauto|]. destruct G as (V & W & L). pose proof (view_inv _ _ _ V) as (D & E1 & E2 & E3 & E4 & E5).
  unfold h_subimage in Es, Et. destruct (_ || _) eqn:Bs in Es; [discriminate|]. injection Es as <-. destruct (_ || _) eqn:Bt in Et; [discriminate|]. injection Et as <-.
  unfold is32 in *. cbn [h_width h_height]. rewrite Ew, Eh. split; [auto|]. split; [auto|].
  unfold target. cbn [h_width h_height]. rewrite ?Ew, ?Eh, !Z.eqb_refl. cbn [andb]. intros _ x y x' y'. cbn [h_width h_height h_offset h_stride].
  rewrite ?Ew, ?Eh, (u32_id (x1 - x0)), (u32_id (y1 - y0)) by lia. intros X Y X' Y'. unfold wf in W. destruct W as (W1 & W2 & W3 & W4 & W5 & W6 & _).
  specialize (W6 ltac:(lia) ltac:(lia)). rewrite E1, E2, E3, E4 in *.
  assert (M1 : y0 * h_stride p <= (h_height p - 1) * h_stride p) by (apply Z.mul_le_mono_nonneg_r; lia).
  assert (M2 : v0 * h_stride p <= (h_height p - 1) * h_stride p) by (apply Z.mul_le_mono_nonneg_r; lia).
  assert (M3 : 0 <= y0 * h_stride p) by (apply Z.mul_nonneg_nonneg; lia). assert (M4 : 0 <= v0 * h_stride p) by (apply Z.mul_nonneg_nonneg; lia).
  rewrite (u32_id (h_offset p + y0 * h_stride p + x0)), (u32_id (h_offset p + v0 * h_stride p + u0)) by lia. intros E.
  assert (E' : (y0 + y) * h_stride p + (x0 + x) = (v0 + y') * h_stride p + (u0 + x')) by lia.
  assert (R : y0 + y = v0 + y').
  { destruct (Z.lt_trichotomy (y0 + y) (v0 + y')) as [Lt|[?|Lt]]; auto; exfalso.
    - assert (N : (y0 + y + 1) * h_stride p <= (v0 + y') * h_stride p) by (apply Z.mul_le_mono_nonneg_r; lia). lia.
    - assert (N : (v0 + y' + 1) * h_stride p <= (y0 + y) * h_stride p) by (apply Z.mul_le_mono_nonneg_r; lia). lia. }
  rewrite R in E'. lia.
Qed.

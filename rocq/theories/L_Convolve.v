From Verif Require Import BaseFacts M_Image S_Image L_Image M_Border S_Border L_Border M_Convolve S_Convolve L_Window.

Section Acc.
Context {E S R : Type}.
Variable A : arith E S R.

Lemma acc1_from ks : forall (px : Z -> option E) coef pix i s t,
  (forall j c, znth ks j = Some c -> coef (i + j) = Ok c) ->
  (forall j v, 0 <= j < zlen ks -> px (i + j) = Some v -> pix (i + j) = Ok v) ->
  weighted A s ks px i = Some t ->
  for_range i (i + zlen ks)
    (fun k s => let* c := coef k in let* p := pix k in let* m := a_prod A c p in a_add A s m) s = Ok t.
Proof.
  induction ks as [|c ks IH]; intros px coef pix i s t Hc Hp H.
  - rewrite for_range_nil by (zlen_nil; lia). cbn in H. congruence.
  - pose proof (zlen_nonneg ks). rewrite zlen_cons in *. rewrite for_range_step by lia. cbn in H.
    pose proof (Hc 0 c (znth_cons_0 _ _)) as C. replace (i + 0) with i in C by lia. rewrite C. cbn [bind].
    destruct (px i) as [p|] eqn:P; [|discriminate].
    pose proof (Hp 0 p ltac:(lia)) as Q. replace (i + 0) with i in Q by lia. rewrite Q by auto. cbn [bind].
    destruct (a_prod A c p); try discriminate. cbn [bind]. destruct (a_add A s a) as [s'| | |]; try discriminate. cbn [bind].
    replace (i + (1 + zlen ks)) with (i + 1 + zlen ks) by lia. apply (IH px); auto.
    + intros j c' Hj. replace (i + 1 + j) with (i + (j + 1)) by lia. apply Hc.
      pose proof (znth_Some_range _ _ _ Hj). rewrite znth_cons_S by lia. now replace (j + 1 - 1) with j by lia.
    + intros j v Hj Hv. replace (i + 1 + j) with (i + (j + 1)) in * by lia. apply Hp; auto; lia.
Qed.
Lemma acc1_ok ks n px coef pix t :
  zlen ks = n ->
  (forall j c, znth ks j = Some c -> coef j = Ok c) ->
  (forall j v, 0 <= j < n -> px j = Some v -> pix j = Ok v) ->
  weighted A (a_zero A) ks px 0 = Some t -> acc1 A n coef pix = Ok t.
Proof.
  intros L Hc Hp H. unfold acc1. rewrite <- L. rewrite <- (Z.add_0_l (zlen ks)).
  apply (acc1_from ks px); auto.
  intros. apply Hp; auto. lia.
Qed.

Lemma weighted_app l k px i s : weighted A s (l ++ k) px i =
  match weighted A s l px i with Some t => weighted A t k px (i + zlen l) | None => None end.
Proof.
  revert i s; induction l as [|c l IH]; intros i s; cbn.
  - f_equal. zlen_nil; lia.
  - destruct (px i); auto. destruct (a_prod A c e); auto. destruct (a_add A s a); auto.
    rewrite IH. rewrite zlen_cons. destruct (weighted A a0 l px (i + 1)); auto. f_equal; lia.
Qed.

Lemma weighted_ext ks : forall (px px' : Z -> option E) i i' s,
  (forall j, 0 <= j < zlen ks -> px (i + j) = px' (i' + j)) ->
  weighted A s ks px i = weighted A s ks px' i'.
Proof.
  induction ks as [|c ks IH]; intros px px' i i' s H; cbn; auto.
  rewrite zlen_cons in H. pose proof (zlen_nonneg ks).
  pose proof (H 0 ltac:(lia)) as H1. rewrite !Z.add_0_r in H1. rewrite H1.
  destruct (px' i'); auto. destruct (a_prod A c e); auto. destruct (a_add A s a); auto.
  apply IH. intros j Hj. replace (i + 1 + j) with (i + (j + 1)) by lia.
  replace (i' + 1 + j) with (i' + (j + 1)) by lia. apply H; lia.
Qed.

(** The double loop runs through the flat coefficient list. *)
Lemma acc2_ok ks n px coef pix t :
  0 < n -> zlen ks = n * n ->
  (forall i j c, 0 <= i < n -> 0 <= j < n -> znth ks (i * n + j) = Some c -> coef i j = Ok c) ->
  (forall i j v, 0 <= i < n -> 0 <= j < n -> px (i * n + j) = Some v -> pix i j = Ok v) ->
  weighted A (a_zero A) ks px 0 = Some t -> acc2 A n coef pix = Ok t.
Proof.
  intros Hn L Hc Hp H. unfold acc2.
  assert (G : forall m (l : list S) i s t, (Z.of_nat m = n - i) -> 0 <= i <= n -> zlen l = (n - i) * n ->
     (forall j, 0 <= j < zlen l -> znth l j = znth ks (i * n + j)) ->
     weighted A s l px (i * n) = Some t ->
     for_range i n (fun i s => for_range 0 n (fun j s =>
       let* c := coef i j in let* p := pix i j in let* m := a_prod A c p in a_add A s m) s) s = Ok t).
  { induction m as [|m IH]; intros l i s t' Hm Hi Ll Hl Hw.
    - assert (i = n) by lia. subst i. rewrite for_range_nil by lia.
      assert (l = []) as ->. { destruct l; auto. rewrite zlen_cons in Ll. pose proof (zlen_nonneg l). nia. }
      cbn in Hw. congruence.
    - rewrite for_range_step by lia.
      set (l1 := firstn (Z.to_nat n) l). set (l2 := skipn (Z.to_nat n) l).
      assert (El : l = l1 ++ l2) by (symmetry; apply firstn_skipn).
      assert (L1 : zlen l1 = n). { unfold l1, zlen. rewrite firstn_length. unfold zlen in Ll. nia. }
      assert (L2 : zlen l2 = (n - (i + 1)) * n). { rewrite El, zlen_app in Ll. nia. }
      rewrite El, weighted_app in Hw. destruct (weighted A s l1 px (i * n)) as [s1|] eqn:W1; [|discriminate].
      assert (X : forall j, 0 <= j < n -> znth l1 j = znth ks (i * n + j)).
      { intros j Hj. rewrite <- Hl by nia. rewrite El, znth_app_l by lia. reflexivity. }
      rewrite (weighted_ext l1 px (fun j => px (i * n + j)) (i * n) 0 s) in W1 by (intros; f_equal; lia).
      apply (acc1_from l1 (fun j => px (i * n + j)) (coef i) (pix i) 0 s s1) in W1.
      + rewrite Z.add_0_l, L1 in W1. rewrite W1. cbn [bind].
        apply (IH l2); auto; try lia.
        * intros j Hj. replace ((i + 1) * n + j) with (i * n + (n + j)) by lia. rewrite <- Hl by nia.
          rewrite El, znth_app_r by lia. f_equal; lia.
        * replace ((i + 1) * n) with (i * n + zlen l1) by lia. exact Hw.
      + intros j c Hj. rewrite Z.add_0_l. pose proof (znth_Some_range _ _ _ Hj). apply Hc; try lia.
        rewrite <- X by lia. exact Hj.
      + intros j v Hj Hv. rewrite Z.add_0_l in *. apply Hp; auto; lia. }
  apply (G (Z.to_nat n) ks 0 (a_zero A) t); try lia.
  - intros; f_equal; lia.
  - now rewrite Z.mul_0_l.
Qed.
End Acc.

Lemma for_range_from {T} lo n (f : Z -> T -> outcome T) s :
  for_range 0 n f s = for_range lo (lo + n) (fun i => f (i - lo)) s.
Proof.
  rewrite <- (for_range_shift lo (lo + n) (- lo)). f_equal; lia.
Qed.
Lemma k1_at_ok {S} (K : kernel S) j c : znth (k_data K) j = Some c -> k1_at K j = Ok c.
Proof.
  intros H. unfold k1_at. pose proof (znth_Some_range _ _ _ H).
  replace (zlen (k_data K) <=? j) with false by lia. now apply bget_Ok.
Qed.
Lemma k_raw_ok {S} (K : kernel S) j c : znth (k_data K) j = Some c -> k_raw K j = Ok c.
Proof. intros H. now apply bget_Ok. Qed.
Lemma k2_at_ok {S} (K : kernel S) i j c : kernel2_ok K -> 0 <= i < k_width K -> 0 <= j < k_width K ->
  znth (k_data K) (i * k_width K + j) = Some c -> k2_at K j i = Ok c.
Proof.
  intros (Ho & Hw & L) Hi Hj H. unfold k2_at. pose proof (znth_Some_range _ _ _ H).
  replace (k_width K <=? j) with false by lia. replace (k_width K <=? i) with false by lia. cbn.
  rewrite u32_id by nia. replace (zlen (k_data K) <=? _) with false by lia. now apply bget_Ok.
Qed.
Lemma coord_ok x k off : -2147483648 <= x + k < 2147483648 -> -2147483648 <= x + k - off < 2147483648 ->
  coord x k off = Ok (x - off + k).
Proof.
  intros. unfold coord. rewrite arith_result_in by (cbn; lia). cbn [bind]. rewrite arith_result_in by (cbn; lia). f_equal; lia.
Qed.
Lemma filtered_Some {E S R} (A : arith E S R) ks px r : filtered A ks px = Some r ->
  exists s, weighted A (a_zero A) ks px 0 = Some s /\ a_out A s = Ok r.
Proof.
  unfold filtered. destruct (weighted A (a_zero A) ks px 0) as [s|]; [|discriminate].
  destruct (a_out A s) eqn:O; try discriminate. intros H; injection H as <-. eauto.
Qed.
Lemma fits_near {E S} (b : border E) n (K : kernel S) x i :
  fits b n K -> 0 <= x < n -> 0 <= i < k_width K -> near b n (x - k_offset K + i).
Proof. destruct b; cbn; intros; auto; lia. Qed.
Lemma narrow_fits {E S} (b : border E) n (K : kernel S) : 0 <= k_offset K < k_width K -> k_width K <= n -> fits b n K.
Proof. destruct b; cbn; intros; auto; lia. Qed.
Lemma near_in {E} (b : border E) n x : 0 <= x < n -> near b n x.
Proof. destruct b; cbn; intros; auto; lia. Qed.
Lemma put_at_ok {R} (o : gray R) x y r d : wf o -> zlen d = zlen (g_data o) -> inside o x y ->
  put_at o x y r d = bset d (pos o x y) r.
Proof.
  intros Ho L [Hx Hy]. unfold put_at, gray_set. cbn [g_width g_height with_data g_data].
  replace (g_width o <=? x) with false by lia. replace (g_height o <=? y) with false by lia. cbn [orb].
  change (gray_index (with_data o d) x y) with (gray_index o x y). rewrite wf_index by (auto; split; auto).
  destruct (bset d (pos o x y) r); reflexivity.
Qed.

(** ** One-dimensional convolution *)
Section C1.
Context {E S R : Type}.
Variable A : arith E S R.
Variable K : kernel S.
Variable b : border E.
Variable g : gray E.
Variable o : gray R.
Hypothesis HK : kernel1_ok K.
Hypothesis Hg : wf g.
Hypothesis Ho : wf o.
Hypothesis Ew : g_width o = g_width g.
Hypothesis Eh : g_height o = g_height g.
Hypothesis Sw : g_width g <= 1073741824.
Hypothesis Sh : g_height g <= 1073741824.

Lemma get_near x y v : -1073741824 <= x < 2147483648 -> -1073741824 <= y < 2147483648 ->
  near b (g_width g) x -> near b (g_height g) y ->
  extended b g x y = Some v -> border_get b g x y = Ok v.
Proof. intros. apply border_get_ok; auto; try lia; red; lia. Qed.

(** Direct reads of the input buffer. *)
Lemma read_in x y v j : inside g x y -> extended b g x y = Some v -> j = pos g x y -> bget (g_data g) j = Ok v.
Proof.
  intros Hi Ex ->. rewrite extended_inside in Ex by auto. rewrite pixel_inside in Ex by auto. now apply bget_Ok.
Qed.

Lemma naive_h_ok d : zlen d = zlen (g_data o) -> fits b (g_width g) K ->
  (forall x y, inside g x y -> exists r, value_h A K b g x y = Some r) ->
  exists d', naive_h A K b g o d = Ok d' /\ zlen d' = zlen (g_data o) /\
             writes d (win o (value_h A K b g) (fun _ _ => True)) d'.
Proof.
  intros L HF HV. unfold naive_h. destruct HK as (K1 & K2 & K3).
  destruct (win_loop o (value_h A K b g) (fun y x' y' => y' = y /\ 0 <= x' < g_width g) 0 (g_height g)
    (fun y d => for_range 0 (g_width g) (fun x d =>
      let* s := acc1 A (k_width K) (k1_at K) (fun k => border_get b g (s32 (u32 (x - k_offset K + k))) (s32 y)) in
      let* r := a_out A s in put_at o x y r d) d) d L) as (d' & Ed & L' & W).
  - intros y d0 Hy L0.
    destruct (win_row o (value_h A K b g) Ho y 0 (g_width g) (fun x d =>
      let* s := acc1 A (k_width K) (k1_at K) (fun k => border_get b g (s32 (u32 (x - k_offset K + k))) (s32 y)) in
      let* r := a_out A s in put_at o x y r d) d0 L0) as (d' & Ed & L' & W); eauto.
    intros x d1 Hx L1. assert (Hi : inside g x y) by (split; lia). split; [split; lia|].
    destruct (HV x y Hi) as (r & Fr). exists r; split; auto.
    apply filtered_Some in Fr as (s & Ws & Os).
    rewrite (acc1_ok A (k_data K) (k_width K) (fun i => extended b g (x - k_offset K + i) y) _ _ s); auto.
    + cbn. rewrite Os. cbn. apply put_at_ok; auto. split; lia.
    + intros; now apply k1_at_ok.
    + intros j v Hj Hv. rewrite s32_u32, s32_id by lia. apply get_near; auto; try lia.
      * apply fits_near; auto; lia.
      * apply near_in; lia.
  - exists d'. split; auto. split; auto. eapply win_iff; [|exact W]. intros x y [I1 I2]; split; auto.
    intros _. exists y. lia.
Qed.

Lemma naive_v_ok d : zlen d = zlen (g_data o) -> fits b (g_height g) K ->
  (forall x y, inside g x y -> exists r, value_v A K b g x y = Some r) ->
  exists d', naive_v A K b g o d = Ok d' /\ zlen d' = zlen (g_data o) /\
             writes d (win o (value_v A K b g) (fun _ _ => True)) d'.
Proof.
  intros L HF HV. unfold naive_v. destruct HK as (K1 & K2 & K3).
  match goal with |- context [for_range _ _ ?f d] => 
    destruct (win_loop o (value_v A K b g) (fun y x' y' => y' = y /\ 0 <= x' < g_width g) 0 (g_height g) f d L) 
      as (d' & Ed & L' & W) end.
  - intros y d0 Hy L0.
    match goal with |- context [for_range _ _ ?f d0] =>
      destruct (win_row o (value_v A K b g) Ho y 0 (g_width g) f d0 L0) as (d' & Ed & L' & W); eauto end.
    intros x d1 Hx L1. assert (Hi : inside g x y) by (split; lia). split; [split; lia|].
    destruct (HV x y Hi) as (r & Fr). exists r; split; auto.
    apply filtered_Some in Fr as (s & Ws & Os).
    rewrite (acc1_ok A (k_data K) (k_width K) (fun i => extended b g x (y - k_offset K + i)) _ _ s); auto.
    + cbn. rewrite Os. cbn. apply put_at_ok; auto. split; lia.
    + intros; now apply k1_at_ok.
    + intros j v Hj Hv. rewrite s32_u32, s32_id by lia. apply get_near; auto; try lia.
      * apply near_in; lia.
      * apply fits_near; auto; lia.
  - exists d'. split; auto. split; auto. eapply win_iff; [|exact W]. intros x y [I1 I2]; split; auto.
    intros _. exists y. lia.
Qed.

Lemma inner_h_ptr_ok d : zlen d = zlen (g_data o) -> k_width K <= g_width g ->
  (forall x y, inside g x y -> k_offset K <= x < g_width g - (k_width K - k_offset K - 1) ->
     exists r, value_h A K b g x y = Some r) ->
  exists d', inner_h_ptr A K g o d = Ok d' /\ zlen d' = zlen (g_data o) /\
    writes d (win o (value_h A K b g)
      (fun x y => k_offset K <= x < g_width g - (k_width K - k_offset K - 1))) d'.
Proof.
  intros L HF HV. unfold inner_h_ptr. destruct HK as (K1 & K2 & K3).
  match goal with |- context [for_range _ _ ?f d] => 
    destruct (win_loop o (value_h A K b g) (fun y x' y' => y' = y /\ 
       k_offset K <= x' < g_width g - (k_width K - k_offset K - 1)) 0 (g_height g) f d L) 
      as (d' & Ed & L' & W) end.
  - intros y d0 Hy L0. cbn zeta.
    rewrite (for_range_from (k_offset K)). rewrite (u32_id (g_width g - _)) by lia.
    replace (k_offset K + (g_width g - (k_width K - 1))) with (g_width g - (k_width K - k_offset K - 1)) by lia.
    match goal with |- context [for_range _ _ ?f d0] =>
      destruct (win_row o (value_h A K b g) Ho y (k_offset K) (g_width g - (k_width K - k_offset K - 1)) f d0 L0) 
        as (d' & Ed & L' & W); eauto end.
    intros x d1 Hx L1. assert (Hi : inside g x y) by (split; lia). split; [split; lia|].
    destruct (HV x y Hi Hx) as (r & Fr). exists r; split; auto.
    apply filtered_Some in Fr as (s & Ws & Os).
    rewrite (acc1_ok A (k_data K) (k_width K) (fun i => extended b g (x - k_offset K + i) y) _ _ s); auto.
    + cbn. rewrite Os. cbn. f_equal. 
      assert (I1 : inside o 0 y) by (split; lia). assert (I2 : inside o (k_offset K) y) by (split; lia).
      pose proof (wf_index _ _ _ Ho I2) as X. unfold gray_index, pos in *. rewrite X. lia.
    + intros; now apply k_raw_ok.
    + intros j v Hj Hv. apply (read_in (x - k_offset K + j) y); auto; [split; lia|].
      assert (I1 : inside g 0 y) by (split; lia). pose proof (wf_index _ _ _ Hg I1) as X.
      unfold gray_index, pos in *. rewrite Z.add_0_r in X. rewrite X. lia.
  - exists d'. split; auto. split; auto. eapply win_iff; [|exact W]. intros x y [I1 I2]; split.
    + intros (i & Hi & -> & Hx); auto.
    + intros Hx. exists y. lia.
Qed.

Lemma inner_v_ptr_ok d : zlen d = zlen (g_data o) -> k_width K <= g_height g ->
  (forall x y, inside g x y -> k_offset K <= y < g_height g - (k_width K - k_offset K - 1) ->
     exists r, value_v A K b g x y = Some r) ->
  exists d', inner_v_ptr A K g o d = Ok d' /\ zlen d' = zlen (g_data o) /\
    writes d (win o (value_v A K b g)
      (fun x y => k_offset K <= y < g_height g - (k_width K - k_offset K - 1))) d'.
Proof.
  intros L HF HV. unfold inner_v_ptr. destruct HK as (K1 & K2 & K3). cbn zeta.
  rewrite s32_u32, s32_id by lia.
  match goal with |- context [for_range _ _ ?f d] => 
    destruct (win_loop o (value_v A K b g) (fun y x' y' => y' = y /\ 0 <= x' < g_width g)
        (k_offset K) (g_height g - (k_width K - k_offset K - 1)) f d L) 
      as (d' & Ed & L' & W) end.
  - intros y d0 Hy L0.
    match goal with |- context [for_range _ _ ?f d0] =>
      destruct (win_row o (value_v A K b g) Ho y 0 (g_width g) f d0 L0) as (d' & Ed & L' & W); eauto end.
    intros x d1 Hx L1. assert (Hi : inside g x y) by (split; lia). split; [split; lia|].
    destruct (HV x y Hi Hy) as (r & Fr). exists r; split; auto.
    apply filtered_Some in Fr as (s & Ws & Os).
    rewrite (acc1_ok A (k_data K) (k_width K) (fun i => extended b g x (y - k_offset K + i)) _ _ s); auto.
    + cbn. rewrite Os. cbn. f_equal. assert (I1 : inside o 0 y) by (split; lia). 
      pose proof (wf_index _ _ _ Ho I1) as X. unfold gray_index, pos in *. rewrite Z.add_0_r in X. rewrite X. lia.
    + intros; now apply k_raw_ok.
    + intros j v Hj Hv. apply (read_in x (y - k_offset K + j)); auto; [split; lia|].
      assert (I1 : inside g 0 (y - k_offset K)) by (split; lia). pose proof (wf_index _ _ _ Hg I1) as X.
      unfold gray_index, pos in *. rewrite Z.add_0_r in X. rewrite (u32_id (y - k_offset K)) by lia. rewrite X. lia.
  - exists d'. split; auto. split; auto. eapply win_iff; [|exact W]. intros x y [I1 I2]; split.
    + intros (i & Hi & -> & Hx); auto.
    + intros Hx. exists y. lia.
Qed.

Lemma border_h_ok d : zlen d = zlen (g_data o) -> k_width K < g_width g ->
  (forall x y, inside g x y -> exists r, value_h A K b g x y = Some r) ->
  exists d', border_h A K b g o d = Ok d' /\ zlen d' = zlen (g_data o) /\
    writes d (win o (value_h A K b g)
      (fun x y => x < k_offset K \/ g_width g - (k_width K - k_offset K - 1) <= x)) d'.
Proof.
  intros L HF HV. unfold border_h. destruct HK as (K1 & K2 & K3). cbn zeta.
  pose proof (s32_id (k_offset K) ltac:(lia)) as SO. rewrite !SO. rewrite s32_u32 by lia.
  assert (FT : fits b (g_width g) K) by (apply narrow_fits; lia).
  match goal with |- context [for_range _ _ ?f d] => 
    destruct (win_loop o (value_h A K b g) (fun y x' y' => y' = y /\ 
       (x' < k_offset K \/ g_width g - (k_width K - k_offset K - 1) <= x')) 0 (g_height o) f d L) 
      as (d' & Ed & L' & W) end.
  - intros y d0 Hy L0. cbn zeta.
    assert (I1 : inside o 0 y) by (split; lia). pose proof (wf_index _ _ _ Ho I1) as X.
    unfold gray_index, pos in X. rewrite Z.add_0_r in X. rewrite X.
    match goal with |- context [for_range 0 _ ?f d0] =>
      destruct (win_row o (value_h A K b g) Ho y 0 (k_offset K) f d0 L0) as (d1 & Ed & L' & W) end.
    { intros x d1 Hx L1. assert (Hi : inside g x y) by (split; lia). split; [split; lia|].
      destruct (HV x y Hi) as (r & Fr). exists r; split; auto.
      apply filtered_Some in Fr as (s & Ws & Os).
      rewrite (acc1_ok A (k_data K) (k_width K) (fun i => extended b g (x - k_offset K + i) y) _ _ s); auto.
      - cbn. rewrite Os. cbn. reflexivity.
      - intros; now apply k_raw_ok.
      - intros j v Hj Hv. rewrite coord_ok by lia. cbn. rewrite s32_id by lia.
        apply get_near; auto; try lia; [apply fits_near; auto; lia|apply near_in; lia]. }
    rewrite Ed. cbn [bind]. rewrite (u32_id (g_width o - _)) by lia.
    match goal with |- context [for_range _ _ ?f d1] =>
      destruct (win_row o (value_h A K b g) Ho y (g_width o - (k_width K - k_offset K - 1)) (g_width o) f d1 L') 
        as (d2 & Ed2 & L2 & W2) end.
    { intros x d2 Hx L2. assert (Hi : inside g x y) by (split; lia). split; [split; lia|].
      destruct (HV x y Hi) as (r & Fr). exists r; split; auto.
      apply filtered_Some in Fr as (s & Ws & Os).
      rewrite arith_result_in by (cbn; lia). cbn [bind].
      rewrite (acc1_ok A (k_data K) (k_width K) (fun i => extended b g (x - k_offset K + i) y) _ _ s); auto.
      - cbn. rewrite Os. cbn. f_equal.
        assert (I2 : inside o (g_width o - (k_width K - k_offset K - 1)) y) by (split; lia). 
        pose proof (wf_index _ _ _ Ho I2) as X2.
        unfold gray_index, pos in *. rewrite Z.add_sub_assoc in X2. rewrite X2. lia.
      - intros; now apply k_raw_ok.
      - intros j v Hj Hv. rewrite s32_u32, s32_id by lia.
        apply get_near; auto; try lia; [apply fits_near; auto; lia|apply near_in; lia]. }
    exists d2; split; auto. eapply win_iff; [|eapply win_seq; [exact W|exact W2]].
    intros x' y' [I3 I4]. lia.
  - exists d'. split; auto. split; auto. eapply win_iff; [|exact W]. intros x y [I1 I2]; split.
    + intros (i & Hi & -> & Hx); auto.
    + intros Hx. exists y. lia.
Qed.

Lemma border_v_ok d : zlen d = zlen (g_data o) -> k_width K < g_height g ->
  (forall x y, inside g x y -> exists r, value_v A K b g x y = Some r) ->
  exists d', border_v A K b g o d = Ok d' /\ zlen d' = zlen (g_data o) /\
    writes d (win o (value_v A K b g)
      (fun x y => y < k_offset K \/ g_height g - (k_width K - k_offset K - 1) <= y)) d'.
Proof.
  intros L HF HV. unfold border_v. destruct HK as (K1 & K2 & K3). cbn zeta.
  rewrite s32_u32 by lia.
  assert (FT : fits b (g_height g) K) by (apply narrow_fits; lia).
  match goal with |- context [for_range _ _ ?f d] => 
    destruct (win_loop o (value_v A K b g) (fun x x' y' => x' = x /\ 
       (y' < k_offset K \/ g_height g - (k_width K - k_offset K - 1) <= y')) 0 (g_width o) f d L) 
      as (d' & Ed & L' & W) end.
  - intros x d0 Hx L0. cbn zeta.
    assert (IDX : forall y, 0 <= y < g_height o -> u32 (u32 (g_offset o + x) + y * g_stride o) = pos o x y).
    { intros y Hy. assert (I1 : inside o x y) by (split; lia). pose proof (wf_index _ _ _ Ho I1) as X.
      unfold gray_index, pos in *. rewrite <- X. rewrite u32_add_l. f_equal. lia. }
    match goal with |- context [for_range 0 _ ?f d0] =>
      destruct (win_col o (value_v A K b g) Ho x 0 (k_offset K) f d0 L0) as (d1 & Ed & L' & W) end.
    { intros y d1 Hy L1. assert (Hi : inside g x y) by (split; lia). split; [split; lia|].
      destruct (HV x y Hi) as (r & Fr). exists r; split; auto.
      apply filtered_Some in Fr as (s & Ws & Os).
      rewrite (acc1_ok A (k_data K) (k_width K) (fun i => extended b g x (y - k_offset K + i)) _ _ s); auto.
      - cbn. rewrite Os. cbn. now rewrite IDX by lia.
      - intros; now apply k_raw_ok.
      - intros j v Hj Hv. replace (y + j - k_offset K) with (y - k_offset K + j) by lia. rewrite s32_u32, s32_id by lia.
        apply get_near; auto; try lia; [apply near_in; lia|apply fits_near; auto; lia]. }
    rewrite Ed. cbn [bind]. rewrite (u32_id (g_height o - _)) by lia.
    match goal with |- context [for_range _ _ ?f d1] =>
      destruct (win_col o (value_v A K b g) Ho x (g_height o - (k_width K - k_offset K - 1)) (g_height o) f d1 L') 
        as (d2 & Ed2 & L2 & W2) end.
    { intros y d2 Hy L2. assert (Hi : inside g x y) by (split; lia). split; [split; lia|].
      destruct (HV x y Hi) as (r & Fr). exists r; split; auto.
      apply filtered_Some in Fr as (s & Ws & Os).
      rewrite (acc1_ok A (k_data K) (k_width K) (fun i => extended b g x (y - k_offset K + i)) _ _ s); auto.
      - cbn. rewrite Os. cbn. f_equal. rewrite u32_add_l. rewrite <- IDX by lia. rewrite u32_add_l. f_equal. nia.
      - intros; now apply k_raw_ok.
      - intros j v Hj Hv. replace (y + j - k_offset K) with (y - k_offset K + j) by lia. rewrite s32_u32, s32_id by lia.
        apply get_near; auto; try lia; [apply near_in; lia|apply fits_near; auto; lia]. }
    exists d2; split; auto. eapply win_iff; [|eapply win_seq; [exact W|exact W2]].
    intros x' y' [I3 I4]. lia.
  - exists d'. split; auto. split; auto. eapply win_iff; [|exact W]. intros x y [I1 I2]; split.
    + intros (i & Hi & -> & Hx); auto.
    + intros Hx. exists x. lia.
Qed.
Lemma inner_h_idx_ok d : zlen d = zlen (g_data o) -> k_width K <= g_width g -> zlen (g_data g) < 2147483648 ->
  (forall x y, inside g x y -> k_offset K <= x < g_width g - (k_width K - k_offset K - 1) ->
     exists r, value_h A K b g x y = Some r) ->
  exists d', inner_h_idx A K g o d = Ok d' /\ zlen d' = zlen (g_data o) /\
    writes d (win o (value_h A K b g)
      (fun x y => k_offset K <= x < g_width g - (k_width K - k_offset K - 1))) d'.
Proof.
  intros L HF HZ HV. unfold inner_h_idx. destruct HK as (K1 & K2 & K3).
  match goal with |- context [for_range _ _ ?f d] => 
    destruct (win_loop o (value_h A K b g) (fun y x' y' => y' = y /\ 
       k_offset K <= x' < g_width g - (k_width K - k_offset K - 1)) 0 (g_height g) f d L) 
      as (d' & Ed & L' & W) end.
  - intros y d0 Hy L0. cbn zeta.
    assert (I0 : inside g 0 y) by (split; lia). pose proof (wf_index _ _ _ Hg I0) as X0.
    assert (I9 : inside g (g_width g - 1) y) by (split; lia).
    pose proof (wf_pos _ _ _ Hg I0). pose proof (wf_pos _ _ _ Hg I9).
    unfold gray_index, pos in *. rewrite Z.add_0_r in X0. rewrite X0.
    set (p := g_offset g + y * g_stride g) in *. assert (Ep : p = g_offset g + y * g_stride g) by reflexivity.
    clearbody p. rewrite (s32_id p) by lia.
    rewrite (u32_id (p + _ - _)), (s32_id (p + _ - _)) by lia.
    replace (p + g_width g - (k_width K - 1)) with (g_width g - (k_width K - k_offset K - 1) + (p - k_offset K)) by lia.
    replace (for_range p) with (for_range (S := list R) (k_offset K + (p - k_offset K))) by (f_equal; lia).
    rewrite for_range_shift.
    match goal with |- context [for_range _ _ ?f d0] =>
      destruct (win_row o (value_h A K b g) Ho y (k_offset K) (g_width g - (k_width K - k_offset K - 1)) f d0 L0) 
        as (d' & Ed & L' & W); eauto end.
    intros x d1 Hx L1. assert (Hi : inside g x y) by (split; lia). split; [split; lia|].
    destruct (HV x y Hi Hx) as (r & Fr). exists r; split; auto.
    apply filtered_Some in Fr as (s & Ws & Os).
    rewrite (acc1_ok A (k_data K) (k_width K) (fun i => extended b g (x - k_offset K + i) y) _ _ s); auto.
    + cbn [bind]. rewrite Os. cbn [bind]. f_equal. rewrite u32_add_l.
      assert (I2 : inside o x y) by (split; lia).
      rewrite <- (wf_index _ _ _ Ho I2). unfold gray_index. f_equal. lia.
    + intros; now apply k_raw_ok.
    + intros j v Hj Hv. apply (read_in (x - k_offset K + j) y); auto; [split; lia|]. unfold pos. lia.
  - exists d'. split; auto. split; auto. eapply win_iff; [|exact W]. intros x y [I1 I2]; split.
    + intros (i & Hi & -> & Hx); auto.
    + intros Hx. exists y. lia.
Qed.

Lemma inner_v_idx_ok d : zlen d = zlen (g_data o) -> k_width K <= g_height g -> zlen (g_data g) < 2147483648 ->
  (forall x y, inside g x y -> k_offset K <= y < g_height g - (k_width K - k_offset K - 1) ->
     exists r, value_v A K b g x y = Some r) ->
  exists d', inner_v_idx A K g o d = Ok d' /\ zlen d' = zlen (g_data o) /\
    writes d (win o (value_v A K b g)
      (fun x y => k_offset K <= y < g_height g - (k_width K - k_offset K - 1))) d'.
Proof.
  intros L HF HZ HV. unfold inner_v_idx. destruct HK as (K1 & K2 & K3). cbn zeta.
  rewrite (u32_id (g_height g - _)) by lia.
  match goal with |- context [for_range _ _ ?f d] => 
    destruct (win_loop o (value_v A K b g) (fun y x' y' => y' = y /\ 0 <= x' < g_width g)
        (k_offset K) (g_height g - (k_width K - k_offset K - 1)) f d L) 
      as (d' & Ed & L' & W) end.
  - intros y d0 Hy L0. rewrite (u32_id (y - k_offset K)) by lia.
    destruct (Z.eq_dec (g_width g) 0) as [W0|W0].
    { rewrite W0 in *. rewrite Z.add_0_r. rewrite for_range_nil.
      - exists d0; split; auto. apply writes_none. intros j v (x' & y' & [I1 I2] & [-> Hx] & _). lia.
      - set (q := s32 (u32 _)). pose proof (s32_range (u32 (g_offset g + (y - k_offset K) * g_stride g))) as Q.
        unfold q. rewrite s32_u32 by lia. lia. }
    assert (I0 : inside g 0 (y - k_offset K)) by (split; unfold wf in Hg; lia). pose proof (wf_index _ _ _ Hg I0) as X0.
    assert (I9 : inside g (g_width g - 1) (y - k_offset K)) by (split; unfold wf in Hg; lia).
    pose proof (wf_pos _ _ _ Hg I0). pose proof (wf_pos _ _ _ Hg I9).
    unfold gray_index, pos in *. rewrite Z.add_0_r in X0. rewrite X0.
    set (p := g_offset g + (y - k_offset K) * g_stride g) in *. assert (Ep : p = g_offset g + (y - k_offset K) * g_stride g) by reflexivity.
    clearbody p. rewrite (s32_id p) by lia.
    rewrite (u32_id (p + _)), (s32_id (p + _)) by lia.
    replace (p + g_width g) with (g_width g + p) by lia.
    replace (for_range p) with (for_range (S := list R) (0 + p)) by (f_equal; lia). rewrite for_range_shift.
    match goal with |- context [for_range _ _ ?f d0] =>
      destruct (win_row o (value_v A K b g) Ho y 0 (g_width g) f d0 L0) as (d' & Ed & L' & W); eauto end.
    intros x d1 Hx L1. assert (Hi : inside g x y) by (split; lia). split; [split; lia|].
    destruct (HV x y Hi Hy) as (r & Fr). exists r; split; auto.
    apply filtered_Some in Fr as (s & Ws & Os).
    rewrite (acc1_ok A (k_data K) (k_width K) (fun i => extended b g x (y - k_offset K + i)) _ _ s); auto.
    + cbn [bind]. rewrite Os. cbn [bind]. f_equal. rewrite u32_add_l.
      assert (I2 : inside o x y) by (split; lia).
      rewrite <- (wf_index _ _ _ Ho I2). unfold gray_index. f_equal. lia.
    + intros; now apply k_raw_ok.
    + intros j v Hj Hv. assert (I1 : inside g x (y - k_offset K + j)) by (split; lia).
      apply (read_in x (y - k_offset K + j)); auto.
      rewrite <- (wf_index _ _ _ Hg I1). unfold gray_index. f_equal. rewrite Ep. lia.
  - exists d'. split; auto. split; auto. eapply win_iff; [|exact W]. intros x y [I1 I2]; split.
    + intros (i & Hi & -> & Hx); auto.
    + intros Hx. exists y. lia.
Qed.
End C1.

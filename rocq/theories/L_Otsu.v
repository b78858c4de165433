(** Lemmas about Otsu's method in exact arithmetic. *)
From Coq Require Import QArith Qround Qfield Lqa.
From Verif Require Import BaseFacts M_Image M_Convolve M_GrowArray L_GrowArray S_Blur L_Blur M_Otsu S_Otsu.
Open Scope Z_scope.

Lemma inj_pos z : 0 < z -> (0 < inject_Z z)%Q.
Proof. intros. change 0%Q with (inject_Z 0). now rewrite <- Zlt_Qlt. Qed.
Lemma inj_nonneg z : 0 <= z -> (0 <= inject_Z z)%Q.
Proof. intros. change 0%Q with (inject_Z 0). now rewrite <- Zle_Qle. Qed.
Lemma inj_neq z : z <> 0 -> ~ (inject_Z z == 0)%Q.
Proof. intros H E. apply H. unfold Qeq in E. cbn in E. lia. Qed.

Lemma d_lt_exact a b : d_lt exact a b = true <-> (a < b)%Q.
Proof.
  cbn. rewrite Bool.negb_true_iff. split; intros H.
  - apply Qnot_le_lt. intros L. apply Qle_bool_iff in L. congruence.
  - apply Bool.not_true_is_false. intros L. apply Qle_bool_iff in L. now apply Qle_not_lt in L.
Qed.
Lemma d_lt_exact_false a b : d_lt exact a b = false <-> (b <= a)%Q.
Proof.
  rewrite <- Bool.not_true_iff_false, d_lt_exact. split; intros H.
  - now apply Qnot_lt_le.
  - now apply Qle_not_lt.
Qed.
Lemma d_int_exact q : (0 <= q)%Q -> d_int exact q = Some (Qfloor q).
Proof. destruct q as [a b]. unfold Qle. cbn. intros H. f_equal. apply Z.quot_div_nonneg; lia. Qed.

Lemma moment_app k l r : moment k (l ++ r) = moment k l + moment (k + zlen l) r.
Proof.
  revert k. induction l as [|a l IH]; intros k; cbn [app moment].
  - zlen_nil. replace (k + 0) with k by lia. lia.
  - rewrite IH. replace (k + zlen (a :: l)) with (k + 1 + zlen l) by (rewrite zlen_cons; lia). lia.
Qed.

Lemma firstn_snoc {A} m : forall (k : list A) v, nth_error k m = Some v -> firstn (S m) k = firstn m k ++ [v].
Proof.
  induction m as [|m IH]; intros k v E; destruct k as [|a k]; try discriminate.
  - cbn in E. injection E as ->. reflexivity.
  - cbn in E. change (firstn (S (S m)) (a :: k)) with (a :: firstn (S m) k). rewrite (IH k v E). reflexivity.
Qed.

Section Fixed.
Variable l : list Z.
Hypothesis Hl : counts l.
Notation pre i := (firstn (Z.to_nat i) l).
Notation suf i := (skipn (Z.to_nat i) l).

Lemma pre_step i v : 0 <= i -> znth l i = Some v -> pre (i + 1) = pre i ++ [v].
Proof.
  intros Hi E. unfold znth in E. destruct (i <? 0) eqn:C; [lia|]. replace (Z.to_nat (i + 1)) with (S (Z.to_nat i)) by lia.
  now apply firstn_snoc.
Qed.
Lemma pre_len i : 0 <= i <= zlen l -> zlen (pre i) = i.
Proof. intros Hi. unfold zlen in *. rewrite firstn_length. lia. Qed.
Lemma split_sum i : zsum (pre i) + zsum (suf i) = zsum l.
Proof. rewrite <- (firstn_skipn (Z.to_nat i) l) at 3. now rewrite zsum_app. Qed.
Lemma split_moment i : 0 <= i <= zlen l -> moment 0 (pre i) + moment i (suf i) = moment 0 l.
Proof. intros Hi. rewrite <- (firstn_skipn (Z.to_nat i) l) at 3. rewrite moment_app, pre_len by auto. reflexivity. Qed.
Lemma pre_sum_step i v : 0 <= i -> znth l i = Some v -> zsum (pre (i + 1)) = zsum (pre i) + v.
Proof. intros Hi E. rewrite (pre_step i v) by auto. rewrite zsum_app, zsum_cons. cbn [zsum fold_right]. lia. Qed.
Lemma pre_moment_step i v : 0 <= i -> znth l i = Some v -> moment 0 (pre (i + 1)) = moment 0 (pre i) + i * v.
Proof.
  intros Hi E. rewrite (pre_step i v) by auto. rewrite moment_app. apply znth_Some_range in E as R.
  rewrite pre_len by lia. cbn [moment]. lia.
Qed.
Lemma nonneg_sum (k : list Z) : Forall (fun c => 0 <= c) k -> 0 <= zsum k.
Proof. induction 1; [cbn; lia|]. rewrite zsum_cons. lia. Qed.
Lemma nonneg_pre i : 0 <= zsum (pre i).
Proof. apply nonneg_sum. destruct Hl as (F & _). rewrite <- (firstn_skipn (Z.to_nat i) l) in F. now apply Forall_app in F. Qed.
Lemma nonneg_suf i : 0 <= zsum (suf i).
Proof. apply nonneg_sum. destruct Hl as (F & _). rewrite <- (firstn_skipn (Z.to_nat i) l) in F. now apply Forall_app in F. Qed.
Lemma nonneg_val i v : znth l i = Some v -> 0 <= v.
Proof. intros E. apply znth_In in E. destruct Hl as (F & _). rewrite Forall_forall in F. auto. Qed.

Lemma separation_nonneg i : (0 <= separation l i)%Q.
Proof.
  unfold separation. destruct (_ || _) eqn:C; [apply Qle_refl|]. pose proof (nonneg_pre (i + 1)). pose proof (nonneg_suf (i + 1)).
  unfold below, above in *. rewrite <- Qmult_assoc. apply Qmult_le_0_compat.
  - apply Qmult_le_0_compat; apply inj_nonneg; lia.
  - set (d := (_ - _)%Q). nra.
Qed.

(** The number of bins and the scale factor of the code's variance. *)
Notation n := (inject_Z (zlen l)).
Hypothesis Hn : 0 < zlen l.
Definition sc : Q := (/ (n * n))%Q.
Lemma n_pos : (0 < n)%Q.
Proof. now apply inj_pos. Qed.
Lemma n_neq : ~ (n == 0)%Q.
Proof. pose proof n_pos. lra. Qed.
Lemma sc_pos : (0 < sc)%Q.
Proof. unfold sc. apply Qinv_lt_0_compat. pose proof n_pos. nra. Qed.

(** ** Sum over the histogram *)
Variable h : growarr Z.
Hypothesis Hh : holds_counts h l.
Lemma idx_ok i : 0 <= i < zlen l -> exists v, znth l i = Some v /\ ga_idx h i = Ok v.
Proof.
  intros Hi. destruct (znth_in_range l i Hi) as (v & E). exists v. split; auto. destruct Hh as [Es Hv]. specialize (Hv i v E).
  unfold ga_at in Hv. destruct (ga_size h <=? i) eqn:C; [discriminate|]. unfold ga_idx.
  destruct (znth (ga_data h) i) as [[w|]|]; congruence.
Qed.
Lemma total_ok inc : (forall i, 0 <= i < zlen l -> exists z, inc (i + 1) = Ok z) ->
  exists s, otsu_total exact inc h = Ok s /\ (s == inject_Z (moment 0 l) / n)%Q.
Proof.
  intros Hinc. unfold otsu_total. destruct Hh as [Es _]. rewrite Es.
  destruct (for_range_inv (fun i (s : Q) => 0 <= i <= zlen l /\ (s == inject_Z (moment 0 (pre i)) / n)%Q) 0 (zlen l)
    (fun i s => let* v := ga_idx h i in let* _ := inc (i + 1) in
       Ok (d_add exact s (d_mul exact (d_div exact (d_of exact i) (d_of exact (zlen l))) (d_of exact v)))) (d_of exact 0)) as (s & E & R & I).
  - lia.
  - split; [lia|]. change (inject_Z 0 == inject_Z 0 / n)%Q. field. apply n_neq.
  - intros i s Hi [R I]. destruct (idx_ok i Hi) as (v & Ev & ->). destruct (Hinc i Hi) as (z & ->). cbn [bind].
    eexists. split; [reflexivity|]. split; [lia|]. cbn [exact d_add d_mul d_div d_of].
    rewrite (pre_moment_step i v) by (auto; lia). rewrite inject_Z_plus, inject_Z_mult, I. field. apply n_neq.
  - exists s. split; [exact E|]. rewrite I. replace (pre (zlen l)) with l; [reflexivity|]. symmetry. apply firstn_all2. unfold zlen. lia.
Qed.

(** ** Main loop *)
Definition inv (i : Z) (s : otsu Q) : Prop :=
  0 <= i <= zlen l /\
  (if o_stop s then zsum (suf i) = 0
   else o_wB s = zsum (pre i) /\ (o_sumB s == inject_Z (moment 0 (pre i)) / n)%Q) /\
  (((o_variance s == 0)%Q /\ o_index s = 0 /\ (o_mB s == 0)%Q /\ (o_mF s == 0)%Q) \/
   (0 <= o_index s < i /\ (o_variance s == separation l (o_index s) * sc)%Q /\ (0 < o_variance s)%Q /\
    (n * o_mB s == low_mean l (o_index s))%Q /\ (n * o_mF s == high_mean l (o_index s))%Q)) /\
  (forall k, 0 <= k < i -> (separation l k * sc <= o_variance s)%Q) /\
  (forall k, 0 <= k < o_index s -> (separation l k * sc < o_variance s)%Q).

Lemma separation_zero i : zsum (pre (i + 1)) = 0 \/ zsum (suf (i + 1)) = 0 -> separation l i = 0%Q.
Proof.
  intros H. unfold separation, below, above.
  destruct ((zsum (pre (i + 1)) =? 0) || (zsum (suf (i + 1)) =? 0)) eqn:E; auto.
  apply Bool.orb_false_iff in E as [E1 E2]. rewrite Z.eqb_neq in E1, E2. lia.
Qed.

Lemma inv_zero i s s' : inv i s -> i < zlen l -> separation l i = 0%Q ->
  o_variance s' = o_variance s -> o_index s' = o_index s -> o_mB s' = o_mB s -> o_mF s' = o_mF s ->
  (if o_stop s' then zsum (suf (i + 1)) = 0
   else o_wB s' = zsum (pre (i + 1)) /\ (o_sumB s' == inject_Z (moment 0 (pre (i + 1))) / n)%Q) ->
  inv (i + 1) s'.
Proof.
  intros (R & _ & I & U & L) Hi Ez E1 E2 E3 E4 S'. unfold inv. rewrite E1, E2, E3, E4. split; [lia|]. split; [exact S'|].
  split; [|split]; auto.
  - destruct I as [I|(I1 & I2)]; [now left|]. right. split; [lia|exact I2].
  - intros k Hk. destruct (Z.eq_dec k i) as [->|]; [|apply U; lia]. rewrite Ez.
    destruct I as [(I & _)|(_ & _ & I & _)]; lra.
Qed.

Lemma step_ok sum i s : (sum == inject_Z (moment 0 l) / n)%Q -> 0 <= i < zlen l -> inv i s ->
  exists s', otsu_step exact h (zsum l) sum i s = Ok s' /\ inv (i + 1) s'.
Proof.
  intros Hsum Hi I. unfold otsu_step. assert (I0 := I). destruct I0 as (R & Sx & V & U & L).
  destruct (o_stop s) eqn:St.
  - exists s. split; auto. destruct (idx_ok i Hi) as (v & Ev & _).
    assert (Z0 : zsum (suf (i + 1)) = 0).
    { pose proof (split_sum i). pose proof (split_sum (i + 1)). rewrite (pre_sum_step i v) in * by (auto; lia).
      pose proof (nonneg_val i v Ev). pose proof (nonneg_suf (i + 1)). lia. }
    apply (inv_zero i s s); auto; try lia; [apply separation_zero; auto|]. rewrite St. auto.
  - destruct Sx as [Hw Hs]. destruct (idx_ok i Hi) as (v & Ev & ->). cbn [bind]. pose proof (nonneg_val i v Ev) as Hv.
    pose proof (pre_sum_step i v ltac:(lia) Ev) as P. pose proof (pre_moment_step i v ltac:(lia) Ev) as Q1.
    pose proof (split_sum (i + 1)) as T. pose proof (nonneg_pre (i + 1)) as N1. pose proof (nonneg_suf (i + 1)) as N2.
    pose proof (nonneg_pre i) as N3. destruct Hl as (_ & Hb & _).
    rewrite Hw. replace (u32 (zsum (pre i) + v)) with (zsum (pre (i + 1))) by (rewrite P; symmetry; apply u32_id; lia).
    destruct (Z.eqb_spec (zsum (pre (i + 1))) 0) as [E0|E0].
    { eexists. split; [reflexivity|]. apply (inv_zero i s); auto; try lia.
      - apply separation_zero; auto.
      - cbn [o_stop o_wB o_sumB]. split; auto. rewrite Hs, Q1. assert (v = 0) as -> by lia.
        replace (moment 0 (pre i) + i * 0) with (moment 0 (pre i)) by lia. reflexivity. }
    replace (u32 (zsum l - zsum (pre (i + 1)))) with (zsum (suf (i + 1))) by (symmetry; rewrite u32_id by lia; lia).
    destruct (Z.eqb_spec (zsum (suf (i + 1))) 0) as [F0|F0].
    { eexists. split; [reflexivity|]. apply (inv_zero i s); auto; try lia.
      apply separation_zero; auto. }
    destruct Hh as [Es _]. rewrite Es. cbn [d_div d_of d_add d_mul d_sub exact].
    set (sumB := (o_sumB s + inject_Z i / n * inject_Z v)%Q).
    assert (HB : (sumB == inject_Z (moment 0 (pre (i + 1))) / n)%Q).
    { unfold sumB. rewrite Hs, Q1, inject_Z_plus, inject_Z_mult. field. apply n_neq. }
    set (mB := (sumB / inject_Z (zsum (pre (i + 1))))%Q).
    set (mF := ((sum - sumB) / inject_Z (zsum (suf (i + 1))))%Q).
    assert (MB : (n * mB == low_mean l i)%Q).
    { unfold mB, low_mean, below. rewrite HB. field. split; [now apply inj_neq|apply n_neq]. }
    assert (MF : (n * mF == high_mean l i)%Q).
    { unfold mF, high_mean, above. rewrite HB, Hsum. rewrite <- (split_moment (i + 1)) by lia. rewrite inject_Z_plus.
      field. split; [now apply inj_neq|apply n_neq]. }
    assert (B : (inject_Z (zsum (pre (i + 1))) * inject_Z (zsum (suf (i + 1))) * (mB - mF) * (mB - mF) == separation l i * sc)%Q).
    { unfold separation. replace (_ || _) with false by (unfold below, above; lia). rewrite <- MB, <- MF. unfold sc, below, above. field. apply n_neq. }
    set (bt := (inject_Z (zsum (pre (i + 1))) * inject_Z (zsum (suf (i + 1))) * (mB - mF) * (mB - mF))%Q) in *.
    assert (V0 : (0 <= o_variance s)%Q) by (destruct V as [(V & _)|(_ & _ & V & _)]; lra).
    change (negb (Qle_bool bt (o_variance s))) with (d_lt exact (o_variance s) bt).
    destruct (d_lt exact (o_variance s) bt) eqn:C.
    + apply d_lt_exact in C. eexists. split; [reflexivity|]. unfold inv. cbn [o_stop o_wB o_sumB o_variance o_index o_mB o_mF].
      split; [lia|]. split; [auto|]. split; [|split].
      * right. split; [lia|]. split; [exact B|]. split; [lra|]. auto.
      * intros k Hk. destruct (Z.eq_dec k i) as [->|]; [lra|]. specialize (U k ltac:(lia)). lra.
      * intros k Hk. specialize (U k ltac:(lia)). lra.
    + apply d_lt_exact_false in C. eexists. split; [reflexivity|]. unfold inv. cbn [o_stop o_wB o_sumB o_variance o_index o_mB o_mF].
      split; [lia|]. split; [auto|]. split; [|split].
      * destruct V as [V|(V1 & V2)]; [now left|]. right. split; [lia|exact V2].
      * intros k Hk. destruct (Z.eq_dec k i) as [->|]; [lra|]. apply U; lia.
      * exact L.
Qed.

Lemma loop_ok sum : (sum == inject_Z (moment 0 l) / n)%Q ->
  exists s, otsu_loop exact h (zsum l) sum = Ok s /\ inv (zlen l) s.
Proof.
  intros Hsum. unfold otsu_loop. destruct Hh as [Es _]. rewrite Es. apply (for_range_inv inv); [lia| |].
  - unfold inv. cbn [o_stop o_wB o_sumB o_variance o_index o_mB o_mF]. split; [lia|].
    split; [split; [reflexivity|change (inject_Z 0 == inject_Z 0 / n)%Q; field; apply n_neq]|]. split; [left; auto 6 using Qeq_refl|].
    split; intros; lia.
  - intros i s Hi I. apply step_ok; auto.
Qed.

Lemma sc_lt a b : (a * sc < b * sc)%Q <-> (a < b)%Q.
Proof. apply Qmult_lt_r, sc_pos. Qed.
Lemma sc_le a b : (a * sc <= b * sc)%Q <-> (a <= b)%Q.
Proof. apply Qmult_le_r, sc_pos. Qed.

Lemma inv_best s : inv (zlen l) s -> best_split l (o_index s) /\
  ((0 < separation l (o_index s))%Q -> (n * o_mB s == low_mean l (o_index s))%Q /\ (n * o_mF s == high_mean l (o_index s))%Q) /\
  (~ (0 < separation l (o_index s))%Q -> (o_mB s == 0)%Q /\ (o_mF s == 0)%Q) /\ (0 <= o_variance s)%Q.
Proof.
  intros (_ & _ & V & U & L). pose proof sc_pos as Sp. destruct V as [(V1 & V2 & V3 & V4)|(V1 & V2 & V3 & V4 & V5)].
  - assert (Z0 : forall k, 0 <= k < zlen l -> (separation l k == 0)%Q).
    { intros k Hk. specialize (U k Hk). rewrite V1 in U. pose proof (separation_nonneg k).
      assert (separation l k * sc <= 0 * sc)%Q as X by lra. apply -> sc_le in X. apply Qle_antisym; auto. }
    split; [|split; [|split]].
    + rewrite V2. split; [lia|]. split; [|intros; lia]. intros i Hi. rewrite (Z0 i Hi), (Z0 0 ltac:(lia)). lra.
    + intros P. rewrite V2, (Z0 0 ltac:(lia)) in P. lra.
    + auto.
    + lra.
  - split; [|split; [|split]].
    + split; [lia|]. split.
      * intros i Hi. apply sc_le. rewrite <- V2. auto.
      * intros i Hi. apply sc_lt. rewrite <- V2. auto.
    + auto.
    + intros P. exfalso. apply P. apply sc_lt. rewrite <- V2. lra.
    + lra.
Qed.

Lemma otsu_1_ok : exists v t, otsu_1 exact h (zsum l) = Ok (v, inject_Z t) /\ best_split l t /\ (0 <= v)%Q.
Proof.
  unfold otsu_1. destruct (total_ok (fun i => Ok (u32 i))) as (s & Es & Hs); [eauto|]. rewrite Es. cbn [bind].
  destruct (loop_ok s Hs) as (o & Eo & I). rewrite Eo. cbn [bind]. apply inv_best in I as (B & _ & _ & V). eexists _, _. split; [reflexivity|]. auto.
Qed.
Lemma otsu_2_ok : zlen l < 2147483648 -> exists v q t, otsu_2 exact h (zsum l) = Ok (v, q) /\ best_split l t /\ (0 <= v)%Q /\
  ((0 < separation l t)%Q -> (q == (low_mean l t + high_mean l t) / 2)%Q) /\ (~ (0 < separation l t)%Q -> (q == 0)%Q).
Proof.
  intros Hz. unfold otsu_2. destruct (total_ok (arith_result S32)) as (s & Es & Hs).
  { intros i Hi. exists (i + 1). apply arith_result_in. cbn. lia. }
  rewrite Es. cbn [bind]. destruct (loop_ok s Hs) as (o & Eo & I). rewrite Eo. cbn [bind].
  apply inv_best in I as (B & K1 & K2 & V). eexists _, _, (o_index o). split; [reflexivity|]. split; auto. split; auto.
  destruct Hh as [Eh _]. rewrite Eh. cbn [d_div d_mul d_of d_add exact]. split; intros P.
  - destruct (K1 P) as [M1 M2]. rewrite <- M1, <- M2. field.
  - destruct (K2 P) as [M1 M2]. rewrite M1, M2. field.
Qed.
End Fixed.

(** ** compute *)
Lemma floor_half_int z : Qfloor (inject_Z z + (1 # 2)) = z.
Proof.
  assert (inject_Z z + (1 # 2) == (2 * z + 1) # 2)%Q as ->.
  { unfold Qeq. cbn. lia. }
  unfold Qfloor. symmetry. apply Z.div_unique with 1; lia.
Qed.
Lemma nearest_floor q : nearest q (Qfloor (q + (1 # 2))).
Proof.
  pose proof (Qfloor_le (q + (1 # 2))). pose proof (Qlt_floor (q + (1 # 2))) as H1. rewrite inject_Z_plus in H1.
  change (inject_Z 1) with 1%Q in H1. split; lra.
Qed.

Lemma exact_half : (d_div exact (d_of exact 1) (d_of exact 2) == 1 # 2)%Q.
Proof. reflexivity. Qed.
Lemma d_to_exact q : (0 <= q)%Q -> Qfloor q <= 2147483647 -> d_to exact S32 q = Ok (Qfloor q).
Proof.
  intros Hq Hm. unfold d_to. rewrite d_int_exact by auto. assert (0 <= Qfloor q).
  { change 0 with (Qfloor 0). now apply Qfloor_resp_le. }
  replace ((ity_min S32 <=? Qfloor q) && (Qfloor q <=? ity_max S32)) with true; auto. symmetry. apply Bool.andb_true_iff.
  cbn. lia.
Qed.

(** The plain configuration rounds to the nearest integer. *)
Lemma compute_plain (two : bool) down h N v q : (if two then otsu_2 exact h N else otsu_1 exact h N) = Ok (v, q) ->
  (0 <= v)%Q -> (0 <= q)%Q -> Qfloor (q + (1 # 2)) <= 2147483647 ->
  exists v', otsu_compute exact two 0%Q down 1%Q h N = Ok (v', inject_Z (Qfloor (q + (1 # 2)))).
Proof.
  intros E Hv Hq Hm. unfold otsu_compute. rewrite E. cbn [bind].
  set (half := d_div exact (d_of exact 1) (d_of exact 2)). assert (Hh : (half == 1 # 2)%Q) by reflexivity.
  set (var := d_add exact v _). assert (Hvar : (0 < var)%Q).
  { unfold var. cbn [d_add d_div d_of exact]. assert (0 < inject_Z 1 / inject_Z 1000)%Q by reflexivity. lra. }
  set (x := d_add exact (d_div exact _ var) half).
  assert (Hx : (x == 1 # 2)%Q).
  { unfold x. cbn [d_add d_div d_mul exact]. rewrite Hh. field. lra. }
  rewrite d_to_exact; [|rewrite Hx; discriminate|rewrite (Qfloor_comp _ _ Hx); discriminate].
  rewrite (Qfloor_comp _ _ Hx). change (Qfloor (1 # 2)) with 0. cbn [bind].
  assert (C : (if down then arith_result S32 (- 0) else Ok 0) = Ok 0) by (destruct down; reflexivity). rewrite C. cbn [bind].
  set (th := d_add exact q _). assert (Hth : (th == q)%Q) by (unfold th; cbn [d_add d_of exact]; change (inject_Z 0) with 0%Q; ring).
  assert (L : d_lt exact th (d_of exact 0) = false) by (apply d_lt_exact_false; rewrite Hth; exact Hq). rewrite L.
  set (y := d_add exact _ half). assert (Hy : (y == q + (1 # 2))%Q) by (unfold y; cbn [d_add d_mul exact]; rewrite Hh, Hth; ring).
  rewrite d_to_exact; [|rewrite Hy; lra|rewrite (Qfloor_comp _ _ Hy); exact Hm]. cbn [bind]. rewrite (Qfloor_comp _ _ Hy). eauto.
Qed.

Lemma best_split_unique l t t' : best_split l t -> best_split l t' -> t = t'.
Proof.
  intros (R & M & S) (R' & M' & S'). destruct (Z.lt_trichotomy t t') as [H|[H|H]]; auto.
  - specialize (S' t ltac:(lia)). specialize (M t' R'). lra.
  - specialize (S t' ltac:(lia)). specialize (M' t R). lra.
Qed.

Lemma otsu_plain l h down : counts l -> holds_counts h l -> 0 < zlen l <= 2147483648 ->
  exists v t, otsu_compute exact false 0%Q down 1%Q h (zsum l) = Ok (v, inject_Z t) /\ best_split l t.
Proof.
  intros Hl Hh Hz. destruct (otsu_1_ok l Hl ltac:(lia) h Hh) as (v & t & E & B & V).
  destruct (compute_plain false down h (zsum l) v (inject_Z t) E V) as (v' & E').
  - destruct B as (B & _). apply inj_nonneg; lia.
  - rewrite floor_half_int. destruct B as (B & _). lia.
  - rewrite floor_half_int in E'. eauto.
Qed.

(** ** Class means *)
Lemma moment_bounds k l : Forall (fun c => 0 <= c) l -> 0 <= k ->
  k * zsum l <= moment k l <= (k + zlen l - 1) * zsum l \/ l = [].
Proof.
  intros F. revert k. induction F as [|a l Ha F IH]; intros k Hk; auto. left. cbn [moment]. rewrite zsum_cons, zlen_cons.
  pose proof (nonneg_sum l F). destruct (IH (k + 1) ltac:(lia)) as [I| ->]; [|cbn; zlen_nil; lia].
  assert (0 <= zlen l) by apply zlen_nonneg. nia.
Qed.
Lemma low_le l i : counts l -> 0 <= i < zlen l -> 0 < zsum (below l i) -> (0 <= low_mean l i /\ low_mean l i <= inject_Z i)%Q.
Proof.
  intros (F & _) Hi Hp. unfold low_mean. assert (F' : Forall (fun c => 0 <= c) (below l i)).
  { rewrite <- (firstn_skipn (Z.to_nat (i + 1)) l) in F. now apply Forall_app in F. }
  assert (L : zlen (below l i) = i + 1) by (unfold below, zlen in *; rewrite firstn_length; lia).
  destruct (moment_bounds 0 (below l i) F' ltac:(lia)) as [[B1 B2]|B]; [|rewrite B in Hp; cbn in Hp; lia].
  pose proof (inj_pos _ Hp). rewrite L in B2. split.
  - apply Qle_shift_div_l; auto. rewrite Qmult_0_l. apply inj_nonneg. lia.
  - apply Qle_shift_div_r; auto. rewrite <- inject_Z_mult, <- Zle_Qle. lia.
Qed.
Lemma high_ge l i : counts l -> 0 <= i < zlen l -> 0 < zsum (above l i) ->
  (inject_Z (i + 1) <= high_mean l i /\ high_mean l i <= inject_Z (zlen l - 1))%Q.
Proof.
  intros (F & _) Hi Hp. unfold high_mean. assert (F' : Forall (fun c => 0 <= c) (above l i)).
  { rewrite <- (firstn_skipn (Z.to_nat (i + 1)) l) in F. now apply Forall_app in F. }
  assert (L : zlen (above l i) = zlen l - (i + 1)) by (unfold above, zlen in *; rewrite skipn_length; lia).
  destruct (moment_bounds (i + 1) (above l i) F' ltac:(lia)) as [[B1 B2]|B]; [|rewrite B in Hp; cbn in Hp; lia].
  pose proof (inj_pos _ Hp). rewrite L in B2. split.
  - apply Qle_shift_div_l; auto. rewrite <- inject_Z_mult, <- Zle_Qle. lia.
  - apply Qle_shift_div_r; auto. rewrite <- inject_Z_mult, <- Zle_Qle.
    replace (zlen l - 1) with (i + 1 + (zlen l - (i + 1)) - 1) by lia. lia.
Qed.
Lemma below_above l i : zsum (below l i) + zsum (above l i) = zsum l.
Proof. unfold below, above. rewrite <- (firstn_skipn (Z.to_nat (i + 1)) l) at 3. now rewrite zsum_app. Qed.
Lemma below_nonneg l i : counts l -> 0 <= zsum (below l i).
Proof. intros (F & _). apply nonneg_sum. rewrite <- (firstn_skipn (Z.to_nat (i + 1)) l) in F. now apply Forall_app in F. Qed.
Lemma above_nonneg l i : counts l -> 0 <= zsum (above l i).
Proof. intros (F & _). apply nonneg_sum. rewrite <- (firstn_skipn (Z.to_nat (i + 1)) l) in F. now apply Forall_app in F. Qed.

(** Both classes occupied: the separation is positive. *)
Lemma separation_pos l i : counts l -> 0 <= i < zlen l ->
  ((0 < separation l i)%Q <-> 0 < zsum (below l i) /\ 0 < zsum (above l i)).
Proof.
  intros Hl Hi. pose proof (below_nonneg l i Hl) as N1. pose proof (above_nonneg l i Hl) as N2. unfold separation.
  destruct ((zsum (below l i) =? 0) || (zsum (above l i) =? 0)) eqn:C.
  - split; [intros P; exfalso; now apply Qlt_irrefl in P|]. intros [P1 P2]. exfalso. apply Bool.orb_true_iff in C. rewrite !Z.eqb_eq in C. lia.
  - apply Bool.orb_false_iff in C as [C1 C2]. rewrite Z.eqb_neq in C1, C2. assert (P1 : 0 < zsum (below l i)) by lia.
    assert (P2 : 0 < zsum (above l i)) by lia. split; [auto|]. intros _.
    destruct (low_le l i Hl Hi P1) as [_ A]. destruct (high_ge l i Hl Hi P2) as [B _].
    rewrite inject_Z_plus in B. change (inject_Z 1) with 1%Q in B. pose proof (inj_pos _ P1). pose proof (inj_pos _ P2).
    rewrite <- Qmult_assoc.
    assert (D : (0 < (low_mean l i - high_mean l i) * (low_mean l i - high_mean l i))%Q).
    { set (a := low_mean l i) in *. set (b := high_mean l i) in *. assert (0 < b - a)%Q by lra. nra. }
    assert (0 < inject_Z (zsum (below l i)) * inject_Z (zsum (above l i)))%Q by nra.
    now apply Qmult_lt_0_compat.
Qed.

Lemma sum_count l i v : counts l -> znth l i = Some v -> v <= zsum l.
Proof.
  intros Hl E. pose proof (pre_sum_step l i v) as P. apply znth_Some_range in E as R. specialize (P ltac:(lia) E).
  pose proof (nonneg_pre l Hl i). pose proof (split_sum l (i + 1)). pose proof (nonneg_suf l Hl (i + 1)). lia.
Qed.
Lemma below_has l i k v : counts l -> znth l k = Some v -> k <= i -> 0 < v -> i < zlen l -> 0 < zsum (below l i).
Proof.
  intros Hl E Hk Hv Hi. apply znth_Some_range in E as R. pose proof (pre_sum_step l k v ltac:(lia) E) as P.
  pose proof (nonneg_pre l Hl k). assert (M : forall j, 0 <= j -> zsum (firstn (Z.to_nat (k + 1)) l) <= zsum (firstn (Z.to_nat (k + 1 + j)) l)).
  { intros j Hj. replace (Z.to_nat (k + 1 + j)) with (Z.to_nat (k + 1) + Z.to_nat j)%nat by lia.
    rewrite <- (firstn_skipn (Z.to_nat (k + 1)) (firstn (Z.to_nat (k + 1) + Z.to_nat j) l)). rewrite zsum_app, firstn_firstn.
    rewrite Nat.min_l by lia. assert (0 <= zsum (skipn (Z.to_nat (k + 1)) (firstn (Z.to_nat (k + 1) + Z.to_nat j) l))); [|lia].
    apply nonneg_sum. destruct Hl as (F & _). rewrite <- (firstn_skipn (Z.to_nat (k + 1) + Z.to_nat j) l) in F.
    apply Forall_app in F as [F _]. rewrite <- (firstn_skipn (Z.to_nat (k + 1)) (firstn _ l)) in F. now apply Forall_app in F. }
  specialize (M (i - k) ltac:(lia)). replace (k + 1 + (i - k)) with (i + 1) in M by lia. unfold below. lia.
Qed.
Lemma znth_split l k v : znth l k = Some v -> zsum (firstn (Z.to_nat k) l) + v + zsum (skipn (Z.to_nat (k + 1)) l) = zsum l.
Proof.
  intros E. apply znth_Some_range in E as R. pose proof (pre_sum_step l k v ltac:(lia) E). pose proof (split_sum l (k + 1)). lia.
Qed.
Lemma above_has l i k v : counts l -> znth l k = Some v -> 0 <= i < k -> 0 < v -> 0 < zsum (above l i).
Proof.
  intros Hl E Hk Hv. apply znth_Some_range in E as R. pose proof (znth_split l k v E). pose proof (below_above l i).
  pose proof (nonneg_suf l Hl (k + 1)).
  assert (zsum (below l i) <= zsum (firstn (Z.to_nat k) l)); [|lia]. unfold below.
  rewrite <- (firstn_skipn (Z.to_nat (i + 1)) (firstn (Z.to_nat k) l)). rewrite zsum_app, firstn_firstn, Nat.min_l by lia.
  assert (0 <= zsum (skipn (Z.to_nat (i + 1)) (firstn (Z.to_nat k) l))); [|lia].
  apply nonneg_sum. destruct Hl as (F & _). rewrite <- (firstn_skipn (Z.to_nat k) l) in F.
  apply Forall_app in F as [F _]. rewrite <- (firstn_skipn (Z.to_nat (i + 1)) (firstn _ l)) in F. now apply Forall_app in F.
Qed.

(** Two occupied bins: the split separates the first from the last. *)
Lemma best_two l t i j a b : counts l -> best_split l t -> znth l i = Some a -> znth l j = Some b -> 0 < a -> 0 < b -> i < j ->
  (0 < separation l t)%Q /\ 0 < zsum (below l t) /\ 0 < zsum (above l t).
Proof.
  intros Hl (R & M & _) Ei Ej Ha Hb Hij. apply znth_Some_range in Ei as Ri. apply znth_Some_range in Ej as Rj.
  assert (P : (0 < separation l i)%Q).
  { apply separation_pos; auto. split; [apply (below_has l i i a)|apply (above_has l i j b)]; auto; lia. }
  specialize (M i Ri). assert (P' : (0 < separation l t)%Q) by lra. split; auto. now apply separation_pos in P'.
Qed.
(** At most one occupied bin: the first split is as good as any. *)
Lemma best_one l t k : counts l -> best_split l t -> (forall i v, znth l i = Some v -> i <> k -> v = 0) -> t = 0.
Proof.
  intros Hl B Hk. apply (best_split_unique l); auto. destruct B as (R & _). split; [lia|]. split; [|intros; lia].
  assert (Z0 : forall i, 0 <= i < zlen l -> ~ (0 < separation l i)%Q).
  { intros i Hi P. apply separation_pos in P as [P1 P2]; auto.
    assert (EX : forall m : list Z, 0 < zsum m -> exists x y, znth m x = Some y /\ y <> 0).
    { clear. induction m as [|a m IH]; [cbn; lia|]. rewrite zsum_cons. intros H. destruct (Z.eq_dec a 0) as [->|N].
      - destruct IH as (x & y & E & Ny); [lia|]. exists (x + 1), y. apply znth_Some_range in E as Rx. rewrite znth_cons_S by lia.
        replace (x + 1 - 1) with x by lia. auto.
      - exists 0, a. now rewrite znth_cons_0. }
    destruct (EX _ P1) as (x1 & y1 & E1 & N1). destruct (EX _ P2) as (x2 & y2 & E2 & N2).
    assert (S : l = below l i ++ above l i) by (unfold below, above; now rewrite firstn_skipn).
    assert (L1 : zlen (below l i) = i + 1) by (unfold below, zlen in *; rewrite firstn_length; lia).
    apply znth_Some_range in E1 as R1. apply znth_Some_range in E2 as R2.
    assert (F1 : znth l x1 = Some y1) by (rewrite S, znth_app_l by lia; auto).
    assert (F2 : znth l (i + 1 + x2) = Some y2).
    { rewrite S, znth_app_r by lia. rewrite L1. replace (i + 1 + x2 - (i + 1)) with x2 by lia. auto. }
    destruct (Z.eq_dec x1 k) as [->|Nk]; [|apply N1; eauto]. apply N2. eapply Hk; [exact F2|lia]. }
  intros i Hi. apply Qnot_lt_le. intros P. apply (Z0 i Hi). pose proof (separation_nonneg l Hl 0). lra.
Qed.

Lemma otsu2_plain l h down : counts l -> holds_counts h l -> 0 < zlen l < 2147483648 ->
  exists v t s, otsu_compute exact true 0%Q down 1%Q h (zsum l) = Ok (v, inject_Z t) /\ best_split l s /\
    ((0 < separation l s)%Q -> nearest ((low_mean l s + high_mean l s) / 2) t) /\
    (~ (0 < separation l s)%Q -> t = 0).
Proof.
  intros Hl Hh Hz. destruct (otsu_2_ok l Hl ltac:(lia) h Hh ltac:(lia)) as (v & q & s & E & B & V & K1 & K2).
  assert (R : (0 <= q)%Q /\ (q <= inject_Z (zlen l - 1))%Q).
  { destruct (Qlt_le_dec 0 (separation l s)) as [P|P].
    - rewrite (K1 P). destruct B as (B & _). apply separation_pos in P as [P1 P2]; auto.
      destruct (low_le l s Hl B P1) as [A1 A2]. destruct (high_ge l s Hl B P2) as [C1 C2].
      assert (0 <= inject_Z s)%Q by (apply inj_nonneg; lia). assert (inject_Z s <= inject_Z (zlen l - 1))%Q by (rewrite <- Zle_Qle; lia).
      split; [apply Qle_shift_div_l|apply Qle_shift_div_r]; try reflexivity.
      + rewrite inject_Z_plus in C1. change (inject_Z 1) with 1%Q in C1. lra.
      + lra.
    - rewrite K2 by lra. split; [lra|]. apply inj_nonneg. lia. }
  destruct R as [R1 R2].
  assert (FL : Qfloor (q + (1 # 2)) <= 2147483647).
  { assert (Qfloor (q + (1 # 2)) <= zlen l - 1); [|lia]. rewrite <- (floor_half_int (zlen l - 1)). apply Qfloor_resp_le. lra. }
  destruct (compute_plain true down h (zsum l) v q E V R1 FL) as (v' & E').
  eexists _, _, s. split; [exact E'|]. split; auto. split; intros P.
  - unfold nearest. rewrite <- (K1 P). apply nearest_floor.
  - rewrite (Qfloor_comp _ (1 # 2)); [reflexivity|]. rewrite (K2 P). reflexivity.
Qed.

(** Tuning only moves the threshold away from the objects. *)
Lemma tuning_moves l h (two down : bool) tu v0 r0 v r : counts l -> holds_counts h l -> 0 < zlen l < 2147483648 ->
  otsu_compute exact two 0%Q down 1%Q h (zsum l) = Ok (v0, r0) ->
  otsu_compute exact two tu down 1%Q h (zsum l) = Ok (v, r) ->
  if down then (0 <= r /\ r <= r0)%Q else (r0 <= r)%Q.
Proof.
  intros Hl Hh Hz E0 E1.
  assert (B : exists v q, (if two then otsu_2 exact h (zsum l) else otsu_1 exact h (zsum l)) = Ok (v, q) /\ (0 <= v)%Q /\ (0 <= q)%Q).
  { destruct two.
    - destruct (otsu_2_ok l Hl ltac:(lia) h Hh ltac:(lia)) as (v' & q & s & E & B & V & K1 & K2). exists v', q. split; auto. split; auto.
      destruct (Qlt_le_dec 0 (separation l s)) as [P|P].
      + rewrite (K1 P). destruct B as (B & _). apply separation_pos in P as [P1 P2]; auto.
        destruct (low_le l s Hl B P1) as [A1 A2]. destruct (high_ge l s Hl B P2) as [C1 C2]. apply Qle_shift_div_l; [reflexivity|].
        rewrite inject_Z_plus in C1. change (inject_Z 1) with 1%Q in C1. assert (0 <= inject_Z s)%Q by (apply inj_nonneg; lia). lra.
      + rewrite K2; lra.
    - destruct (otsu_1_ok l Hl ltac:(lia) h Hh) as (v' & t & E & B & V). exists v', (inject_Z t). split; auto. split; auto.
      destruct B as (B & _). apply inj_nonneg; lia. }
  destruct B as (v' & q & E & V & Hq).
  assert (R0 : r0 = inject_Z (Qfloor (q + (1 # 2)))).
  { unfold otsu_compute in E0. rewrite E in E0. cbn [bind] in E0.
    apply bind_Ok in E0 as (a & Ea & E0). apply bind_Ok in E0 as (c & Ec & E0). apply bind_Ok in E0 as (z & Ez & E0).
    injection E0 as _ <-. cbn [d_of exact]. f_equal. revert Ea Ez.
    set (half := d_div exact (d_of exact 1) (d_of exact 2)). assert (HF : (half == 1 # 2)%Q) by reflexivity.
    set (var := d_add exact v' _). assert (Hvar : (0 < var)%Q).
    { unfold var. cbn [d_add d_div d_of exact]. assert (0 < inject_Z 1 / inject_Z 1000)%Q by reflexivity. lra. }
    set (x := d_add exact (d_div exact _ var) half). assert (Hx : (x == 1 # 2)%Q).
    { unfold x. cbn [d_add d_div d_mul exact]. rewrite HF. field. lra. }
    rewrite d_to_exact; [|rewrite Hx; discriminate|rewrite (Qfloor_comp _ _ Hx); discriminate]. intros Ea.
    assert (a = 0) as -> by (rewrite (Qfloor_comp _ _ Hx) in Ea; change (Qfloor (1 # 2)) with 0 in Ea; injection Ea; auto). assert (c = 0) as -> by (destruct down; vm_compute in Ec; injection Ec; auto).
    set (th := d_add exact q _). assert (Hth : (th == q)%Q) by (unfold th; cbn [d_add d_of exact]; change (inject_Z 0) with 0%Q; ring).
    assert (L : d_lt exact th (d_of exact 0) = false) by (apply d_lt_exact_false; rewrite Hth; exact Hq). rewrite L.
    set (y := d_add exact _ half). assert (Hy : (y == q + (1 # 2))%Q) by (unfold y; cbn [d_add d_mul exact]; rewrite HF, Hth; ring).
    unfold d_to. rewrite d_int_exact by (rewrite Hy; lra).
  destruct ((ity_min S32 <=? Qfloor y) && (Qfloor y <=? ity_max S32)); [|discriminate]. intros X. assert (z = Qfloor y) as -> by (injection X; auto). now apply Qfloor_comp. }
  subst r0. unfold otsu_compute in E1. rewrite E in E1. cbn [bind] in E1.
  apply bind_Ok in E1 as (a & Ea & E1). apply bind_Ok in E1 as (c & Ec & E1). apply bind_Ok in E1 as (z & Ez & E1).
  injection E1 as _ <-. cbn [d_of exact]. revert Ea Ez.
  set (half := d_div exact (d_of exact 1) (d_of exact 2)). assert (HF : (half == 1 # 2)%Q) by reflexivity.
  set (var := d_add exact v' _). assert (Hvar : (0 < var)%Q).
  { unfold var. cbn [d_add d_div d_of exact]. assert (0 < inject_Z 1 / inject_Z 1000)%Q by reflexivity. lra. }
  set (x := d_add exact (d_div exact _ var) half). assert (Hx : (0 <= x)%Q).
  { unfold x. cbn [d_add d_div d_mul exact]. rewrite HF.
    assert (0 <= tu * q * tu * q / var)%Q; [|lra]. apply Qle_shift_div_l; auto. nra. }
  unfold d_to at 1. rewrite d_int_exact by auto. destruct (_ && _) eqn:Ca; [|discriminate]. intros Ea.
  assert (Ha : 0 <= a).
  { assert (a = Qfloor x) as -> by (injection Ea; auto). change 0 with (Qfloor 0). now apply Qfloor_resp_le. }
  set (th := d_add exact q _).
  set (po := if d_lt exact th (d_of exact 0) then d_of exact 0 else th).
  assert (Hpo : (0 <= po)%Q /\ (th <= po)%Q /\ ((0 <= th)%Q -> (po == th)%Q) /\ ((th <= 0)%Q -> (po == 0)%Q)).
  { unfold po. destruct (d_lt exact th (d_of exact 0)) eqn:L.
    - apply d_lt_exact in L. cbn [d_of exact] in *. change (inject_Z 0) with 0%Q in *. repeat split; intros; lra.
    - apply d_lt_exact_false in L. cbn [d_of exact] in *. change (inject_Z 0) with 0%Q in *. repeat split; intros; lra. }
  destruct Hpo as (P1 & P2 & P3 & P4).
  set (y := d_add exact _ half). assert (Hy : (y == po + (1 # 2))%Q) by (unfold y; cbn [d_add d_mul exact]; rewrite HF; ring).
  unfold d_to. rewrite d_int_exact by (rewrite Hy; lra).
  destruct ((ity_min S32 <=? Qfloor y) && (Qfloor y <=? ity_max S32)); [|discriminate]. intros X.
  assert (z = Qfloor y) as -> by (injection X; auto). rewrite (Qfloor_comp _ _ Hy). clear X Hy y. destruct down.
  - unfold arith_result in Ec. cbn [ity_signed] in Ec. destruct (_ && _) in Ec; [|discriminate]. injection Ec as <-.
    assert (Hth : (th <= q)%Q).
    { unfold th. cbn [d_add d_of exact]. rewrite inject_Z_opp. pose proof (inj_nonneg a Ha). lra. }
    assert (po <= q)%Q by (destruct (Qlt_le_dec th 0); [rewrite P4|rewrite P3]; lra). split.
    + apply inj_nonneg. change 0 with (Qfloor 0). apply Qfloor_resp_le. lra.
    + rewrite <- Zle_Qle. apply Qfloor_resp_le. lra.
  - injection Ec as <-. assert (Hth : (q <= th)%Q).
    { unfold th. cbn [d_add d_of exact]. pose proof (inj_nonneg a Ha). lra. }
    rewrite <- Zle_Qle. apply Qfloor_resp_le. lra.
Qed.

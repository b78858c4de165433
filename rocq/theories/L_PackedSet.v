(** PackedSet refines a list of lists. *)
From Verif Require Import Base BaseFacts M_PackedSet S_PackedSet.

Lemma znth_split {A} (s : list A) k l : znth s k = Some l -> exists s1 s2, s = s1 ++ l :: s2 /\ zlen s1 = k.
Proof.
  unfold znth. destruct (k <? 0) eqn:E; [discriminate|]. intros H. apply nth_error_split in H as (s1 & s2 & -> & L).
  exists s1, s2. unfold zlen. split; auto. lia.
Qed.
Lemma upd_split {A} (s1 s2 : list A) l l' : upd (s1 ++ l :: s2) (length s1) l' = s1 ++ l' :: s2.
Proof. induction s1; cbn; congruence. Qed.
Lemma upd_split_z {A} (s1 s2 : list A) l l' k : zlen s1 = k -> upd (s1 ++ l :: s2) (Z.to_nat k) l' = s1 ++ l' :: s2.
Proof. intros <-. unfold zlen. rewrite Nat2Z.id. apply upd_split. Qed.
Lemma znth_app_mid {A} (s1 s2 : list A) l : znth (s1 ++ l :: s2) (zlen s1) = Some l.
Proof. rewrite znth_app_r by lia. now rewrite Z.sub_diag. Qed.
Lemma list_snoc {A} (s : list A) : s = [] \/ exists s0 l, s = s0 ++ [l].
Proof. destruct s using rev_ind; eauto. Qed.
Lemma last_snoc {A} (s : list A) l d : last (s ++ [l]) d = l.
Proof. apply last_last. Qed.
Lemma match_snoc {A B} (s : list A) l (x y : B) : (match s ++ [l] with [] => x | _ => y end) = y.
Proof. destruct s; reflexivity. Qed.

Section PS.
Context {A : Type}.
Implicit Types (p : pset A) (bl : list (list (option A))) (s : list (list A)).

Definition flat bl bs j : option (option A) :=
  match znth bl (j / bs) with Some b => znth b (j mod bs) | None => None end.

Fixpoint infos_ok (bs st : Z) (is : list pinfo) (s : list (list A)) : Prop :=
  match is, s with
  | [], [] => True
  | i :: is', l :: s' => pi_block i * bs + pi_offset i = st /\ pi_size i = zlen l /\ infos_ok bs (st + zlen l) is' s'
  | _, _ => False
  end.

Definition Rps p s : Prop :=
  1 <= ps_bs p /\ Forall (fun b => zlen b = ps_bs p) (ps_blocks p) /\
  ps_total p = ll_total s /\ ll_total s < 4294967296 /\ ll_total s <= zlen (ps_blocks p) * ps_bs p /\
  (forall j, 0 <= j < ll_total s -> flat (ps_blocks p) (ps_bs p) j = option_map Some (znth (concat s) j)) /\
  infos_ok (ps_bs p) 0 (ps_info p) s.

Lemma ll_total_app s1 s2 : ll_total (s1 ++ s2) = ll_total s1 + ll_total s2.
Proof. unfold ll_total. rewrite concat_app. apply zlen_app. Qed.
Lemma ll_total_cons (l : list A) s : ll_total (l :: s) = zlen l + ll_total s.
Proof. unfold ll_total. cbn. apply zlen_app. Qed.
Lemma ll_total_1 (l : list A) : ll_total [l] = zlen l.
Proof. rewrite ll_total_cons. change (ll_total (@nil (list A))) with 0. lia. Qed.
Lemma ll_total_nonneg s : 0 <= ll_total s.
Proof. apply zlen_nonneg. Qed.

Lemma infos_len bs is : forall st s, infos_ok bs st is s -> zlen is = zlen s.
Proof.
  induction is as [|i is IH]; intros st [|l s] H; cbn in H; try tauto.
  rewrite !zlen_cons. f_equal. now apply (IH (st + zlen l)).
Qed.
Lemma infos_app bs is1 : forall st is2 s1 s2, infos_ok bs st is1 s1 ->
  (infos_ok bs (st + ll_total s1) is2 s2 <-> infos_ok bs st (is1 ++ is2) (s1 ++ s2)).
Proof.
  induction is1 as [|i is IH]; intros st is2 [|l s] s2 H; cbn in H; try tauto.
  - cbn. change (ll_total (@nil (list A))) with 0. now rewrite Z.add_0_r.
  - cbn. destruct H as (H1 & H2 & H3). rewrite <- (IH (st + zlen l) is2 s s2 H3), ll_total_cons, Z.add_assoc. tauto.
Qed.
Lemma infos_split bs s1 : forall st is s2, infos_ok bs st is (s1 ++ s2) ->
  exists is1 is2, is = is1 ++ is2 /\ infos_ok bs st is1 s1 /\ infos_ok bs (st + ll_total s1) is2 s2.
Proof.
  induction s1 as [|l s IH]; intros st is s2 H.
  - exists [], is. cbn. change (ll_total (@nil (list A))) with 0. rewrite Z.add_0_r. auto.
  - destruct is as [|i is]; cbn in H; [tauto|]. destruct H as (H1 & H2 & H3).
    destruct (IH _ _ _ H3) as (is1 & is2 & -> & K1 & K2). exists (i :: is1), is2. cbn. rewrite ll_total_cons, Z.add_assoc. auto.
Qed.
Lemma infos_lookup bs is s1 l s2 : infos_ok bs 0 is (s1 ++ l :: s2) ->
  exists i, znth is (zlen s1) = Some i /\ pi_block i * bs + pi_offset i = ll_total s1 /\ pi_size i = zlen l.
Proof.
  intros H. apply infos_split in H as (is1 & is2 & -> & H1 & H2). destruct is2 as [|i is2]; cbn in H2; [tauto|].
  exists i. rewrite <- (infos_len _ _ _ _ H1). rewrite znth_app_mid. split; auto. split; [|tauto].
  destruct H2 as (-> & _). lia.
Qed.
Lemma infos_None bs is s k : infos_ok bs 0 is s -> znth s k = None -> znth is k = None.
Proof. intros H E. apply infos_len in H. apply znth_None in E. apply znth_None. lia. Qed.

Lemma concat_mid s1 (l : list A) s2 j : 0 <= j < zlen l -> znth (concat (s1 ++ l :: s2)) (ll_total s1 + j) = znth l j.
Proof.
  intros H. rewrite concat_app. rewrite znth_app_r by (unfold ll_total; lia). cbn. rewrite znth_app_l; unfold ll_total.
  - f_equal; lia.
  - lia.
Qed.
Lemma concat_out s1 (l l' : list A) s2 j : zlen l' = zlen l -> (j < ll_total s1 \/ ll_total s1 + zlen l <= j) ->
  znth (concat (s1 ++ l' :: s2)) j = znth (concat (s1 ++ l :: s2)) j.
Proof.
  intros E H. rewrite !concat_app. unfold ll_total in H. destruct H as [H|H].
  - rewrite !znth_app_l by lia. auto.
  - pose proof (zlen_nonneg l). rewrite !(znth_app_r (concat s1)) by lia. cbn. rewrite !znth_app_r by lia. now rewrite E.
Qed.

Lemma flat_get bl bs j v : 1 <= bs -> flat bl bs j = Some (Some v) -> cell_get bl (j / bs) (j mod bs) = Ok v.
Proof.
  intros Hb H. unfold flat in H. unfold cell_get, bget. destruct (znth bl (j / bs)); [|discriminate]. cbn. now rewrite H.
Qed.

Lemma flat_set bl bs j v : 1 <= bs -> Forall (fun b => zlen b = bs) bl -> 0 <= j < zlen bl * bs ->
  exists bl', cell_set bl (j / bs) (j mod bs) v = Ok bl' /\ zlen bl' = zlen bl /\
    Forall (fun b => zlen b = bs) bl' /\
    forall j', 0 <= j' -> flat bl' bs j' = if j' =? j then Some (Some v) else flat bl bs j'.
Proof.
  intros Hb F Hj. pose proof (Z.mod_pos_bound j bs ltac:(lia)) as Hm.
  assert (Hd : 0 <= j / bs < zlen bl). { split; [apply Z.div_pos; lia|apply Z.div_lt_upper_bound; lia]. }
  pose proof (Z.div_mod j bs ltac:(lia)) as Ej.
  set (q := j / bs) in *. set (r := j mod bs) in *. clearbody q r.
  destruct (znth_in_range bl q Hd) as [b Eb].
  assert (Lb : zlen b = bs). { rewrite Forall_forall in F. apply F. now apply znth_In in Eb. }
  unfold cell_set. rewrite (proj2 (bget_Ok bl q b) Eb). cbn [bind].
  destruct (bset_exists b r (Some v)) as (b' & Eb' & Lb' & Hb'); [lia|]. rewrite Eb'. cbn [bind].
  destruct (bset_exists bl q b' Hd) as (bl' & E' & L' & H'). rewrite E'. exists bl'. split; auto. split; auto.
  assert (F' : Forall (fun b => zlen b = bs) bl').
  { apply Forall_forall. intros x Hx. apply In_znth in Hx as [i Ei]. rewrite H' in Ei.
    destruct (i =? q); [injection Ei as <-; lia|]. rewrite Forall_forall in F. apply F. now apply znth_In in Ei. }
  split; auto. intros j' Hj'. unfold flat. rewrite H'.
  pose proof (Z.mod_pos_bound j' bs ltac:(lia)) as Hm'. pose proof (Z.div_mod j' bs ltac:(lia)) as Ej'.
  set (q' := j' / bs) in *. set (r' := j' mod bs) in *. clearbody q' r'.
  destruct (Z.eqb_spec q' q) as [->|N].
  - rewrite Hb', Eb. destruct (Z.eqb_spec r' r) as [->|N'].
    + now replace (j' =? j) with true by lia.
    + now replace (j' =? j) with false by lia.
  - destruct (Z.eqb_spec j' j) as [->|]; auto. exfalso.
    destruct (Z.div_mod_unique bs q q' r r'); lia.
Qed.

Lemma flat_app bl b bs j : 0 <= j / bs < zlen bl -> flat (bl ++ [b]) bs j = flat bl bs j.
Proof. intros H. unfold flat. now rewrite znth_app_l by lia. Qed.

Lemma Rps_new bs : 1 <= bs -> Rps (ps_new bs) [].
Proof.
  intros H. unfold Rps, ps_new; cbn. change (ll_total (@nil (list A))) with 0. repeat split; try lia.
  - constructor; [|constructor]. unfold ps_block. rewrite zlen_repeat. lia.
  - change (zlen [ps_block bs]) with 1. lia.
Qed.

Lemma cell_at p s s1 l s2 inf i v : Rps p s -> s = s1 ++ l :: s2 ->
  pi_block inf * ps_bs p + pi_offset inf = ll_total s1 ->
  znth l i = Some v ->
  ps_flat p inf i = ll_total s1 + i /\ 0 <= ll_total s1 + i < ll_total s /\
  flat (ps_blocks p) (ps_bs p) (ll_total s1 + i) = Some (Some v).
Proof.
  intros (B & F & T & L & C & K & I) Es E H. pose proof (znth_Some_range _ _ _ H).
  pose proof (ll_total_nonneg s1). pose proof (ll_total_nonneg s2).
  assert (R : 0 <= ll_total s1 + i < ll_total s).
  { subst s. rewrite ll_total_app, ll_total_cons. lia. }
  split; [unfold ps_flat; rewrite E; apply u32_id; lia|]. split; auto.
  rewrite K by auto. subst s. rewrite concat_mid by auto. now rewrite H.
Qed.

(** ** Observers *)
Lemma ps_at_ok p s k i : Rps p s -> 0 <= k -> 0 <= i ->
  ps_at p k i = match znth s k with
                | Some l => match znth l i with Some v => Ok v | None => Throw end
                | None => Throw end.
Proof.
  intros R Hk Hi. pose proof R as (B & F & T & L & C & K & I). unfold ps_at.
  destruct (znth s k) as [l|] eqn:Es.
  - apply znth_split in Es as (s1 & s2 & Es & <-). pose proof I as I'. rewrite Es in I'.
    apply infos_lookup in I' as (inf & Ei & E1 & E2). rewrite Ei.
    pose proof (znth_Some_range _ _ _ Ei). replace (_ <=? _) with false by lia.
    destruct (znth l i) as [v|] eqn:El.
    + pose proof (znth_Some_range _ _ _ El). rewrite E2. replace (_ <=? _) with false by lia.
      destruct (cell_at p s s1 l s2 inf i v R Es E1 El) as (-> & _ & Fl).
      unfold udiv, umod. replace (ps_bs p =? 0) with false by lia. cbn [bind]. now apply flat_get.
    + apply znth_None in El. rewrite E2. now replace (_ <=? _) with true by lia.
  - rewrite (infos_None _ _ _ _ I Es). now destruct (_ <=? _).
Qed.

Lemma ps_count_ok p s : Rps p s -> zlen s < 4294967296 -> ps_count p = zlen s.
Proof.
  intros (B & F & T & L & C & K & I) H. unfold ps_count. rewrite (infos_len _ _ _ _ I).
  pose proof (zlen_nonneg s). apply u32_id. lia.
Qed.
Lemma ps_tail_size_ok p s : Rps p s -> ps_tail_size p = zlen (last s []).
Proof.
  intros (B & F & T & L & C & K & I). unfold ps_tail_size. destruct (list_snoc s) as [->|(s0 & l & ->)].
  - destruct (ps_info p); cbn in I; [reflexivity|tauto].
  - apply infos_split in I as (is1 & is2 & -> & I1 & I2). destruct is2 as [|i [|]]; cbn in I2; try tauto.
    rewrite match_snoc, !last_snoc. tauto.
Qed.

Lemma ps_load_ok p s k out : Rps p s -> 0 <= k ->
  ps_load p k out = match znth s k with Some l => Ok (out ++ l) | None => Throw end.
Proof.
  intros R Hk. pose proof R as (B & F & T & L & C & K & I). unfold ps_load.
  destruct (znth s k) as [l|] eqn:Es.
  - apply znth_split in Es as (s1 & s2 & Es & <-). pose proof I as I'. rewrite Es in I'.
    apply infos_lookup in I' as (inf & Ei & E1 & E2). rewrite Ei, E2.
    match goal with |- for_range _ _ ?b _ = _ =>
      destruct (for_range_inv (fun i o => o = out ++ firstn (Z.to_nat i) l) 0 (zlen l) b out) as (o & Eo & Ho) end.
    + apply zlen_nonneg.
    + change (Z.to_nat 0) with 0%nat. cbn. now rewrite app_nil_r.
    + intros i o Hi ->. destruct (znth_in_range l i Hi) as [v Ev].
      destruct (cell_at p s s1 l s2 inf i v R Es E1 Ev) as (-> & _ & Fl).
      unfold udiv, umod. replace (ps_bs p =? 0) with false by lia. cbn [bind].
      rewrite (flat_get _ _ _ _ B Fl). cbn [bind]. eexists; split; [reflexivity|].
      rewrite <- app_assoc. f_equal. replace (Z.to_nat (i + 1)) with (S (Z.to_nat i)) by lia.
      unfold znth in Ev. replace (i <? 0) with false in Ev by lia. clear - Ev. revert Ev. generalize (Z.to_nat i) as n.
      induction l as [|a l IH]; intros [|n] H; cbn in *; try discriminate; [congruence|]. f_equal. now apply IH.
    + rewrite Eo, Ho. f_equal. f_equal. unfold zlen. now rewrite Nat2Z.id, firstn_all.
  - now rewrite (infos_None _ _ _ _ I Es).
Qed.

(** ** Updates *)
Lemma infos_upd bs is s1 l l' s2 : zlen l' = zlen l -> infos_ok bs 0 is (s1 ++ l :: s2) -> infos_ok bs 0 is (s1 ++ l' :: s2).
Proof.
  intros E H. apply infos_split in H as (is1 & is2 & -> & H1 & H2). apply infos_app; auto.
  destruct is2; cbn in *; [tauto|]. now rewrite E.
Qed.

Lemma ps_start_ok p s : Rps p s -> exists p', ps_start p = Ok p' /\ Rps p' (s ++ [[]]).
Proof.
  intros (B & F & T & L & C & K & I). unfold ps_start, udiv, umod. replace (ps_bs p =? 0) with false by lia. cbn [bind].
  eexists; split; [reflexivity|]. unfold Rps; cbn. rewrite ll_total_app, ll_total_1. change (zlen (@nil A)) with 0.
  rewrite Z.add_0_r, concat_app. cbn. rewrite app_nil_r. repeat split; auto.
  apply infos_app; auto. cbn. repeat split; auto. rewrite T. pose proof (Z.div_mod (ll_total s) (ps_bs p)). lia.
Qed.

Lemma ps_add_ok p s v : Rps p s -> ll_total s + 1 < 4294967296 ->
  exists p', ps_add p v = Ok p' /\ ps_bs p' = ps_bs p /\ ps_info p' = ps_info p /\ ps_total p' = ll_total s + 1 /\
    Forall (fun b => zlen b = ps_bs p) (ps_blocks p') /\ ll_total s + 1 <= zlen (ps_blocks p') * ps_bs p /\
    forall j, 0 <= j <= ll_total s -> flat (ps_blocks p') (ps_bs p) j =
      if j =? ll_total s then Some (Some v) else option_map Some (znth (concat s) j).
Proof.
  intros (B & F & T & L & C & K & I) Hs. pose proof (ll_total_nonneg s) as Hn.
  unfold ps_add, udiv, umod. replace (ps_bs p =? 0) with false by lia. cbn [bind]. rewrite T.
  set (bl := if _ =? _ then _ else _).
  pose proof (Z.mod_pos_bound (ll_total s) (ps_bs p) ltac:(lia)) as Hm.
  pose proof (Z.div_mod (ll_total s) (ps_bs p) ltac:(lia)) as Hd.
  assert (Hq : 0 <= ll_total s / ps_bs p) by (apply Z.div_pos; lia).
  assert (P : Forall (fun b => zlen b = ps_bs p) bl /\ ll_total s < zlen bl * ps_bs p /\
              forall j, 0 <= j < ll_total s -> flat bl (ps_bs p) j = option_map Some (znth (concat s) j)).
  { unfold bl. destruct (Z.eqb_spec (ll_total s / ps_bs p) (zlen (ps_blocks p))) as [E|N].
    - split; [|split].
      + apply Forall_app. split; auto. constructor; [|constructor]. unfold ps_block. rewrite zlen_repeat. lia.
      + rewrite zlen_app, zlen_cons. change (zlen (@nil (list (option A)))) with 0. rewrite <- E. nia.
      + intros j Hj. rewrite flat_app; auto. split; [apply Z.div_pos; lia|].
        apply Z.div_lt_upper_bound; lia.
    - split; auto. split; auto. clear bl.
      set (q := ll_total s / ps_bs p) in *. set (r := ll_total s mod ps_bs p) in *. clearbody q r.
      assert (q <= zlen (ps_blocks p)) by nia. nia. }
  destruct P as (P1 & P2 & P3).
  destruct (flat_set bl (ps_bs p) (ll_total s) v) as (bl' & E & Lb & F' & H'); auto; try lia.
  rewrite E. cbn [bind]. eexists; split; [reflexivity|]. cbn. rewrite u32_id by lia. rewrite Lb. repeat split; auto; try lia.
  intros j Hj. rewrite H' by lia. destruct (Z.eqb_spec j (ll_total s)); auto. apply P3. lia.
Qed.

Lemma inc_tail_ok bs is st s0 l v : infos_ok bs st is (s0 ++ [l]) -> zlen l + 1 < 4294967296 ->
  infos_ok bs st (inc_tail is) (s0 ++ [l ++ [v]]).
Proof.
  intros H Hl. apply infos_split in H as (is1 & is2 & -> & H1 & H2). destruct is2 as [|i [|]]; cbn in H2; try tauto.
  unfold inc_tail. rewrite match_snoc, last_snoc, removelast_last. apply infos_app; auto. cbn.
  destruct H2 as (E1 & E2 & _). pose proof (zlen_nonneg l). rewrite E2, zlen_app. change (zlen [v]) with 1.
  rewrite u32_id by lia. auto.
Qed.

Lemma ps_push_tail_ok p s0 l v : Rps p (s0 ++ [l]) -> ll_total (s0 ++ [l]) + 1 < 4294967296 ->
  exists p2, ps_add p v = Ok p2 /\
    Rps (mkPS (ps_blocks p2) (ps_bs p2) (ps_total p2) (inc_tail (ps_info p2))) (s0 ++ [l ++ [v]]).
Proof.
  intros R Hs. destruct (ps_add_ok p _ v R Hs) as (p2 & E & E1 & E2 & E3 & F & C & Fl). exists p2. split; auto.
  pose proof R as (B & _ & T & L & _ & _ & I). pose proof (ll_total_nonneg s0).
  assert (Tt : ll_total (s0 ++ [l ++ [v]]) = ll_total (s0 ++ [l]) + 1).
  { rewrite !ll_total_app, !ll_total_1, zlen_app. change (zlen [v]) with 1. lia. }
  assert (Cc : concat (s0 ++ [l ++ [v]]) = concat (s0 ++ [l]) ++ [v]).
  { rewrite !concat_app. cbn. now rewrite !app_nil_r, app_assoc. }
  unfold Rps; cbn. rewrite Tt, E1, E2, Cc. repeat split; auto.
  - intros j Hj. rewrite Fl by lia. destruct (Z.eqb_spec j (ll_total (s0 ++ [l]))) as [->|N].
    + unfold ll_total. rewrite znth_app_mid. reflexivity.
    + rewrite znth_app_l by (unfold ll_total in *; lia). reflexivity.
  - apply inc_tail_ok; auto. rewrite ll_total_app, ll_total_1 in Hs. lia.
Qed.

Lemma ps_push_ok p s v s' : Rps p s -> ll_exec s (P_push v) = Some s' -> ll_total s' < 4294967296 ->
  exists p', ps_push p v = Ok p' /\ Rps p' s'.
Proof.
  intros R E Hs. cbn in E. injection E as <-. unfold ps_push. destruct (list_snoc s) as [->|(s0 & l & ->)].
  - pose proof R as (_ & _ & _ & _ & _ & _ & I). destruct (ps_info p) eqn:Ei; cbn in I; [|tauto].
    destruct (ps_start_ok p [] R) as (p1 & E1 & R1). rewrite E1. cbn [bind].
    destruct (ps_push_tail_ok p1 [] [] v) as (p2 & E2 & R2); auto.
    rewrite E2. cbn [bind]. eauto.
  - rewrite match_snoc, removelast_last, last_snoc in *.
    pose proof R as (_ & _ & _ & _ & _ & _ & I). apply infos_split in I as (is1 & is2 & Ei & I1 & I2).
    destruct is2 as [|i [|]]; cbn in I2; try tauto. rewrite Ei, match_snoc. cbn [bind].
    destruct (ps_push_tail_ok p s0 l v) as (p2 & E2 & R2); auto.
    { rewrite !ll_total_app, !ll_total_1, zlen_app in *. change (zlen [v]) with 1 in Hs. lia. }
    rewrite E2. cbn [bind]. eauto.
Qed.

Lemma ps_remove_ok p s : Rps p s -> Rps (ps_remove_tail p) (removelast s).
Proof.
  intros R. pose proof R as (B & F & T & L & C & K & I). destruct (list_snoc s) as [->|(s0 & l & ->)].
  - cbn. unfold ps_remove_tail. destruct (ps_info p) eqn:Ei; cbn in I; tauto.
  - rewrite removelast_last. apply infos_split in I as (is1 & is2 & Ei & I1 & I2). destruct is2 as [|i [|]]; cbn in I2; try tauto.
    unfold ps_remove_tail. rewrite Ei, match_snoc, last_snoc, removelast_last.
    rewrite ll_total_app, ll_total_1 in *. pose proof (ll_total_nonneg s0). pose proof (zlen_nonneg l).
    destruct I2 as (_ & E2 & _). unfold Rps; cbn. rewrite T, E2.
    replace (ll_total s0 + zlen l - zlen l) with (ll_total s0) by lia. rewrite u32_id by lia. repeat split; auto; try lia.
    intros j Hj. rewrite K by lia. rewrite concat_app, znth_app_l; auto. unfold ll_total in Hj. lia.
Qed.

Lemma Rps_clear p s : Rps p s -> Rps (ps_clear p) [].
Proof.
  intros (B & F & T & L & C & K & I). unfold Rps, ps_clear; cbn. change (ll_total (@nil (list A))) with 0.
  pose proof (zlen_nonneg (ps_blocks p)). repeat split; auto; try lia; nia.
Qed.

Lemma ps_at_set_ok p s k i v : Rps p s -> 0 <= k -> 0 <= i ->
  match ll_exec s (P_at_set k i v) with
  | Some s' => exists p', ps_at_set p k i v = Ok p' /\ Rps p' s'
  | None => ps_at_set p k i v = Throw
  end.
Proof.
  intros R Hk Hi. pose proof R as (B & F & T & L & C & K & I). cbn. unfold ps_at_set.
  destruct (znth s k) as [l|] eqn:Es.
  - apply znth_split in Es as (s1 & s2 & Es & <-). pose proof I as I'. rewrite Es in I'.
    pose proof I' as I''. apply infos_lookup in I' as (inf & Ei & E1 & E2). rewrite Ei, E2.
    pose proof (znth_Some_range _ _ _ Ei). replace (_ <=? _) with false by lia.
    destruct (Z.ltb_spec i (zlen l)) as [Hl|Hl].
    + replace (_ <=? _) with false by lia. destruct (znth_in_range l i ltac:(lia)) as [v0 Ev].
      destruct (cell_at p s s1 l s2 inf i v0 R Es E1 Ev) as (-> & Rg & Fl).
      unfold udiv, umod. replace (ps_bs p =? 0) with false by lia. cbn [bind].
      destruct (flat_set (ps_blocks p) (ps_bs p) (ll_total s1 + i) v) as (bl' & E & Lb & F' & H'); auto; try lia.
      rewrite E. cbn [bind]. eexists; split; [reflexivity|]. subst s. rewrite upd_split_z by auto.
      assert (Lu : zlen (upd l (Z.to_nat i) v) = zlen l) by (unfold zlen; now rewrite upd_length).
      assert (Tt : ll_total (s1 ++ upd l (Z.to_nat i) v :: s2) = ll_total (s1 ++ l :: s2)).
      { rewrite !ll_total_app, !ll_total_cons. lia. }
      unfold Rps; cbn. rewrite Tt, Lb. repeat split; auto; [|now apply (infos_upd _ _ _ l)].
      intros j Hj. rewrite H' by lia.
      pose proof (bset_Ok l i v _ (bset_in l i v ltac:(lia))) as (_ & _ & Hu).
      assert (D : (j < ll_total s1 \/ ll_total s1 + zlen l <= j) \/ ll_total s1 <= j < ll_total s1 + zlen l) by lia.
      destruct D as [D|D].
      * replace (j =? _) with false by lia. rewrite K by lia. rewrite (concat_out s1 l (upd l (Z.to_nat i) v) s2 j Lu D). reflexivity.
      * assert (Ej : j = ll_total s1 + (j - ll_total s1)) by lia. rewrite Ej at 3. rewrite concat_mid by lia.
        rewrite Hu. destruct (Z.eqb_spec j (ll_total s1 + i)).
        -- now replace (j - ll_total s1 =? i) with true by lia.
        -- replace (j - ll_total s1 =? i) with false by lia. rewrite K by lia. rewrite Ej at 1. now rewrite concat_mid by lia.
    + now replace (_ <=? _) with true by lia.
  - rewrite (infos_None _ _ _ _ I Es). now destruct (_ <=? _).
Qed.

Lemma ps_write_ok p s k l' : Rps p s -> 0 <= k ->
  match ll_exec s (P_write k l') with
  | Some s' => exists p', ps_write p k l' = Ok p' /\ Rps p' s'
  | None => ps_write p k l' = Throw
  end.
Proof.
  intros R Hk. pose proof R as (B & F & T & L & C & K & I). cbn. unfold ps_write.
  destruct (znth s k) as [l|] eqn:Es.
  - apply znth_split in Es as (s1 & s2 & Es & <-). pose proof I as I'. rewrite Es in I'.
    pose proof I' as I''. apply infos_lookup in I' as (inf & Ei & E1 & E2). rewrite Ei, E2.
    destruct (Z.eqb_spec (zlen l') (zlen l)) as [Hl|Hl]; cbn [negb]; [|reflexivity].
    match goal with |- context [for_range _ _ ?bo _] =>
      destruct (for_range_inv (fun i bl => zlen bl = zlen (ps_blocks p) /\ Forall (fun b => zlen b = ps_bs p) bl /\
         forall j, 0 <= j -> flat bl (ps_bs p) j =
           if (ll_total s1 <=? j) && (j <? ll_total s1 + i) then option_map Some (znth l' (j - ll_total s1))
           else flat (ps_blocks p) (ps_bs p) j) 0 (zlen l) bo (ps_blocks p)) as (bl & Eb & Lb & Fb & Hb) end.
    + apply zlen_nonneg.
    + repeat split; auto. intros j Hj. now replace (_ && _) with false by lia.
    + intros i bl Hi (Lb & Fb & Hb). destruct (znth_in_range l i Hi) as [v0 Ev0].
      destruct (znth_in_range l' i ltac:(lia)) as [v Ev].
      destruct (cell_at p s s1 l s2 inf i v0 R Es E1 Ev0) as (-> & Rg & _).
      unfold udiv, umod. replace (ps_bs p =? 0) with false by lia. cbn [bind].
      rewrite (proj2 (bget_Ok l' i v) Ev). cbn [bind].
      destruct (flat_set bl (ps_bs p) (ll_total s1 + i) v) as (bl' & E & Lb' & F' & H'); auto; try lia.
      rewrite E. eexists; split; [reflexivity|]. split; [lia|]. split; auto. intros j Hj. rewrite H' by lia.
      destruct (Z.eqb_spec j (ll_total s1 + i)) as [->|N].
      * replace (_ && _) with true by lia. replace (ll_total s1 + i - ll_total s1) with i by lia. now rewrite Ev.
      * rewrite Hb by lia. destruct (_ && _) eqn:Ec.
        -- now replace (_ && _) with true by lia.
        -- now replace (_ && _) with false by lia.
    + rewrite Eb. cbn [bind]. eexists; split; [reflexivity|]. subst s. rewrite upd_split_z by auto.
      assert (Tt : ll_total (s1 ++ l' :: s2) = ll_total (s1 ++ l :: s2)).
      { rewrite !ll_total_app, !ll_total_cons. lia. }
      unfold Rps; cbn. rewrite Tt, Lb. repeat split; auto; [|now apply (infos_upd _ _ _ l)].
      intros j Hj. rewrite Hb by lia. destruct (_ && _) eqn:Ec.
      * replace j with (ll_total s1 + (j - ll_total s1)) at 2 by lia. now rewrite concat_mid by lia.
      * rewrite K by lia. rewrite (concat_out s1 l l' s2 j Hl) by lia. reflexivity.
  - now rewrite (infos_None _ _ _ _ I Es).
Qed.

Lemma ps_exec_ok p s o : Rps p s -> ps_op_ok o ->
  match ll_exec s o with
  | Some s' => ll_total s' < 4294967296 -> exists p', ps_exec p o = Ok p' /\ Rps p' s'
  | None => ps_exec p o = Throw
  end.
Proof.
  intros R Ho. destruct o; cbn [ps_op_ok ps_exec] in *.
  - intros _. eexists; split; [reflexivity|]. now apply (Rps_clear p s).
  - intros _. now apply ps_start_ok.
  - intros H. apply (ps_push_ok p s v); auto.
  - intros _. eexists; split; [reflexivity|]. now apply ps_remove_ok.
  - pose proof (ps_at_set_ok p s k i v R ltac:(lia) ltac:(lia)). destruct (ll_exec _ _); auto.
  - pose proof (ps_write_ok p s k l R ltac:(lia)). destruct (ll_exec _ _); auto.
Qed.

Lemma ps_run_ok h : forall p s, Rps p s -> Forall ps_op_ok h -> ll_fits s h ->
  exists p', ps_run p h = Ok p' /\ Rps p' (ll_run s h) /\ zlen (ll_run s h) < 4294967296.
Proof.
  induction h as [|o h IH]; intros p s R F Hf; cbn [ps_run ll_run ll_fits] in *.
  - exists p. tauto.
  - inversion F as [|? ? H1 H2]; subst. pose proof (ps_exec_ok p s o R H1) as H. destruct Hf as (Ht & Hz & Hf).
    destruct (ll_exec s o) as [s'|].
    + assert (ll_total s' < 4294967296) by (destruct h; apply Hf).
      destruct H as (p' & E & R'); auto. rewrite E. now apply IH.
    + rewrite H. now apply IH.
Qed.
End PS.

Lemma packed_set_lemma (A : Type) (bs : Z) (h : list (ps_op A)) :
  1 <= bs < 4294967296 -> Forall ps_op_ok h -> ll_fits [] h ->
  exists p, ps_run (ps_new bs) h = Ok p /\
    ps_count p = zlen (ll_run [] h) /\
    ps_tail_size p = zlen (last (ll_run [] h) []) /\
    (forall k i, 0 <= k < 4294967296 -> 0 <= i < 4294967296 ->
       ps_at p k i = match znth (ll_run [] h) k with
                     | Some l => match znth l i with Some v => Ok v | None => Throw end
                     | None => Throw
                     end) /\
    (forall k out, 0 <= k < 4294967296 ->
       ps_load p k out = match znth (ll_run [] h) k with Some l => Ok (out ++ l) | None => Throw end) /\
    (forall o, ps_op_ok o ->
       match ll_exec (ll_run [] h) o with
       | None => ps_exec p o = Throw
       | Some s' => ll_total s' < 4294967296 -> exists p', ps_exec p o = Ok p'
       end).
Proof.
  intros Hb Hh Hf. destruct (ps_run_ok h (ps_new bs) [] (Rps_new bs ltac:(lia)) Hh Hf) as (p & E & R & Hz).
  exists p. split; auto. split; [now apply ps_count_ok|]. split; [now apply ps_tail_size_ok|].
  split; [intros; apply (ps_at_ok p); auto; lia|]. split; [intros; apply (ps_load_ok p); auto; lia|].
  intros o Ho. pose proof (ps_exec_ok p _ o R Ho) as H. destruct (ll_exec (ll_run [] h) o) as [s'|]; auto.
  intros Hs. destruct (H Hs) as (p' & E' & _). eauto.
Qed.

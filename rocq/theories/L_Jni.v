(** Lemmas about the transfer of contours to Java. *)
From Verif Require Import BaseFacts M_GrowArray L_GrowArray M_PackedSet S_PackedSet L_PackedSet M_Contour M_Jni S_Jni.

(** ** The queue *)
Definition linked (q : jqueue) (w : jwrap) : Prop :=
  exists a, znth (jq_arrays q) (jq_data q) = Some a /\ 0 <= jq_size q <= zlen a /\ zlen a <= 2147483647 /\
    jw_array w = jq_data q /\ jw_length w = zlen a /\ jw_size w = jq_size q.

Definition growing (grow : Z -> Z) : Prop := forall n, 0 <= n <= 2147483647 -> n <= grow n <= 2147483647.

Lemma jw_new_ok q : queue_ok q -> exists w, jw_new q = Ok w /\ linked q w.
Proof.
  intros (a & Ha & H1 & H2). unfold jw_new. rewrite (proj2 (bget_Ok _ _ _) Ha). cbn [bind].
  eexists. split; [reflexivity|]. exists a. cbn. repeat split; auto; lia.
Qed.

Lemma jw_resize_ok grow q w n : growing grow -> linked q w -> 0 <= n <= 2147483647 ->
  exists q' w', jw_resize grow q w n = Ok (q', w') /\ linked q' w' /\ jw_size w' = n.
Proof.
  intros G (a & Ha & H1 & H2 & H3 & H4 & H5) Hn. unfold jw_resize. rewrite (u32_id (jw_size w)) by lia.
  destruct (Z.eqb_spec n (jw_size w)) as [->|N].
  { exists q, w. split; auto. split; auto. exists a. repeat split; auto; lia. }
  rewrite s32_id by lia. unfold jq_resize. rewrite (proj2 (bget_Ok _ _ _) Ha). cbn [bind].
  rewrite H4, (u32_id (zlen a)) by lia. pose proof (G n Hn). destruct (Z.ltb_spec (zlen a) n) as [L|L].
  - cbn [bind jq_arrays jq_data]. unfold bget. rewrite znth_app_r, Z.sub_diag by lia. rewrite znth_cons_0. cbn [bind].
    eexists _, _. split; [reflexivity|]. split; [|reflexivity]. eexists. cbn [jq_arrays jq_data jq_size jw_array jw_length jw_size].
    rewrite znth_app_r, Z.sub_diag by lia. rewrite znth_cons_0. split; [reflexivity|]. rewrite zlen_repeat, Z2Nat.id by lia.
    repeat split; lia.
  - cbn [bind]. eexists _, _. split; [reflexivity|]. split; [|reflexivity]. exists a. cbn. repeat split; auto; lia.
Qed.

Lemma jw_setTo_ok grow q w input : growing grow -> linked q w -> zlen input <= 2147483647 ->
  exists q' w', jw_setTo grow q w input = Ok (q', w') /\ linked q' w' /\ jq_content q' = Ok (map s32 input).
Proof.
  intros G K Hi. pose proof (zlen_nonneg input) as P. unfold jw_setTo.
  assert (S : exists q' w', (if negb (zlen input =? jw_size w) then jw_resize grow q w (u32 (zlen input)) else Ok (q, w)) = Ok (q', w')
              /\ linked q' w' /\ jw_size w' = zlen input).
  { destruct (Z.eqb_spec (zlen input) (jw_size w)) as [E|E]; cbn [negb].
    - exists q, w. auto.
    - rewrite u32_id by lia. apply jw_resize_ok; auto; lia. }
  destruct S as (q' & w' & -> & (a & Ha & H1 & H2 & H3 & H4 & H5) & Sz). cbn [bind]. rewrite H3, (proj2 (bget_Ok _ _ _) Ha). cbn [bind].
  destruct (for_range_inv (fun i b => zlen b = zlen a /\ forall j, 0 <= j < i -> znth b j = option_map s32 (znth input j))
      0 (jw_size w') (fun i a => let* v := bget input i in bset a i (s32 v)) a) as (b & E & Lb & Hb).
  { lia. } { split; auto. intros; lia. }
  { intros i b Hi' [Lb Hb]. destruct (bget_in input i ltac:(lia)) as (v & Ev & Zv). rewrite Ev. cbn [bind].
    destruct (bset_exists b i (s32 v) ltac:(lia)) as (b' & E' & L' & N'). exists b'. split; auto. split; [lia|].
    intros j Hj. rewrite N'. destruct (Z.eqb_spec j i) as [->|]; [now rewrite Zv|apply Hb; lia]. }
  rewrite E. cbn [bind]. destruct (bset_exists (jq_arrays q') (jq_data q') b) as (l & El & Ll & Nl).
  { apply znth_Some_range in Ha. lia. }
  rewrite El. cbn [bind]. eexists _, _. split; [reflexivity|].
  assert (Zl : znth l (jq_data q') = Some b) by now rewrite Nl, Z.eqb_refl.
  split.
  - exists b. cbn. repeat split; auto; lia.
  - unfold jq_content. cbn [jq_arrays jq_data jq_size]. rewrite (proj2 (bget_Ok _ _ _) Zl). cbn [bind].
    replace ((jq_size q' <? 0) || (zlen b <? jq_size q')) with false by lia. f_equal.
    apply znth_ext. intros i. rewrite znth_map. destruct (Z_le_dec 0 i); [destruct (Z_lt_dec i (zlen input))|].
    + rewrite <- Hb by lia. apply znth_firstn. lia.
    + replace (znth input i) with (@None Z) by (symmetry; apply znth_None; lia). apply znth_None.
      unfold zlen. rewrite firstn_length. unfold zlen in *. lia.
    + replace (znth input i) with (@None Z) by (symmetry; apply znth_None; lia). apply znth_None. lia.
Qed.

(** ** Contours *)
Lemma int_contour_map c : int_contour c -> mkCo (s32 (co_id c)) (s32 (co_ext c)) (map s32 (co_int c)) = c.
Proof.
  intros (H1 & H2 & _ & H3). rewrite !s32_id by lia. destruct c as [i e l]. cbn in *. f_equal.
  rewrite <- (map_id l) at 2. apply map_ext_in. intros v Hv. apply s32_id. specialize (H3 v Hv). lia.
Qed.

Lemma j_contours_ok grow q cs : growing grow -> queue_ok q -> Forall int_contour cs -> j_contours grow q cs = Ok cs.
Proof.
  intros G Q F. unfold j_contours. destruct (jw_new_ok q Q) as (w & -> & K). cbn [bind].
  match goal with |- context [for_range 0 (zlen cs) ?bd _] =>
    destruct (for_range_inv (fun i (s : jqueue * jwrap * list contour) => linked (fst (fst s)) (snd (fst s)) /\
       snd s = firstn (Z.to_nat i) cs) 0 (zlen cs) bd (q, w, [])) as (((q' & w') & l) & E & _ & El) end.
  - apply zlen_nonneg.
  - cbn. auto.
  - intros i ((q1 & w1) & l1) Hi [K1 L1]. cbn [fst snd] in K1, L1. destruct (bget_in cs i ltac:(lia)) as (c & Ec & Zc). rewrite Ec. cbn [bind].
    assert (Ic : int_contour c) by (rewrite Forall_forall in F; apply F; eapply znth_In; eauto).
    destruct (jw_setTo_ok grow q1 w1 (co_int c) G K1 (proj1 (proj2 (proj2 Ic)))) as (q2 & w2 & E2 & K2 & C2).
    rewrite E2. cbn [bind]. unfold j_addContour. rewrite C2. cbn [bind]. eexists. split; [reflexivity|]. cbn [fst snd]. split; auto.
    rewrite int_contour_map by auto. replace (Z.to_nat (i + 1)) with (S (Z.to_nat i)) by lia.
    subst l1. unfold znth in Zc. replace (i <? 0) with false in Zc by lia. clear -Zc. revert Zc.
    generalize (Z.to_nat i). induction cs as [|d cs IH]; intros [|n] Zc; cbn in *; try discriminate.
    + now injection Zc as ->.
    + f_equal. apply IH; auto.
  - rewrite E. cbn [bind snd]. cbn [snd] in El. rewrite El. unfold zlen. rewrite Nat2Z.id, firstn_all. reflexivity.
Qed.

(** ** Points *)
Lemma fq_resize_len {A} (d : A) l n : 0 <= n -> zlen (fq_resize d l n) = n.
Proof. intros H. unfold fq_resize. rewrite zlen_app, zlen_repeat. unfold zlen. rewrite firstn_length. lia. Qed.
Lemma fq_resize_all {A} (P : A -> Prop) d l n : P d -> Forall P l -> Forall P (fq_resize d l n).
Proof.
  intros Hd Hl. unfold fq_resize. apply Forall_app. split.
  - rewrite Forall_forall in *. intros x Hx. apply Hl. rewrite <- (firstn_skipn (Z.to_nat n) l). apply in_app_iff. now left.
  - apply Forall_forall. intros x Hx. apply repeat_spec in Hx. now subst.
Qed.

Definition point_or_zero (c : option (Z * Z)) : Z * Z := match c with Some p => p | None => (0, 0) end.

Section Copy.
Variables (p : pset (Z * Z)) (dst : jpacked).
Hypothesis Hbs : 1 <= ps_bs p <= 1073741823.
Hypothesis Hlen : jp_length dst = ps_bs p * 2.
Hypothesis Hsrc : Forall (fun b => zlen b = ps_bs p) (ps_blocks p).
Hypothesis Hdst : Forall (fun b => zlen b = jp_length dst) (jp_blocks dst).

Lemma copy_block (src : list (option (Z * Z))) (a : list Z) : zlen src = ps_bs p -> zlen a = ps_bs p * 2 ->
  exists a', for_range 0 (ps_bs p) (fun j a =>
        let* c := bget src j in
        let p := match c with Some p => p | None => (0, 0) end in
        let* a := bset a (u32 (j * 2)) (fst p) in
        bset a (u32 (j * 2 + 1)) (snd p)) a = Ok a' /\ zlen a' = ps_bs p * 2 /\
    forall j c, znth src j = Some c -> znth a' (j * 2) = Some (fst (point_or_zero c)) /\ znth a' (j * 2 + 1) = Some (snd (point_or_zero c)).
Proof.
  intros Ls La.
  match goal with |- context [for_range 0 (ps_bs p) ?bd a] =>
    destruct (for_range_inv (fun i b => zlen b = ps_bs p * 2 /\ forall j c, j < i -> znth src j = Some c ->
        znth b (j * 2) = Some (fst (point_or_zero c)) /\ znth b (j * 2 + 1) = Some (snd (point_or_zero c))) 0 (ps_bs p) bd a) as (a' & E & L & H) end.
  - lia.
  - split; auto. intros j c Hj Hc. apply znth_Some_range in Hc. lia.
  - intros i b Hi [Lb Hb]. destruct (bget_in src i ltac:(lia)) as (c & -> & Zc). cbn [bind]. rewrite !u32_id by lia.
    destruct (bset_exists b (i * 2) (fst (point_or_zero c)) ltac:(lia)) as (b1 & E1 & L1 & N1). unfold point_or_zero in E1. rewrite E1. cbn [bind].
    destruct (bset_exists b1 (i * 2 + 1) (snd (point_or_zero c)) ltac:(lia)) as (b2 & E2 & L2 & N2). exists b2. split; auto. split; [lia|].
    intros j d Hj Hd. rewrite !N2, !N1. destruct (Z.eq_dec j i) as [->|Nj].
    + rewrite Zc in Hd. injection Hd as <-. rewrite Z.eqb_refl. replace (i * 2 =? i * 2 + 1) with false by lia. now rewrite Z.eqb_refl.
    + replace (j * 2 =? i * 2 + 1) with false by lia. replace (j * 2 =? i * 2) with false by lia.
      replace (j * 2 + 1 =? i * 2 + 1) with false by lia. replace (j * 2 + 1 =? i * 2) with false by lia. apply Hb; auto; lia.
  - exists a'. split; auto. split; auto. intros j c Hc. apply H; auto. apply znth_Some_range in Hc. lia.
Qed.

Lemma copy_ok : exists dst', copy_into_java p dst = Ok dst' /\ jp_length dst' = jp_length dst /\
  (forall b src j c, znth (ps_blocks p) b = Some src -> znth src j = Some c -> exists a, znth (jp_blocks dst') b = Some a /\
     znth a (j * 2) = Some (fst (point_or_zero c)) /\ znth a (j * 2 + 1) = Some (snd (point_or_zero c))) /\
  (forall i s, znth (ps_info p) i = Some s ->
     znth (jp_sets dst') i = Some (s32 (u32 (pi_offset s * 2)), s32 (pi_size s), s32 (pi_block s))) /\
  zlen (jp_sets dst') = zlen (ps_info p) /\ Forall (fun b => zlen b = jp_length dst') (jp_blocks dst').
Proof.
  unfold copy_into_java. rewrite Hlen, Z.eqb_refl. cbn [negb]. rewrite Forall_forall in Hsrc.
  pose proof (zlen_nonneg (ps_blocks p)). pose proof (zlen_nonneg (ps_info p)).
  match goal with |- context [for_range 0 (zlen (ps_blocks p)) ?bd ?l] =>
    destruct (for_range_inv (fun i bl => zlen bl = zlen (ps_blocks p) /\ Forall (fun b => zlen b = ps_bs p * 2) bl /\
      forall b src j c, b < i -> znth (ps_blocks p) b = Some src -> znth src j = Some c -> exists a, znth bl b = Some a /\
     znth a (j * 2) = Some (fst (point_or_zero c)) /\ znth a (j * 2 + 1) = Some (snd (point_or_zero c))) 0 (zlen (ps_blocks p)) bd l) as (bl & E & L & FL & H1) end.
  - lia.
  - split; [now apply fq_resize_len|]. split.
    + apply fq_resize_all; [rewrite zlen_repeat; lia|]. rewrite <- Hlen. exact Hdst.
    + intros b src j c Hb Hs. apply znth_Some_range in Hs. lia.
  - intros i bl Hi (Lb & Fb & Hb). destruct (bget_in bl i ltac:(lia)) as (a & -> & Za). cbn [bind].
    destruct (bget_in (ps_blocks p) i ltac:(lia)) as (src & -> & Zs). cbn [bind]. rewrite Forall_forall in Fb.
    destruct (copy_block src a) as (a' & Ea' & La' & Ha').
    { apply Hsrc. eapply znth_In; eauto. } { apply Fb. eapply znth_In; eauto. }
    cbv zeta in Ea' |- *. rewrite Ea'. cbn [bind]. destruct (bset_exists bl i a' ltac:(lia)) as (bl' & E' & L' & N'). exists bl'. split; auto. split; [lia|]. split.
    + apply Forall_forall. intros x Hx. apply In_znth in Hx as (k & Hk). rewrite N' in Hk. destruct (k =? i).
      * now injection Hk as <-.
      * apply Fb. eapply znth_In; eauto.
    + intros b s j c Hbi Hs Hc. destruct (Z.eq_dec b i) as [->|Nb].
      * exists a'. rewrite N', Z.eqb_refl. split; auto. rewrite Zs in Hs. injection Hs as <-. now apply Ha'.
      * rewrite N'. replace (b =? i) with false by lia. eapply Hb; eauto. lia.
  - rewrite E. cbn [bind].
    match goal with |- context [for_range 0 (zlen (ps_info p)) ?bd ?l] =>
      destruct (for_range_inv (fun i sets => zlen sets = zlen (ps_info p) /\ forall k s, k < i -> znth (ps_info p) k = Some s ->
       znth sets k = Some (s32 (u32 (pi_offset s * 2)), s32 (pi_size s), s32 (pi_block s))) 0 (zlen (ps_info p)) bd l) as (sets & E2 & L2 & H2) end.
    + lia.
    + split; [now apply fq_resize_len|]. intros k s Hk Hs. apply znth_Some_range in Hs. lia.
    + intros i sets Hi [Ls Hs]. destruct (bget_in (ps_info p) i ltac:(lia)) as (s & -> & Zs). cbn [bind].
      destruct (bset_exists sets i (s32 (u32 (pi_offset s * 2)), s32 (pi_size s), s32 (pi_block s)) ltac:(lia)) as (sets' & E' & L' & N').
      exists sets'. split; auto. split; [lia|]. intros k s' Hk Hs'. rewrite N'. destruct (Z.eqb_spec k i) as [->|].
      * rewrite Zs in Hs'. now injection Hs' as <-.
      * apply Hs; auto. lia.
    + rewrite E2. cbn [bind]. eexists. split; [reflexivity|]. cbn [jp_length jp_blocks jp_sets]. split; [congruence|]. split.
      * intros b src j c Hb Hc. eapply H1; eauto. apply znth_Some_range in Hb. lia.
      * split; [|auto]. intros i s Hs. apply H2; auto. apply znth_Some_range in Hs. lia.
Qed.
End Copy.

(** What Java reads after the copy. *)
Lemma copy_sets (p : pset (Z * Z)) s dst : Rps p s -> ps_bs p <= 1073741823 -> ll_total s <= 1000000000 ->
  jp_length dst = ps_bs p * 2 -> Forall (fun b => zlen b = jp_length dst) (jp_blocks dst) ->
  (forall i, In i (ps_info p) -> 0 <= pi_offset i < ps_bs p /\ 0 <= pi_block i) ->
  exists dst', copy_into_java p dst = Ok dst' /\ (jp_length dst' = jp_length dst /\ Forall (fun b => zlen b = jp_length dst') (jp_blocks dst')) /\
    zlen (jp_sets dst') = zlen s /\ forall k l, znth s k = Some l -> java_set dst' k l.
Proof.
  intros R Hb Ht Hl Hd Hinf. assert (R' := R). destruct R' as (B & F & T & L & C & K & I).
  destruct (copy_ok p dst) as (dst' & E & El & Hbl & Hse & Ls & Fbl); auto; try lia.
  exists dst'. split; auto. split; [auto|]. split; [rewrite Ls; eapply infos_len; eauto|].
  intros k l Hk. apply znth_split in Hk as (s1 & s2 & Es & Ek). subst s.
  destruct (infos_lookup _ _ _ _ _ I) as (inf & Zi & P1 & P2). subst k.
  destruct (Hinf inf) as [O1 O2]; [eapply znth_In; eauto|].
  assert (T1 : ll_total s1 + zlen l <= ll_total (s1 ++ l :: s2)).
  { rewrite ll_total_app, ll_total_cons. pose proof (ll_total_nonneg s2). lia. }
  pose proof (ll_total_nonneg s1). pose proof (zlen_nonneg l).
  assert (Bk : pi_block inf <= 1000000000) by nia.
  exists (pi_offset inf * 2), (pi_size inf), (pi_block inf). split.
  { rewrite (Hse _ _ Zi). rewrite u32_id by lia. rewrite !s32_id by lia. reflexivity. }
  split; [exact P2|]. intros i Hi. split; [nia|].
  destruct (znth_in_range l i ltac:(lia)) as (v & Zv). rewrite Zv.
  destruct (cell_at p _ s1 l s2 inf i v R eq_refl P1 Zv) as (_ & J & Fl).
  unfold flat in Fl. set (j := ll_total s1 + i) in *.
  assert (Dj : j / ps_bs p = pi_block inf + (pi_offset inf + i) / ps_bs p).
  { unfold j. rewrite <- P1. replace (pi_block inf * ps_bs p + pi_offset inf + i) with (pi_offset inf + i + pi_block inf * ps_bs p) by lia.
    rewrite Z.div_add by lia. lia. }
  assert (Mj : j mod ps_bs p = (pi_offset inf + i) mod ps_bs p).
  { unfold j. rewrite <- P1. replace (pi_block inf * ps_bs p + pi_offset inf + i) with (pi_offset inf + i + pi_block inf * ps_bs p) by lia.
    now rewrite Z.mod_add by lia. }
  rewrite Dj, Mj in Fl. unfold java_point. rewrite El, Hl.
  rewrite Z.quot_div_nonneg, Z.rem_mod_nonneg by lia.
  replace (pi_offset inf * 2 + i * 2) with ((pi_offset inf + i) * 2) by lia.
  rewrite Z.div_mul_cancel_r, Zmult_mod_distr_r by lia.
  destruct (znth (ps_blocks p) (pi_block inf + (pi_offset inf + i) / ps_bs p)) as [src|] eqn:Eb; [|discriminate].
  destruct (Hbl _ _ _ _ Eb Fl) as (a & -> & -> & ->). destruct v; reflexivity.
Qed.

(** The fields of the sets stay in range. *)
Definition infos_in (p : pset (Z * Z)) : Prop := forall i, In i (ps_info p) -> 0 <= pi_offset i < ps_bs p /\ 0 <= pi_block i.

Lemma In_removelast {A} (l : list A) x : In x (removelast l) -> In x l.
Proof. induction l as [|a [|b l] IH]; cbn in *; tauto. Qed.

Lemma infos_in_exec p o p' : 1 <= ps_bs p -> infos_in p -> 0 <= ps_total p -> ps_exec p o = Ok p' ->
  infos_in p' /\ ps_bs p' = ps_bs p /\ 0 <= ps_total p'.
Proof.
  intros Hb H Ht E. unfold infos_in in *.
  assert (St : forall q, ps_start p = Ok q -> (forall i, In i (ps_info q) -> 0 <= pi_offset i < ps_bs q /\ 0 <= pi_block i) /\ ps_bs q = ps_bs p /\ 0 <= ps_total q).
  { intros q Eq. unfold ps_start, udiv, umod in Eq. replace (ps_bs p =? 0) with false in Eq by lia. cbn in Eq. injection Eq as <-. cbn. split; auto.
    intros i Hi. apply in_app_iff in Hi as [Hi|[<-|[]]]; auto. cbn. split; [apply Z.mod_pos_bound; lia|apply Z.div_pos; lia]. }
  destruct o; cbn in E.
  - injection E as <-. cbn. split; [intros i []|]. split; auto; lia.
  - auto.
  - unfold ps_push in E. apply bind_Ok in E as (p1 & E1 & E).
    assert (H1 : (forall i, In i (ps_info p1) -> 0 <= pi_offset i < ps_bs p1 /\ 0 <= pi_block i) /\ ps_bs p1 = ps_bs p /\ 0 <= ps_total p1).
    { destruct (ps_info p) eqn:Ei; [auto|]. injection E1 as <-. rewrite Ei. auto. }
    apply bind_Ok in E as (p2 & E2 & E). injection E as <-. cbn. destruct H1 as (H1 & H2 & H3).
    unfold ps_add in E2. apply bind_Ok in E2 as (b & _ & E2). apply bind_Ok in E2 as (o & _ & E2). apply bind_Ok in E2 as (bl & _ & E2).
    injection E2 as <-. cbn. split.
    + intros i Hi. destruct (ps_info p1) as [|i0 l0] eqn:Ei; [destruct Hi|]. unfold inc_tail in Hi. rewrite <- Ei in *.
      apply in_app_iff in Hi as [Hi|[<-|[]]]; [apply H1; now apply In_removelast|]. cbn.
      apply H1. rewrite Ei. rewrite (app_removelast_last (l := i0 :: l0) (mkInfo 0 0 0)) at 2 by discriminate. apply in_app_iff. right. now left.
    + split; auto. apply u32_range.
  - injection E as <-. unfold ps_remove_tail. destruct (ps_info p) as [|i0 l0] eqn:Ei; [rewrite Ei; auto|]. cbn [ps_info ps_bs ps_total]. split.
    + intros i Hi. apply H. now apply In_removelast.
    + split; auto. apply u32_range.
  - unfold ps_at_set in E. destruct (_ <=? _); [discriminate|]. destruct (znth _ _); [|discriminate]. destruct (_ <=? _); [discriminate|].
    apply bind_Ok in E as (b & _ & E). apply bind_Ok in E as (o & _ & E). apply bind_Ok in E as (bl & _ & E). injection E as <-. auto.
  - unfold ps_write in E. destruct (znth _ _); [|discriminate]. destruct (negb _); [discriminate|].
    apply bind_Ok in E as (bl & _ & E). injection E as <-. auto.
Qed.

Lemma infos_in_run l : forall p p', 1 <= ps_bs p -> infos_in p -> 0 <= ps_total p -> ps_run p l = Ok p' -> infos_in p' /\ ps_bs p' = ps_bs p.
Proof.
  induction l as [|o l IH]; intros p p' Hb H Ht E; cbn in E.
  - injection E as <-. auto.
  - destruct (ps_exec p o) eqn:Eo; try discriminate.
    + destruct (infos_in_exec p o a Hb H Ht Eo) as (H1 & H2 & H3). rewrite <- H2. apply (IH a p'); auto; lia.
    + eauto.
Qed.

Lemma copy_history bs h dst : 1 <= bs <= 1073741823 -> Forall ps_op_ok h -> ll_fits [] h ->
  ll_total (ll_run [] h) <= 1000000000 ->
  jp_length dst = bs * 2 -> Forall (fun b => zlen b = jp_length dst) (jp_blocks dst) ->
  exists p dst', ps_run (ps_new bs) h = Ok p /\ copy_into_java p dst = Ok dst' /\
    zlen (jp_sets dst') = zlen (ll_run [] h) /\
    forall k l, znth (ll_run [] h) k = Some l -> java_set dst' k l.
Proof.
  intros Hb Ho Hf Ht Hl Hd. destruct (ps_run_ok h (ps_new bs) [] (Rps_new bs ltac:(lia)) Ho Hf) as (p & E & R & _).
  destruct (infos_in_run h (ps_new bs) p) as [H1 H2]; auto; cbn; try lia; [intros i []|]. cbn in H2.
  destruct (copy_sets p (ll_run [] h) dst R) as (dst' & E' & _ & L & S); auto; try congruence; try lia.
  exists p, dst'. auto.
Qed.

Lemma copy_mismatch (p : pset (Z * Z)) dst : 0 <= ps_bs p <= 2147483647 -> 0 <= jp_length dst <= 2147483647 ->
  jp_length dst <> ps_bs p * 2 -> copy_into_java p dst = Throw.
Proof.
  intros H1 H2 H3. unfold copy_into_java. rewrite !u32_id by lia. now replace (jp_length dst =? ps_bs p * 2) with false by lia.
Qed.

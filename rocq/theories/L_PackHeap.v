(** Lemmas about packed sets on a heap. *)
From Verif Require Import Base BaseFacts M_Heap L_Heap M_PackedSet S_PackedSet L_PackedSet M_PackHeap S_PackHeap.

(** ** Counting *)
Lemma held_app {B} (l k : list (option B)) : held (l ++ k) = held l + held k.
Proof. unfold held. now rewrite filter_app, zlen_app. Qed.
Lemma held_one {B} (b : B) : held [Some b] = 1.
Proof. reflexivity. Qed.
Lemma held_upd_some {B} (l : list (option B)) n a b : nth_error l n = Some (Some a) -> held (upd l n (Some b)) = held l.
Proof.
  unfold held. revert n. induction l as [|x l IH]; intros [|n] H; cbn in *; try discriminate.
  - injection H as ->. reflexivity.
  - destruct x; rewrite ?zlen_cons, IH; auto.
Qed.
Lemma held_upd_none {B} (l : list (option B)) n a : nth_error l n = Some (Some a) -> held (upd l n None) = held l - 1.
Proof.
  unfold held. revert n. induction l as [|x l IH]; intros [|n] H; cbn in *; try discriminate.
  - injection H as ->. rewrite zlen_cons. lia.
  - destruct x; rewrite ?zlen_cons, (IH _ H); lia.
Qed.

(** ** Loops *)
Lemma for_range_sim {S T} (R : S -> T -> Prop) (b1 : Z -> S -> outcome S) (b2 : Z -> T -> outcome T) lo hi :
  (forall i s t s', lo <= i < hi -> R s t -> b1 i s = Ok s' -> exists t', b2 i t = Ok t' /\ R s' t') ->
  forall s t s', R s t -> for_range lo hi b1 s = Ok s' -> exists t', for_range lo hi b2 t = Ok t' /\ R s' t'.
Proof.
  remember (Z.to_nat (hi - lo)) as n eqn:En. revert lo En. induction n as [|n IH]; intros lo En H s t s' Hr E.
  - rewrite for_range_nil in E by lia. rewrite for_range_nil by lia. injection E as <-. eauto.
  - rewrite for_range_step in E by lia. rewrite for_range_step by lia. destruct (b1 lo s) as [s1| | |] eqn:E1; cbn in E; try discriminate.
    destruct (H lo s t s1) as (t1 & E2 & R1); auto; [lia|]. rewrite E2. cbn.
    apply (IH (lo + 1) ltac:(lia)) with (s := s1); auto. intros; eapply H; eauto; lia.
Qed.
Lemma for_range_no_throw {S} (b : Z -> S -> outcome S) lo hi : (forall i s, b i s <> Throw) -> forall s, for_range lo hi b s <> Throw.
Proof.
  intros H. remember (Z.to_nat (hi - lo)) as n eqn:En. revert lo En. induction n as [|n IH]; intros lo En s.
  - rewrite for_range_nil by lia. discriminate.
  - rewrite for_range_step by lia. destruct (b lo s) as [s1| | |] eqn:E; cbn; try discriminate; [apply IH; lia|]. now apply H in E.
Qed.
Lemma cell_set_no_throw {A} (bl : list (list (option A))) b i v : cell_set bl b i v <> Throw.
Proof.
  unfold cell_set, bget, bset. destruct (znth bl b) as [blk|]; cbn; [|discriminate].
  destruct (_ && _); cbn; [|discriminate]. destruct (_ && _); discriminate.
Qed.

Section P.
Context {A : Type}.
Implicit Types (M : pmem A) (o : pobj) (ptrs : list nat) (bl : list (list (option A))) (p : pset A).

(** Object [o] points to an array of [ptrs], which point to blocks with contents [bl]. *)
Definition owns M o ptrs bl : Prop :=
  nth_error (pm_tabs M) (po_tab o) = Some (Some (map Some ptrs)) /\ zlen ptrs = po_num o /\ NoDup ptrs /\
  Forall2 (fun q d => nth_error (pm_blks M) q = Some (Some d)) ptrs bl.

Definition Rel M o ptrs p : Prop :=
  owns M o ptrs (ps_blocks p) /\ po_bs o = ps_bs p /\ po_total o = ps_total p /\ po_info o = ps_info p.

(** What a call on one object leaves alone. *)
Definition frame M o ptrs M' o' ptrs' : Prop :=
  (forall t d, t <> po_tab o -> nth_error (pm_tabs M) t = Some (Some d) -> nth_error (pm_tabs M') t = Some (Some d)) /\
  (forall q d, ~ In q ptrs -> nth_error (pm_blks M) q = Some (Some d) -> nth_error (pm_blks M') q = Some (Some d)) /\
  (po_tab o' = po_tab o \/ (length (pm_tabs M) <= po_tab o')%nat) /\
  (forall q, In q ptrs' -> In q ptrs \/ (length (pm_blks M) <= q)%nat) /\
  held (pm_tabs M') = held (pm_tabs M) /\ held (pm_blks M') = held (pm_blks M) + zlen ptrs' - zlen ptrs.

Lemma frame_refl M o o' ptrs : po_tab o' = po_tab o -> frame M o ptrs M o' ptrs.
Proof. intros E. unfold frame. repeat split; auto. lia. Qed.

Lemma forall2_znth {B C} (P : B -> C -> Prop) l k : Forall2 P l k -> forall i b, znth l i = Some b -> exists c, znth k i = Some c /\ P b c.
Proof.
  unfold znth. intros F i b. destruct (i <? 0); [discriminate|]. generalize (Z.to_nat i). clear i. induction F as [|x y l k H F IH]; intros [|n] E; cbn in *; try discriminate.
  - injection E as <-. eauto.
  - eauto.
Qed.
Lemma forall2_impl {B C} (P Q : B -> C -> Prop) l k : (forall b c, In b l -> P b c -> Q b c) -> Forall2 P l k -> Forall2 Q l k.
Proof. intros H F. induction F; constructor; [apply H; auto; now left|]. apply IHF. intros b c Hb. apply H. now right. Qed.
Lemma forall2_len {B C} (P : B -> C -> Prop) l k : Forall2 P l k -> zlen l = zlen k.
Proof. induction 1; auto. rewrite !zlen_cons. lia. Qed.

(** Pointer and block number [i]. *)
Lemma owns_ptr M o ptrs bl i d : owns M o ptrs bl -> znth bl i = Some d ->
  exists q, znth ptrs i = Some q /\ ph_ptr M o i = Ok q /\ nth_error (pm_blks M) q = Some (Some d).
Proof.
  intros (T & L & N & F) E. pose proof (znth_Some_range _ _ _ E) as Ri. rewrite <- (forall2_len _ _ _ F) in Ri.
  destruct (znth_in_range ptrs i Ri) as [q Eq]. exists q. split; auto.
  destruct (forall2_znth _ _ _ F i q Eq) as (d' & E' & Hd). assert (d' = d) by congruence. subst d'. split; auto.
  unfold ph_ptr. rewrite (hread_live _ _ _ _ T). unfold bget. rewrite znth_map, Eq. reflexivity.
Qed.

Lemma cell_sim M o ptrs bl b i v : owns M o ptrs bl -> cell_get bl b i = Ok v -> ph_cell M o b i = Ok v.
Proof.
  intros O E. unfold cell_get in E. destruct (bget bl b) as [d| | |] eqn:Eb; cbn in E; try discriminate.
  apply bget_Ok in Eb. destruct (owns_ptr M o ptrs bl b d O Eb) as (q & _ & Ep & Ed).
  unfold ph_cell. rewrite Ep. cbn. rewrite (hread_live _ _ _ _ Ed). exact E.
Qed.

Lemma forall2_upd ptrs bl (H H' : list (option (list (option A)))) i q d' : NoDup ptrs ->
  Forall2 (fun q d => nth_error H q = Some (Some d)) ptrs bl -> nth_error ptrs i = Some q ->
  (forall r, r <> q -> nth_error H' r = nth_error H r) -> nth_error H' q = Some (Some d') ->
  Forall2 (fun q d => nth_error H' q = Some (Some d)) ptrs (upd bl i d').
Proof.
  intros N F. revert i. induction F as [|x y l k E F IH]; intros [|i] Ei Hr Hq; cbn in *; try discriminate.
  - injection Ei as ->. constructor; auto. inversion N as [|? ? N1 N2]; subst. clear - N1 F Hr.
    induction F as [|x y l k E F IH]; constructor.
    + rewrite Hr; auto. intros ->. apply N1. now left.
    + apply IH. intros I. apply N1. now right.
  - inversion N as [|? ? N1 N2]; subst. constructor.
    + rewrite Hr; auto. intros ->. apply N1. now apply nth_error_In in Ei.
    + apply IH; auto.
Qed.

(** A write to an element. *)
Lemma put_sim M o ptrs bl b i v bl' : owns M o ptrs bl -> cell_set bl b i v = Ok bl' ->
  exists B, ph_put M o b i v = Ok (mkPmem (pm_tabs M) B) /\ owns (mkPmem (pm_tabs M) B) o ptrs bl' /\
    (forall q, ~ In q ptrs -> nth_error B q = nth_error (pm_blks M) q) /\ length B = length (pm_blks M) /\ held B = held (pm_blks M).
Proof.
  intros O E. unfold cell_set in E. destruct (bget bl b) as [d| | |] eqn:Eb; cbn in E; try discriminate.
  apply bget_Ok in Eb. destruct (bset d i (Some v)) as [d'| | |] eqn:Ed'; cbn in E; try discriminate.
  destruct (owns_ptr M o ptrs bl b d O Eb) as (q & Eq & Ep & Ed). pose proof O as (T & L & N & F).
  unfold ph_put. rewrite Ep. cbn. unfold hwrite. rewrite Ed, Ed'. cbn. exists (upd (pm_blks M) q (Some d')). split; [reflexivity|].
  pose proof (nth_some_lt _ _ _ Ed) as Lq.
  assert (Eq' : nth_error ptrs (Z.to_nat b) = Some q). { unfold znth in Eq. destruct (b <? 0); [discriminate|exact Eq]. }
  split; [|split; [|split]].
  - split; [exact T|]. split; auto. split; auto. cbn [pm_blks].
    assert (bl' = upd bl (Z.to_nat b) d') as ->.
    { pose proof (znth_Some_range _ _ _ Eb). rewrite bset_in in E by lia. congruence. }
    apply (forall2_upd _ _ (pm_blks M) _ _ q); auto; [intros r Hr; now rewrite upd_other by auto|now rewrite upd_same by auto].
  - intros r Hr. apply upd_other. intros ->. apply Hr. now apply nth_error_In in Eq'.
  - apply upd_length.
  - eapply held_upd_some. exact Ed.
Qed.

Lemma firstn_more {B} (l : list B) n x : nth_error l n = Some x -> firstn (S n) l = firstn n l ++ [x].
Proof. revert n. induction l as [|a l IH]; intros [|n] E; cbn in *; try discriminate; [congruence|]. f_equal. now apply IH. Qed.

(** The array of pointers grows. *)
Lemma more_sim M o ptrs bl : owns M o ptrs bl -> po_num o + 1 < 4294967296 ->
  exists M' o' q, ph_more M o (po_num o) = Ok (M', o') /\ po_bs o' = po_bs o /\ po_total o' = po_total o /\ po_info o' = po_info o /\
    po_num o' = po_num o + 1 /\ owns M' o' (ptrs ++ [q]) (bl ++ [ps_block (po_bs o)]) /\ frame M o ptrs M' o' (ptrs ++ [q]).
Proof.
  intros (T & L & N & F) Hn. pose proof (zlen_nonneg ptrs) as Hp. pose proof (nth_some_lt _ _ _ T) as Lt.
  unfold ph_more, halloc. cbv beta iota. rewrite u32_id by lia.
  match goal with |- context [for_range 0 _ ?b ?s] =>
    destruct (for_range_inv (fun i (X : heap (option nat)) => X = pm_tabs M ++ [Some (map Some (firstn (Z.to_nat i) ptrs) ++ repeat None (Z.to_nat (po_num o + 1 - i)))])
      0 (po_num o) b s) as (X & EX & HX) end.
  - lia.
  - change (Z.to_nat 0) with 0%nat. cbn. now rewrite Z.sub_0_r.
  - intros i X Hi ->. destruct (znth_in_range ptrs i ltac:(lia)) as [q Eq].
    assert (Eq' : nth_error ptrs (Z.to_nat i) = Some q). { unfold znth in Eq. destruct (i <? 0); [discriminate|exact Eq]. }
    assert (P : ph_ptr (mkPmem (pm_tabs M ++ [Some (map Some (firstn (Z.to_nat i) ptrs) ++ repeat None (Z.to_nat (po_num o + 1 - i)))]) (pm_blks M)) o i = Ok q).
    { unfold ph_ptr. cbn [pm_tabs]. rewrite (hread_live _ _ (map Some ptrs)).
      - unfold bget. now rewrite znth_map, Eq.
      - now rewrite nth_error_app1. }
    rewrite P. cbn [bind]. unfold hwrite. rewrite nth_error_app2 by lia. rewrite Nat.sub_diag. cbn [nth_error].
    assert (Lf : length (firstn (Z.to_nat i) ptrs) = Z.to_nat i). { apply firstn_length_le. unfold zlen in *. lia. }
    rewrite bset_in. 2:{ rewrite zlen_app, zlen_repeat. unfold zlen. rewrite map_length, Lf. lia. }
    cbn [bind]. eexists. split; [reflexivity|]. rewrite (upd_split (pm_tabs M) []). f_equal. f_equal. f_equal.
    replace (Z.to_nat (po_num o + 1 - i)) with (S (Z.to_nat (po_num o + 1 - (i + 1)))) by lia. cbn [repeat].
    rewrite <- Lf at 2. rewrite <- (map_length Some (firstn (Z.to_nat i) ptrs)). rewrite upd_split.
    replace (Z.to_nat (i + 1)) with (S (Z.to_nat i)) by lia. rewrite (firstn_more _ _ _ Eq'), map_app, <- app_assoc. reflexivity.
  - rewrite EX. cbn [bind]. subst X. set (q := length (pm_blks M)).
    replace (Z.to_nat (po_num o)) with (length ptrs) by (unfold zlen in L; lia). rewrite firstn_all.
    replace (po_num o + 1 - po_num o) with 1 by lia. change (repeat None (Z.to_nat 1)) with [@None nat].
    unfold hwrite. rewrite nth_error_app2 by lia. rewrite Nat.sub_diag. cbn [nth_error].
    rewrite bset_in. 2:{ rewrite zlen_app. unfold zlen in *. rewrite map_length. cbn. lia. }
    cbn [bind]. replace (Z.to_nat (po_num o)) with (length (map Some ptrs)) by (rewrite map_length; unfold zlen in L; lia).
    rewrite !upd_split.
    unfold hfree. rewrite nth_error_app1 by lia. rewrite T. cbn [bind]. eexists _, _, q. split; [reflexivity|]. cbn [po_bs po_total po_info po_num].
    repeat (split; [reflexivity|]).
    assert (Nq : forall r, In r ptrs -> (r < q)%nat).
    { intros r Hr. apply In_nth_error in Hr as [k Ek]. assert (Ez : znth ptrs (Z.of_nat k) = Some r) by (unfold znth; replace (Z.of_nat k <? 0) with false by lia; now rewrite Nat2Z.id).
      destruct (forall2_znth _ _ _ F _ _ Ez) as (d & _ & Ed). now apply nth_some_lt in Ed. }
    split.
    + split; [|split; [|split]]; cbn [pm_tabs pm_blks po_tab].
      * rewrite upd_other by lia. rewrite nth_error_app2 by lia. rewrite Nat.sub_diag. cbn. now rewrite map_app.
      * rewrite zlen_app. change (zlen [q]) with 1. cbn [po_num]. lia.
      * apply (NoDup_Add (Add_app q ptrs [])). rewrite app_nil_r. split; auto. intros I. apply Nq in I. lia.
      * apply Forall2_app.
        -- eapply forall2_impl; [|exact F]. intros r d _ E. cbn in *. rewrite nth_error_app1; auto. now apply nth_some_lt in E.
        -- constructor; [|constructor]. rewrite nth_error_app2 by (unfold q; lia). unfold q. now rewrite Nat.sub_diag.
    + split; [|split; [|split; [|split; [|split]]]]; cbn [pm_tabs pm_blks po_tab].
      * intros t d Ht E. rewrite upd_other by auto. rewrite nth_error_app1; auto. now apply nth_some_lt in E.
      * intros r d Hr E. rewrite nth_error_app1; auto. now apply nth_some_lt in E.
      * right. lia.
      * intros r Hr. apply in_app_iff in Hr as [Hr|[<-|[]]]; auto.
      * erewrite held_upd_none by (rewrite nth_error_app1 by lia; exact T). rewrite held_app, held_one. lia.
      * rewrite held_app, held_one, zlen_app. change (zlen [q]) with 1. lia.
Qed.

Lemma owns_fields M o o' ptrs bl : po_tab o' = po_tab o -> po_num o' = po_num o -> owns M o ptrs bl -> owns M o' ptrs bl.
Proof. intros E1 E2. unfold owns. now rewrite E1, E2. Qed.
Lemma put_frame M o o' ptrs B : po_tab o' = po_tab o ->
  (forall q, ~ In q ptrs -> nth_error B q = nth_error (pm_blks M) q) -> held B = held (pm_blks M) ->
  frame M o ptrs (mkPmem (pm_tabs M) B) o' ptrs.
Proof.
  intros E H1 H2. unfold frame. cbn [pm_tabs pm_blks]. rewrite H2. repeat split; auto; [|lia]. intros q d Hq. now rewrite H1 by auto.
Qed.

Lemma add_sim M o ptrs p v p' : Rel M o ptrs p -> 1 <= ps_bs p -> 0 <= ps_total p -> ps_total p + 1 < 4294967296 ->
  ps_add p v = Ok p' ->
  exists M' o' ptrs', ph_add M o v = Ok (M', o') /\ Rel M' o' ptrs' p' /\ frame M o ptrs M' o' ptrs'.
Proof.
  intros (O & Eb & Et & Ei) Hb Ht0 Ht E. unfold ph_add, ps_add, udiv, umod in *. rewrite Eb, Et. replace (ps_bs p =? 0) with false in * by lia.
  cbn [bind] in *. pose proof O as (_ & L & _ & F). apply forall2_len in F. rewrite F in L. clear F. rewrite <- L.
  set (b := ps_total p / ps_bs p) in *.
  destruct (Z.eqb_spec b (zlen (ps_blocks p))) as [E0|E0].
  - assert (b <= ps_total p). { apply Z.div_le_upper_bound; nia. }
    destruct (more_sim M o ptrs _ O ltac:(lia)) as (M1 & o1 & q & E1 & F1 & F2 & F3 & F4 & O1 & Fr).
    rewrite E0, L, E1. cbn [bind]. rewrite <- L, <- E0, F1, F2, Eb, Et. replace (ps_bs p =? 0) with false by lia. cbn [bind].
    destruct (cell_set _ b _ v) as [bl'| | |] eqn:C; cbn [bind] in E; try discriminate. injection E as <-. rewrite Eb in O1.
    destruct (put_sim M1 o1 _ _ _ _ _ _ O1 C) as (B & E2 & O2 & Fq & _ & Hh). rewrite E2. cbn [bind].
    eexists _, _, _. split; [reflexivity|]. split.
    + split; [eapply owns_fields; [| |exact O2]; reflexivity|]. cbn. rewrite F3. auto.
    + destruct Fr as (G1 & G2 & G3 & G4 & G5 & G6). unfold frame. cbn [pm_tabs pm_blks po_tab]. split; auto. split.
      * intros r d Hr E. destruct (in_dec Nat.eq_dec r (ptrs ++ [q])) as [I|I].
        -- apply G4 in I. destruct I as [I|I]; [easy|]. apply nth_some_lt in E. lia.
        -- rewrite Fq by auto. auto.
      * split; auto. split; auto. split; auto. lia.
  - cbn [bind]. rewrite Eb, Et. replace (ps_bs p =? 0) with false by lia. cbn [bind].
    destruct (cell_set _ b _ v) as [bl'| | |] eqn:C; cbn [bind] in E; try discriminate. injection E as <-.
    destruct (put_sim M o _ _ _ _ _ _ O C) as (B & E2 & O2 & Fq & _ & Hh). rewrite E2. cbn [bind].
    eexists _, _, ptrs. split; [reflexivity|]. split.
    + split; [eapply owns_fields; [| |exact O2]; reflexivity|]. cbn. auto.
    + now apply put_frame.
Qed.

Lemma exec_sim M o ptrs p c : Rel M o ptrs p -> 1 <= ps_bs p -> 0 <= ps_total p ->
  (match c with P_push _ => ps_total p + 1 < 4294967296 | _ => True end) ->
  match ps_exec p c with
  | Ok p' => exists M' o' ptrs', ph_exec M o c = Ok (M', o') /\ Rel M' o' ptrs' p' /\ frame M o ptrs M' o' ptrs'
  | Throw => ph_exec M o c = Throw
  | _ => True
  end.
Proof.
  intros R Hb Ht0 Hc. pose proof R as (O & Eb & Et & Ei).
  destruct c as [| |v| |k i v|k l]; cbn [ps_exec ph_exec].
  - eexists _, _, ptrs. split; [reflexivity|]. split; [|now apply frame_refl].
    split; [eapply owns_fields; [| |exact O]; reflexivity|]. cbn. auto.
  - unfold ps_start, ph_start, udiv, umod. rewrite Eb, Et, Ei. replace (ps_bs p =? 0) with false by lia. cbn [bind].
    eexists _, _, ptrs. split; [reflexivity|]. split; [|now apply frame_refl].
    split; [eapply owns_fields; [| |exact O]; reflexivity|]. cbn. auto.
  - unfold ps_push, ph_push.
    assert (S : exists o1 p1, (match po_info o with [] => ph_start o | _ => Ok o end) = Ok o1 /\
                              (match ps_info p with [] => ps_start p | _ => Ok p end) = Ok p1 /\
                              Rel M o1 ptrs p1 /\ ps_bs p1 = ps_bs p /\ ps_total p1 = ps_total p /\ po_tab o1 = po_tab o).
    { rewrite Ei. destruct (ps_info p) eqn:Ep.
      - unfold ps_start, ph_start, udiv, umod. rewrite Eb, Et, Ei. replace (ps_bs p =? 0) with false by lia. cbn [bind].
        eexists _, _. split; [reflexivity|]. split; [reflexivity|]. cbn. repeat split; auto.
        + apply O.
        + apply O.
        + apply O.
        + apply O.
        + now rewrite Ep.
      - exists o, p. repeat split; auto; try apply O. now rewrite Ep. }
    destruct S as (o1 & p1 & -> & -> & R1 & Hb1 & Ht1 & Hq). cbn [bind].
    destruct (ps_add p1 v) as [p2| | |] eqn:E; cbn [bind]; auto.
    + destruct (add_sim M o1 ptrs p1 v p2 R1) as (M' & o' & ptrs' & E' & R' & Fr); auto; try lia. rewrite E'. cbn [bind].
      eexists _, _, ptrs'. split; [reflexivity|]. destruct R' as (O' & Eb' & Et' & Ei'). split.
      * split; [eapply owns_fields; [| |exact O']; reflexivity|]. cbn. now rewrite Ei'.
      * unfold frame in *. cbn [po_tab]. now rewrite <- Hq.
    + exfalso. unfold ps_add, udiv, umod in E. rewrite Hb1 in E. replace (ps_bs p =? 0) with false in E by lia. cbn [bind] in E.
      destruct (cell_set _ _ _ _) eqn:C; try discriminate. now apply cell_set_no_throw in C.
  - unfold ps_remove_tail, ph_remove_tail. rewrite Ei. destruct (ps_info p) eqn:Ep.
    + exists M, o, ptrs. split; auto. split; auto. now apply frame_refl.
    + eexists _, _, ptrs. split; [reflexivity|]. split; [|now apply frame_refl].
      split; [eapply owns_fields; [| |exact O]; reflexivity|]. cbn [po_bs po_total po_info ps_bs ps_total ps_info]. now rewrite Et.
  - unfold ps_at_set, ph_at_set. rewrite Ei. destruct (_ <=? _); auto. destruct (znth _ _) as [s|]; auto. destruct (_ <=? _); auto.
    change (ph_flat o s i) with (u32 (pi_block s * po_bs o + pi_offset s + i)). rewrite Eb. fold (ps_flat p s i).
    unfold udiv, umod. replace (ps_bs p =? 0) with false by lia. cbn [bind].
    destruct (cell_set _ _ _ _) as [bl'| | |] eqn:C; cbn [bind]; auto.
    + destruct (put_sim M o _ _ _ _ _ _ O C) as (B & E2 & O2 & Fq & _ & Hh). rewrite E2. cbn [bind].
      eexists _, _, ptrs. split; [reflexivity|]. split; [|now apply put_frame]. split; auto.
    + now apply cell_set_no_throw in C.
  - unfold ps_write, ph_write. rewrite Ei. destruct (znth _ _) as [s|]; auto. destruct (negb _); auto.
    match goal with |- match bind ?x _ with _ => _ end => destruct x as [bl'| | |] eqn:C end; cbn [bind]; auto.
    + match type of C with for_range _ _ ?b1 _ = _ => match goal with |- context [bind (for_range _ _ ?b2 _) _] =>
        destruct (for_range_sim (fun bl M' => owns M' o ptrs bl /\ pm_tabs M' = pm_tabs M /\
          (forall q, ~ In q ptrs -> nth_error (pm_blks M') q = nth_error (pm_blks M) q) /\ held (pm_blks M') = held (pm_blks M))
          b1 b2 0 (pi_size s)) with (3 := C) (t := M) as (M' & E' & O' & T' & F' & H') end end.
      * intros i bl N bl1 Hi (O1 & T1 & F1 & H1) E1.
        change (ph_flat o s i) with (u32 (pi_block s * po_bs o + pi_offset s + i)). rewrite Eb. fold (ps_flat p s i).
        unfold udiv, umod in *. replace (ps_bs p =? 0) with false in * by lia. cbn [bind] in *.
        destruct (bget l i) as [v| | |]; cbn [bind] in *; try discriminate.
        destruct (put_sim N o _ _ _ _ _ _ O1 E1) as (B & E2 & O2 & Fq & _ & Hh). rewrite E2.
        eexists. split; [reflexivity|]. cbn [pm_tabs pm_blks]. split; auto. split; auto. split; [|congruence].
        intros q Hq. rewrite Fq by auto. auto.
      * repeat split; auto; apply O.
      * rewrite E'. cbn [bind]. exists M', o, ptrs. split; auto. split; [split; auto|]. destruct M' as [T B]. cbn in T'. subst T. now apply put_frame.
    + exfalso. revert C. apply for_range_no_throw. intros i bl. unfold udiv, umod. replace (ps_bs p =? 0) with false by lia. cbn [bind].
      unfold bget. destruct (znth l i); cbn [bind]; [apply cell_set_no_throw|discriminate].
Qed.

(** ** Creation and destruction *)
Lemma new_sim M bs : exists M' o q, ph_new M bs = Ok (M', o) /\ Rel M' o [q] (ps_new bs) /\
  (forall t d, nth_error (pm_tabs M) t = Some (Some d) -> nth_error (pm_tabs M') t = Some (Some d)) /\
  (forall r d, nth_error (pm_blks M) r = Some (Some d) -> nth_error (pm_blks M') r = Some (Some d)) /\
  po_tab o = length (pm_tabs M) /\ q = length (pm_blks M) /\
  held (pm_tabs M') = held (pm_tabs M) + 1 /\ held (pm_blks M') = held (pm_blks M) + 1.
Proof.
  unfold ph_new, halloc. cbv beta iota zeta. rewrite for_range_step by lia.
  cbn [pm_tabs pm_blks]. unfold hwrite. rewrite nth_error_app2 by lia. rewrite Nat.sub_diag. cbn [nth_error].
  change (repeat None (Z.to_nat 1)) with [@None nat]. rewrite bset_in by (change (zlen [@None nat]) with 1; lia). cbn [bind].
  rewrite for_range_nil by lia. cbn [bind]. eexists _, _, (length (pm_blks M)). split; [reflexivity|].
  change (upd [None] (Z.to_nat 0) (Some (length (pm_blks M)))) with [Some (length (pm_blks M))].
  rewrite (upd_split (pm_tabs M) []). cbn [pm_tabs pm_blks po_tab]. split; [|repeat split].
  - split; [|cbn; auto]. split; [|split; [|split]]; cbn [pm_tabs pm_blks po_tab po_num].
    + rewrite nth_error_app2 by lia. rewrite Nat.sub_diag. reflexivity.
    + reflexivity.
    + constructor; [easy|constructor].
    + constructor; [|constructor]. rewrite nth_error_app2 by lia. now rewrite Nat.sub_diag.
  - intros t d E. rewrite nth_error_app1; auto. now apply nth_some_lt in E.
  - intros t d E. rewrite nth_error_app1; auto. now apply nth_some_lt in E.
  - now rewrite held_app, held_one.
  - now rewrite held_app, held_one.
Qed.

Lemma nodup_firstn ptrs n q : NoDup ptrs -> nth_error ptrs n = Some q -> ~ In q (firstn n ptrs).
Proof.
  intros N E. apply nth_error_split in E as (l1 & l2 & -> & <-). rewrite firstn_app, firstn_all, Nat.sub_diag. cbn. rewrite app_nil_r.
  apply NoDup_remove_2 in N. intros I. apply N. apply in_app_iff. auto.
Qed.

Lemma destroy_sim M o ptrs bl : owns M o ptrs bl -> exists M', ph_destroy M o = Ok M' /\
  (forall t d, t <> po_tab o -> nth_error (pm_tabs M) t = Some (Some d) -> nth_error (pm_tabs M') t = Some (Some d)) /\
  (forall q d, ~ In q ptrs -> nth_error (pm_blks M) q = Some (Some d) -> nth_error (pm_blks M') q = Some (Some d)) /\
  held (pm_tabs M') = held (pm_tabs M) - 1 /\ held (pm_blks M') = held (pm_blks M) - zlen ptrs.
Proof.
  intros O. pose proof O as (T & L & N & F). unfold ph_destroy.
  match goal with |- context [for_range 0 _ ?b ?s] =>
    destruct (for_range_inv (fun i M' => pm_tabs M' = pm_tabs M /\
      (forall q, ~ In q (firstn (Z.to_nat i) ptrs) -> nth_error (pm_blks M') q = nth_error (pm_blks M) q) /\
      held (pm_blks M') = held (pm_blks M) - i) 0 (po_num o) b s) as (M' & E & T' & F' & H') end.
  - pose proof (zlen_nonneg ptrs). lia.
  - repeat split; auto. lia.
  - intros i M' Hi (T1 & F1 & H1). destruct (znth_in_range ptrs i ltac:(lia)) as [q Eq].
    destruct (forall2_znth _ _ _ F i q Eq) as (d & _ & Ed).
    assert (Eq' : nth_error ptrs (Z.to_nat i) = Some q). { unfold znth in Eq. destruct (i <? 0); [discriminate|exact Eq]. }
    assert (P : ph_ptr M' o i = Ok q).
    { unfold ph_ptr. rewrite T1, (hread_live _ _ _ _ T). unfold bget. now rewrite znth_map, Eq. }
    rewrite P. cbn [bind]. unfold hfree. rewrite F1 by now apply nodup_firstn. rewrite Ed. cbn [bind].
    eexists. split; [reflexivity|]. cbn [pm_tabs pm_blks]. split; auto.
    replace (Z.to_nat (i + 1)) with (S (Z.to_nat i)) by lia. rewrite (firstn_more _ _ _ Eq'). split.
    + intros r Hr. rewrite upd_other.
      * apply F1. intros I. apply Hr. apply in_app_iff. auto.
      * intros ->. apply Hr. apply in_app_iff. cbn. auto.
    + erewrite held_upd_none; [lia|]. rewrite F1 by now apply nodup_firstn. exact Ed.
  - rewrite E. cbn [bind]. unfold hfree. rewrite T', T. cbn [bind]. eexists. split; [reflexivity|]. cbn [pm_tabs pm_blks].
    replace (Z.to_nat (po_num o)) with (length ptrs) in F' by (unfold zlen in L; lia). rewrite firstn_all in F'. split; [|split; [|split]].
    + intros t d Ht Et. now rewrite upd_other by auto.
    + intros q d Hq Eq. now rewrite F' by auto.
    + now apply held_upd_none with (1 := T).
    + lia.
Qed.

(** ** Observers *)
Lemma at_sim M o ptrs p k i : Rel M o ptrs p -> ps_at p k i <> Undef -> ph_at M o k i = ps_at p k i.
Proof.
  intros (O & Eb & Et & Ei) H. unfold ps_at, ph_at in *. rewrite Ei. destruct (_ <=? _); auto. destruct (znth _ _) as [s|]; auto.
  destruct (_ <=? _); auto. change (ph_flat o s i) with (u32 (pi_block s * po_bs o + pi_offset s + i)). rewrite Eb. fold (ps_flat p s i).
  unfold udiv, umod in *. destruct (ps_bs p =? 0); cbn [bind] in *; auto.
  destruct (cell_get _ _ _) as [v| | |] eqn:C; [eapply cell_sim; eauto| | |].
  - exfalso. unfold cell_get, bget in C. destruct (znth (ps_blocks p) _) as [d|]; cbn in C; [|discriminate]. destruct (znth d _) as [[|]|]; discriminate.
  - easy.
  - exfalso. unfold cell_get, bget in C. destruct (znth (ps_blocks p) _) as [d|]; cbn in C; [|discriminate]. destruct (znth d _) as [[|]|]; discriminate.
Qed.
Lemma load_sim M o ptrs p k out : Rel M o ptrs p ->
  match ps_load p k out with Ok l => ph_load M o k out = Ok l | Throw => znth (ps_info p) k = None -> ph_load M o k out = Throw | _ => True end.
Proof.
  intros (O & Eb & Et & Ei). unfold ps_load, ph_load. rewrite Ei. destruct (znth _ _) as [s|]; [|auto].
  match goal with |- match ?x with _ => _ end => destruct x as [l| | |] eqn:C end; auto; [|discriminate].
  match type of C with for_range _ _ ?b1 _ = _ => match goal with |- for_range _ _ ?b2 _ = _ =>
    destruct (for_range_sim (fun a b : list A => a = b) b1 b2 0 (pi_size s)) with (3 := C) (t := out) as (l' & E & <-) end end; auto.
  intros i a b a' _ -> E. change (ph_flat o s i) with (u32 (pi_block s * po_bs o + pi_offset s + i)). rewrite Eb. fold (ps_flat p s i).
  unfold udiv, umod in *. destruct (ps_bs p =? 0); cbn [bind] in *; [discriminate|].
  destruct (cell_get _ _ _) as [v| | |] eqn:C'; cbn [bind] in E; try discriminate. rewrite (cell_sim _ _ _ _ _ _ _ O C'). cbn [bind]. eauto.
Qed.

(** ** Number of blocks *)
Lemma cell_set_len bl b i v bl' : cell_set bl b i v = Ok bl' -> zlen bl' = zlen bl.
Proof.
  unfold cell_set. destruct (bget bl b); cbn; try discriminate. destruct (bset _ i (Some v)); cbn; try discriminate.
  intros E. now apply bset_Ok in E.
Qed.
Lemma exec_blocks p c p' : ps_exec p c = Ok p' ->
  zlen (ps_blocks p') = match c with
                        | P_push _ => if ps_total p / ps_bs p =? zlen (ps_blocks p) then zlen (ps_blocks p) + 1 else zlen (ps_blocks p)
                        | _ => zlen (ps_blocks p)
                        end.
Proof.
  destruct c as [| |v| |k i v|k l]; cbn [ps_exec].
  - intros E. injection E as <-. reflexivity.
  - unfold ps_start, udiv, umod. destruct (_ =? 0); cbn; [discriminate|]. intros E. injection E as <-. reflexivity.
  - unfold ps_push. intros E.
    assert (S : forall x, (match ps_info p with [] => ps_start p | _ => Ok p end) = Ok x -> ps_bs x = ps_bs p /\ ps_total x = ps_total p /\ ps_blocks x = ps_blocks p).
    { intros x. destruct (ps_info p); [|intros X; injection X as <-; auto].
      unfold ps_start, udiv, umod. destruct (_ =? 0); cbn; [discriminate|]. intros X. injection X as <-. auto. }
    destruct (match ps_info p with [] => ps_start p | _ => Ok p end) as [x| | |] eqn:Ex; cbn [bind] in E; try discriminate.
    destruct (S x eq_refl) as (S1 & S2 & S3). unfold ps_add, udiv, umod in E. rewrite S1, S2, S3 in E.
    destruct (ps_bs p =? 0); cbn [bind] in E; [discriminate|].
    destruct (cell_set _ _ _ _) as [bl'| | |] eqn:C; cbn [bind] in E; try discriminate. injection E as <-. cbn [ps_blocks].
    apply cell_set_len in C. rewrite C. destruct (_ =? _); auto. rewrite zlen_app. reflexivity.
  - intros E. injection E as <-. unfold ps_remove_tail. destruct (ps_info p); reflexivity.
  - unfold ps_at_set, udiv, umod. destruct (_ <=? _); [discriminate|]. destruct (znth _ _); [|discriminate]. destruct (_ <=? _); [discriminate|].
    destruct (_ =? 0); cbn [bind]; [discriminate|]. destruct (cell_set _ _ _ _) as [bl'| | |] eqn:C; cbn [bind]; try discriminate.
    intros E. injection E as <-. now apply cell_set_len in C.
  - unfold ps_write. destruct (znth _ _) as [s|]; [|discriminate]. destruct (negb _); [discriminate|].
    match goal with |- bind ?x _ = _ -> _ => destruct x as [bl'| | |] eqn:C end; cbn [bind]; try discriminate. intros E. injection E as <-. cbn [ps_blocks].
    assert (I : zlen bl' = zlen (ps_blocks p)); auto. revert C.
    destruct (Z.leb_spec 0 (pi_size s)) as [Hs|Hs]; [|rewrite for_range_nil by lia; congruence].
    apply for_range_Ok_inv with (Inv := fun _ bl => zlen bl = zlen (ps_blocks p)); auto.
    intros i bl bl1 _ Hl. unfold udiv, umod. destruct (_ =? 0); cbn [bind]; [discriminate|]. destruct (bget l i); cbn [bind]; try discriminate.
    intros C. apply cell_set_len in C. lia.
Qed.

Lemma total_after (s s' : list (list A)) c : ll_exec s c = Some s' ->
  match c with P_push _ => ll_total s' = ll_total s + 1 | _ => ll_total s' <= ll_total s end.
Proof.
  pose proof (ll_total_nonneg s) as Hn. destruct c as [| |v| |k i v|k l]; cbn [ll_exec]; intros E.
  - injection E as <-. exact Hn.
  - injection E as <-. rewrite ll_total_app, ll_total_1. change (zlen (@nil A)) with 0. lia.
  - injection E as <-. destruct (list_snoc s) as [->|(s0 & l & ->)]; [reflexivity|].
    rewrite match_snoc, removelast_last, last_snoc, !ll_total_app, !ll_total_1, zlen_app. change (zlen [v]) with 1. lia.
  - injection E as <-. destruct (list_snoc s) as [->|(s0 & l & ->)]; [reflexivity|].
    rewrite removelast_last, ll_total_app, ll_total_1. pose proof (zlen_nonneg l). lia.
  - destruct (znth s k) as [l|] eqn:Ek; [|discriminate]. destruct (i <? zlen l); [|discriminate]. injection E as <-.
    apply znth_split in Ek as (s1 & s2 & -> & Hk). rewrite (upd_split_z _ _ _ _ _ Hk), !ll_total_app, !ll_total_cons. unfold zlen. rewrite upd_length. lia.
  - destruct (znth s k) as [l0|] eqn:Ek; [|discriminate]. destruct (Z.eqb_spec (zlen l) (zlen l0)); [|discriminate]. injection E as <-.
    apply znth_split in Ek as (s1 & s2 & -> & Hk). rewrite (upd_split_z _ _ _ _ _ Hk), !ll_total_app, !ll_total_cons. lia.
Qed.

Lemma needs_push t peak bs n : 1 <= bs -> 0 <= t <= peak -> n = Z.max 1 ((peak + bs - 1) / bs) ->
  (if t / bs =? n then n + 1 else n) = Z.max 1 ((Z.max peak (t + 1) + bs - 1) / bs).
Proof.
  intros Hb Ht En. pose proof (Z.div_mod (peak + bs - 1) bs ltac:(lia)) as D1. pose proof (Z.mod_pos_bound (peak + bs - 1) bs ltac:(lia)) as M1.
  pose proof (Z.div_mod t bs ltac:(lia)) as D2. pose proof (Z.mod_pos_bound t bs ltac:(lia)) as M2.
  set (c := (peak + bs - 1) / bs) in *. set (d := t / bs) in *. set (r := t mod bs) in *. set (r1 := (peak + bs - 1) mod bs) in *. clearbody c d r r1.
  assert (Hp : peak <= n * bs) by nia. assert (Hd : d <= n) by nia.
  destruct (Z.eqb_spec d n) as [->|N].
  - assert (t = n * bs) by nia. replace (Z.max peak (t + 1) + bs - 1) with (bs + n * bs) by lia. rewrite Z.div_add by lia. rewrite Z.div_same by lia. lia.
  - assert (H : t < n * bs) by nia. destruct (Z.max_spec peak (t + 1)) as [[H1 ->]|[H1 ->]].
    + assert (Tp : t = peak) by lia. rewrite Tp. assert (Q : (peak + 1 + bs - 1) / bs <= n). { apply Z.lt_succ_r, Z.div_lt_upper_bound; nia. }
      assert (c <= (peak + 1 + bs - 1) / bs). { apply Z.div_le_lower_bound; nia. } lia.
    + rewrite En. f_equal. apply Z.div_unique with r1; lia.
Qed.
End P.

(** ** Programs *)
Section W.
Context {A : Type}.

(** An object, the blocks it points to, and what it shows. *)
Record entity := mkEnt { e_obj : pobj; e_ptrs : list nat; e_lists : lists A }.

Definition good (M : pmem A) (e : entity) : Prop := exists p, Rel M (e_obj e) (e_ptrs e) p /\ Rps p (l_sets (e_lists e)) /\
  zlen (l_sets (e_lists e)) < 4294967296 /\ ps_bs p = l_bs (e_lists e) /\ zlen (e_ptrs e) = needs (e_lists e) /\
  ll_total (l_sets (e_lists e)) <= l_peak (e_lists e).

Definition pinv (W : pworld A) (V : list (option (lists A))) (E : list (option entity)) : Prop :=
  pw_objs W = map (option_map e_obj) E /\ V = map (option_map e_lists) E /\
  (forall i e, nth_error E i = Some (Some e) -> good (pw_mem W) e) /\
  (forall i j e f, nth_error E i = Some (Some e) -> nth_error E j = Some (Some f) -> i <> j ->
     po_tab (e_obj e) <> po_tab (e_obj f) /\ forall q, In q (e_ptrs e) -> ~ In q (e_ptrs f)) /\
  held (pm_tabs (pw_mem W)) = held (pw_objs W) /\ held (pm_blks (pw_mem W)) = all_need V.

Lemma map_upd {B C} (f : B -> C) l i b : map f (upd l i b) = upd (map f l) i (f b).
Proof. revert i. induction l as [|x l IH]; intros [|i]; cbn; auto. now rewrite IH. Qed.
Lemma all_need_app (V V' : list (option (lists A))) : all_need (V ++ V') = all_need V + all_need V'.
Proof. induction V as [|[x|] V IH]; cbn; auto. rewrite IH. lia. Qed.
Lemma all_need_upd (V : list (option (lists A))) i x y : nth_error V i = Some (Some x) -> all_need (upd V i (Some y)) = all_need V + needs y - needs x.
Proof.
  revert i. induction V as [|z V IH]; intros [|i] E; cbn in *; try discriminate.
  - injection E as ->. lia.
  - specialize (IH _ E). destruct z; lia.
Qed.
Lemma all_need_del (V : list (option (lists A))) i x : nth_error V i = Some (Some x) -> all_need (upd V i None) = all_need V - needs x.
Proof.
  revert i. induction V as [|z V IH]; intros [|i] E; cbn in *; try discriminate.
  - injection E as ->. lia.
  - specialize (IH _ E). destruct z; lia.
Qed.

Lemma ent_at W V E i x : pinv W V E -> nth_error V i = Some (Some x) ->
  exists e, nth_error E i = Some (Some e) /\ e_lists e = x /\ nth_error (pw_objs W) i = Some (Some (e_obj e)).
Proof.
  intros (-> & -> & _) H. rewrite nth_error_map in H. destruct (nth_error E i) as [[e|]|] eqn:Ee; cbn in H; try discriminate.
  injection H as <-. exists e. rewrite nth_error_map, Ee. auto.
Qed.

(** Objects other than the one that changed keep their memory. *)
Lemma owns_frame (M M' : pmem A) o ptrs bl t0 ptrs0 : owns M o ptrs bl -> po_tab o <> t0 -> (forall q, In q ptrs -> ~ In q ptrs0) ->
  (forall t d, t <> t0 -> nth_error (pm_tabs M) t = Some (Some d) -> nth_error (pm_tabs M') t = Some (Some d)) ->
  (forall q d, ~ In q ptrs0 -> nth_error (pm_blks M) q = Some (Some d) -> nth_error (pm_blks M') q = Some (Some d)) ->
  owns M' o ptrs bl.
Proof.
  intros (T & L & N & F) Ht Hq H1 H2. split; [now apply H1|]. split; auto. split; auto. eapply forall2_impl; [|exact F].
  intros q d I Eq. apply H2; auto.
Qed.
Lemma good_frame (M M' : pmem A) e t0 ptrs0 : good M e -> po_tab (e_obj e) <> t0 -> (forall q, In q (e_ptrs e) -> ~ In q ptrs0) ->
  (forall t d, t <> t0 -> nth_error (pm_tabs M) t = Some (Some d) -> nth_error (pm_tabs M') t = Some (Some d)) ->
  (forall q d, ~ In q ptrs0 -> nth_error (pm_blks M) q = Some (Some d) -> nth_error (pm_blks M') q = Some (Some d)) -> good M' e.
Proof.
  intros (p & (O & R) & G) H1 H2 H3 H4. exists p. split; auto. split; auto. eapply owns_frame; eauto.
Qed.
Lemma good_bounds (M : pmem A) e : good M e -> (po_tab (e_obj e) < length (pm_tabs M))%nat /\ forall q, In q (e_ptrs e) -> (q < length (pm_blks M))%nat.
Proof.
  intros (p & ((T & _ & _ & F) & _) & _). split; [now apply nth_some_lt in T|]. intros q I. clear - F I.
  induction F as [|x y l k H F IH]; [easy|]. destruct I as [<-|I]; auto. now apply nth_some_lt in H.
Qed.

Definition next_lists (V : list (option (lists A))) c := match lists_step V c with Some V' => V' | None => V end.

Lemma upd_some_inv {B} (l : list (option B)) i x k y : (i < length l)%nat -> nth_error (upd l i x) k = Some (Some y) ->
  (k = i /\ x = Some y) \/ (k <> i /\ nth_error l k = Some (Some y)).
Proof.
  intros L E. rewrite upd_nth in E. destruct (Nat.eqb_spec i k) as [->|N]; [|auto].
  replace (k <? length l)%nat with true in E by (symmetry; now apply Nat.ltb_lt). injection E as ->. auto.
Qed.

Lemma pstep_ok W V E c : pinv W V E -> pallowed V c ->
  (lists_step V c = None /\ pstep W c = Throw) \/
  (exists V' W' E', lists_step V c = Some V' /\ pstep W c = Ok W' /\ pinv W' V' E').
Proof.
  intros I Al. destruct c as [bs|i c|i|i j|i]; cbn [pallowed lists_step pstep] in *; try easy.
  - (* new *) right. destruct (new_sim (pw_mem W) bs) as (M' & o & q & E1 & R & F1 & F2 & P1 & P2 & C1 & C2). rewrite E1. cbn [bind].
    destruct I as (I1 & I2 & I3 & I4 & I5 & I6).
    set (e := mkEnt o [q] (mkLists [] bs 0)).
    exists (V ++ [Some (mkLists [] bs 0)]), (mkPworld M' (pw_objs W ++ [Some o])), (E ++ [Some e]). split; auto. split; auto.
    assert (Ge : good M' e).
    { exists (ps_new bs). split; [exact R|]. split; [apply Rps_new; lia|]. cbn. unfold needs. cbn.
      change (ll_total (@nil (list A))) with 0. repeat split; try lia.
      change (zlen [q]) with 1. rewrite Z.div_small by lia. reflexivity. }
    assert (In' : forall k f, nth_error (E ++ [Some e]) k = Some (Some f) -> (nth_error E k = Some (Some f) /\ (k < length E)%nat) \/ (k = length E /\ f = e)).
    { intros k f Ek. destruct (Nat.lt_ge_cases k (length E)) as [L|L]; [rewrite nth_error_app1 in Ek by auto; auto|].
      rewrite nth_error_app2 in Ek by auto. destruct (k - length E)%nat eqn:D; cbn in Ek; [|destruct n; discriminate]. injection Ek as <-. right. split; auto. lia. }
    split; [|split; [|split; [|split; [|split]]]]; cbn [pw_objs pw_mem].
    + rewrite map_app, <- I1. reflexivity.
    + rewrite map_app, <- I2. reflexivity.
    + intros k f Ek. apply In' in Ek as [[Ek _]|[_ ->]]; auto. apply (good_frame (pw_mem W) M' f (length (pm_tabs (pw_mem W))) [q]); auto; try (intros; auto; fail).
      * eauto.
      * destruct (good_bounds _ _ (I3 k f Ek)); lia.
      * intros r Hr [<-|[]]. apply (proj2 (good_bounds _ _ (I3 k f Ek))) in Hr. lia.
    + intros k l f g Ek El N. apply In' in Ek as [[Ek Lk]|[-> ->]]; apply In' in El as [[El Ll]|[-> ->]]; [eauto| | |easy].
      * destruct (good_bounds _ _ (I3 k f Ek)) as [B1 B2]. cbn. split; [lia|]. intros r Hr [<-|[]]. apply B2 in Hr. lia.
      * destruct (good_bounds _ _ (I3 l g El)) as [B1 B2]. cbn. split; [lia|]. intros r [<-|[]] Hr. apply B2 in Hr. lia.
    + rewrite held_app, held_one. lia.
    + rewrite all_need_app. cbn. unfold needs. cbn. rewrite Z.div_small by lia. lia.
  - (* call *) destruct Al as (x & Ex & Ho & Hfit). rewrite Ex. unfold lists_call.
    destruct (ent_at W V E i x I Ex) as (e & Ee & El & Eo). unfold pobject. rewrite Eo. cbn [bind].
    pose proof I as (I1 & I2 & I3 & I4 & I5 & I6). destruct (I3 i e Ee) as (p & R & Rp & Hz & Hbs & Hnd & Hpk). rewrite El in *.
    pose proof (ps_exec_ok p (l_sets x) c Rp Ho) as X. pose proof Rp as (B1 & _ & Tt & _).
    pose proof (ll_total_nonneg (l_sets x)) as Tn.
    destruct (ll_exec (l_sets x) c) as [s'|] eqn:Es.
    + right. destruct (Hfit s' eq_refl) as [Hf Hfz]. destruct (X Hf) as (p' & Ep & Rp'). pose proof (total_after _ _ _ Es) as Ta.
      pose proof (exec_sim (pw_mem W) (e_obj e) (e_ptrs e) p c R B1 ltac:(lia)) as Sm. rewrite Ep in Sm.
      destruct Sm as (M' & o' & ptrs' & Eh & R' & (F1 & F2 & F3 & F4 & F5 & F6)). { destruct c; cbn beta iota in Ta |- *; auto. lia. }
      rewrite Eh. cbn [bind].
      set (x' := mkLists s' (l_bs x) (Z.max (l_peak x) (ll_total s'))). set (e' := mkEnt o' ptrs' x').
      eexists _, _, (upd E i (Some e')). split; [reflexivity|]. split; [reflexivity|].
      pose proof (nth_some_lt _ _ _ Ee) as Li.
      assert (Lp : zlen (e_ptrs e) = zlen (ps_blocks p)) by (destruct R as ((_ & _ & _ & F) & _); now apply forall2_len in F).
      assert (Lp' : zlen ptrs' = zlen (ps_blocks p')) by (destruct R' as ((_ & _ & _ & F) & _); now apply forall2_len in F).
      assert (Nd : zlen ptrs' = needs x').
      { rewrite Lp', (exec_blocks _ _ _ Ep). destruct c; cbn beta iota in Ta |- *;
          try (rewrite <- Lp, Hnd; unfold needs, x'; cbn [l_peak l_bs]; rewrite (Z.max_l (l_peak x)) by lia; reflexivity).
        unfold needs, x'. cbn [l_peak l_bs]. rewrite Ta. rewrite <- Hbs, Tt. apply needs_push; auto; try lia. rewrite <- Lp, Hnd. unfold needs. now rewrite Hbs. }
      assert (Bs' : ps_bs p' = l_bs x).
      { destruct R' as (_ & Q1 & _). destruct R as (_ & Q2 & _). rewrite <- Q1, <- Hbs, <- Q2. clear - Eh.
        destruct c as [| |v| |k j v|k l]; cbn [ph_exec] in Eh.
        - injection Eh as _ <-. reflexivity.
        - unfold ph_start in Eh. destruct (udiv _ _); cbn in Eh; try discriminate. destruct (umod _ _); cbn in Eh; try discriminate. injection Eh as _ <-. reflexivity.
        - unfold ph_push in Eh.
          assert (S : forall y, (match po_info (e_obj e) with [] => ph_start (e_obj e) | _ => Ok (e_obj e) end) = Ok y -> po_bs y = po_bs (e_obj e)).
          { intros y. destruct (po_info (e_obj e)); [|intros Y; injection Y as <-; auto].
            unfold ph_start. destruct (udiv _ _); cbn; try discriminate. destruct (umod _ _); cbn; try discriminate. intros Y. injection Y as <-. reflexivity. }
          destruct (match po_info (e_obj e) with [] => ph_start (e_obj e) | _ => Ok (e_obj e) end) as [y| | |]; cbn [bind] in Eh; try discriminate.
          rewrite <- (S y eq_refl). clear S. unfold ph_add in Eh. destruct (udiv _ _) as [b| | |]; cbn [bind] in Eh; try discriminate.
          assert (S : forall N z, (if b =? po_num y then ph_more (pw_mem W) y b else Ok (pw_mem W, y)) = Ok (N, z) -> po_bs z = po_bs y).
          { intros N z. destruct (_ =? _); [|intros Y; injection Y as _ <-; auto]. unfold ph_more, halloc.
            destruct (for_range _ _ _ _); cbn [bind]; try discriminate. destruct (hwrite _ _ _ _); cbn [bind]; try discriminate.
            destruct (hfree _ _); cbn [bind]; try discriminate. intros Y. injection Y as _ <-. reflexivity. }
          destruct (if _ =? _ then _ else _) as [[N z]| | |]; cbn [bind] in Eh; try discriminate. rewrite <- (S N z eq_refl).
          destruct (umod _ _); cbn [bind] in Eh; try discriminate. destruct (ph_put _ _ _ _ _); cbn [bind] in Eh; try discriminate. injection Eh as _ <-. reflexivity.
        - injection Eh as _ <-. unfold ph_remove_tail. destruct (po_info (e_obj e)); reflexivity.
        - unfold ph_at_set in Eh. destruct (_ <=? _); [discriminate|]. destruct (znth _ _); [|discriminate]. destruct (_ <=? _); [discriminate|].
          destruct (udiv _ _); cbn in Eh; try discriminate. destruct (umod _ _); cbn in Eh; try discriminate. destruct (ph_put _ _ _ _ _); cbn in Eh; try discriminate.
          injection Eh as _ <-. reflexivity.
        - unfold ph_write in Eh. destruct (znth _ _); [|discriminate]. destruct (negb _); [discriminate|]. destruct (for_range _ _ _ _); cbn in Eh; try discriminate.
          injection Eh as _ <-. reflexivity. }
      assert (Ge : good M' e').
      { exists p'. split; [exact R'|]. split; [exact Rp'|]. cbn [e' x' e_lists e_ptrs l_sets l_bs l_peak]. repeat split; auto. lia. }
      split; [|split; [|split; [|split; [|split]]]]; cbn [pw_objs pw_mem].
      * rewrite map_upd, <- I1. reflexivity.
      * rewrite map_upd, <- I2. reflexivity.
      * intros k f Ek. apply upd_some_inv in Ek as [[-> Ek]|[N Ek]]; auto; [injection Ek as <-; auto|].
        destruct (I4 k i f e Ek Ee N) as [D1 D2]. apply (good_frame (pw_mem W) M' f (po_tab (e_obj e)) (e_ptrs e)); eauto.
      * assert (Sep : forall k f, k <> i -> nth_error E k = Some (Some f) -> po_tab (e_obj f) <> po_tab o' /\ forall q, In q (e_ptrs f) -> ~ In q ptrs').
        { intros k f N Ek. destruct (I4 k i f e Ek Ee N) as [D1 D2]. destruct (good_bounds _ _ (I3 k f Ek)) as [B2 B3]. split.
          - destruct F3 as [->|F3]; auto. lia.
          - intros q Hq Hq'. apply F4 in Hq' as [Hq'|Hq']; [now apply (D2 q)|]. apply B3 in Hq. lia. }
        intros k l f g Ek El' N. apply upd_some_inv in Ek as [[-> Ek]|[Nk Ek]]; auto; apply upd_some_inv in El' as [[-> El']|[Nl El']]; auto.
        -- injection Ek as <-. destruct (Sep l g Nl El') as [S1 S2]. cbn. split; auto. intros q Hq Hq'. now apply (S2 q).
        -- injection El' as <-. destruct (Sep k f Nk Ek) as [S1 S2]. cbn. auto.
        -- eauto.
      * rewrite F5, I5. symmetry. eapply held_upd_some. exact Eo.
      * rewrite F6, I6, (all_need_upd _ _ _ _ Ex), Nd, Hnd. lia.
    + left. split; auto. pose proof (exec_sim (pw_mem W) (e_obj e) (e_ptrs e) p c R B1 ltac:(lia)) as Sm. rewrite X in Sm. rewrite Sm; auto.
      destruct c; auto. discriminate Es.
  - (* destroy *) right. destruct Al as (x & Ex). destruct (ent_at W V E i x I Ex) as (e & Ee & El & Eo). unfold pobject. rewrite Eo. cbn [bind].
    pose proof I as (I1 & I2 & I3 & I4 & I5 & I6). destruct (I3 i e Ee) as (p & (O & R) & Rp & Hz & Hbs & Hnd & Hpk).
    destruct (destroy_sim _ _ _ _ O) as (M' & E1 & F1 & F2 & C1 & C2). rewrite E1. cbn [bind].
    pose proof (nth_some_lt _ _ _ Ee) as Li.
    eexists _, _, (upd E i None). split; [reflexivity|]. split; [reflexivity|].
    split; [|split; [|split; [|split; [|split]]]]; cbn [pw_objs pw_mem].
    + rewrite map_upd, <- I1. reflexivity.
    + rewrite map_upd, <- I2. reflexivity.
    + intros k f Ek. apply upd_some_inv in Ek as [[-> Ek]|[N Ek]]; auto; [discriminate|].
      destruct (I4 k i f e Ek Ee N) as [D1 D2]. apply (good_frame (pw_mem W) M' f (po_tab (e_obj e)) (e_ptrs e)); eauto.
    + intros k l f g Ek El' N. apply upd_some_inv in Ek as [[-> Ek]|[Nk Ek]]; auto; [discriminate|]. apply upd_some_inv in El' as [[-> El']|[Nl El']]; auto; [discriminate|]. eauto.
    + rewrite C1, I5. erewrite held_upd_none; [reflexivity|exact Eo].
    + rewrite C2, I6, (all_need_del _ _ _ Ex), Hnd, El. lia.
Qed.

Lemma prun_ok cs : forall W V E, pinv W V E -> pdisciplined V cs -> exists W' E', prun W cs = Ok W' /\ pinv W' (lists_run V cs) E'.
Proof.
  induction cs as [|c cs IH]; intros W V E I D; cbn [prun lists_run pdisciplined] in *; [eauto|]. destruct D as [Al D].
  destruct (pstep_ok W V E c I Al) as [(N & T)|(V' & W' & E' & N & T & I')]; rewrite T, N in *; eauto.
Qed.

Lemma packed_programs (cs : list (pcmd A)) : pdisciplined [] cs ->
  exists W, prun pstart cs = Ok W /\
    (forall i x, nth_error (lists_run [] cs) i = Some (Some x) ->
       pcount W i = Ok (zlen (l_sets x)) /\ ptail W i = Ok (zlen (last (l_sets x) [])) /\
       (forall k e, 0 <= k < 4294967296 -> 0 <= e < 4294967296 ->
          pread W i k e = match znth (l_sets x) k with
                          | Some l => match znth l e with Some v => Ok v | None => Throw end
                          | None => Throw
                          end) /\
       (forall k out, 0 <= k < 4294967296 -> pload W i k out = match znth (l_sets x) k with Some l => Ok (out ++ l) | None => Throw end)) /\
    held (pm_tabs (pw_mem W)) = held (lists_run [] cs) /\ held (pm_blks (pw_mem W)) = all_need (lists_run [] cs) /\
    (forall c, pallowed (lists_run [] cs) c -> (pstep W c = Throw <-> lists_step (lists_run [] cs) c = None) /\ pstep W c <> Undef).
Proof.
  intros D. destruct (prun_ok cs pstart [] []) as (W & E & R & I); auto.
  { split; [reflexivity|]. split; [reflexivity|]. split; [intros [|] ? X; discriminate|]. split; [intros [|] ? ? ? X; discriminate|]. split; reflexivity. }
  exists W. split; auto. split; [|split; [|split]].
  - intros i x Ex. destruct (ent_at _ _ _ _ _ I Ex) as (e & Ee & El & Eo). destruct I as (_ & _ & I3 & _). destruct (I3 i e Ee) as (p & Rl & Rp & Hz & _). rewrite El in *.
    unfold pcount, ptail, pread, pload, pobject. rewrite Eo. cbn [bind]. pose proof Rl as (_ & _ & _ & Ei). split; [|split; [|split]].
    + rewrite Ei. fold (ps_count p). now rewrite (ps_count_ok _ _ Rp Hz).
    + rewrite Ei. fold (ps_tail_size p). now rewrite (ps_tail_size_ok _ _ Rp).
    + intros k j Hk Hj. pose proof (ps_at_ok _ _ k j Rp ltac:(lia) ltac:(lia)) as Pa.
      rewrite (at_sim _ _ _ _ _ _ Rl); auto. rewrite Pa. destruct (znth _ k) as [l|]; [|discriminate]. destruct (znth l j); discriminate.
    + intros k out Hk. pose proof (ps_load_ok _ _ k out Rp ltac:(lia)) as Pl. pose proof (load_sim _ _ _ _ k out Rl) as Ls. rewrite Pl in Ls.
      destruct (znth (l_sets x) k) eqn:Ez; auto. apply Ls. destruct Rp as (_ & _ & _ & _ & _ & _ & Io). now apply (infos_None _ _ _ _ Io).
  - destruct I as (I1 & I2 & _ & _ & I5 & _). rewrite I5, I1, I2. clear. unfold held. induction E as [|[e|] E IH]; cbn; auto. rewrite !zlen_cons. now rewrite IH.
  - apply I.
  - intros c Al. destruct (pstep_ok _ _ _ _ I Al) as [(N & T)|(V' & W' & E' & N & T & I')]; rewrite N, T; split; try discriminate; split; auto; discriminate.
Qed.
End W.

(** ** Concrete runs *)
Lemma packed_copy : exists cs : list (pcmd Z),
  cs = [PNew 3; PCall 0 (P_push 5); PCopyCtor 0; PDestroy 1; PDestroy 0] /\ prun pstart cs = Undef.
Proof. eexists. split; [reflexivity|]. vm_compute. reflexivity. Qed.
Lemma packed_assign : exists (cs : list (pcmd Z)) W,
  cs = [PNew 3; PNew 4; PCall 0 (P_push 5); PAssign 1 0; PDestroy 1] /\ prun pstart cs = Ok W /\
  pread W 0 0 0 = Undef /\ pstep W (PDestroy 0) = Undef /\ held (pm_blks (pw_mem W)) = 1.
Proof. eexists _, _. split; [reflexivity|]. split; [vm_compute; reflexivity|]. split; [vm_compute; reflexivity|]. split; vm_compute; reflexivity. Qed.
Lemma packed_no_block : exists cs : list (pcmd Z), cs = [PNew 0; PCall 0 (P_push 5)] /\ prun pstart cs = Undef.
Proof. eexists. split; [reflexivity|]. vm_compute. reflexivity. Qed.
Lemma pdisciplined_next {A} (V V' : list (option (lists A))) c cs : pallowed V c -> next_lists V c = V' -> pdisciplined V' cs -> pdisciplined V (c :: cs).
Proof. intros Al <- D. split; auto. Qed.

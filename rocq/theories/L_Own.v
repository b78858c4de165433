(** Lemmas about ownership of image memory. *)
From Verif Require Import BaseFacts M_Image S_Image L_Image L_Window M_Heap S_Heap L_Heap.

Section Own.
Context {A : Type}.
Variable zero : A.
Implicit Types (H : heap A) (o : himg) (W : world A).

(** Same blocks alive, with the same lengths. *)
Definition alike H H' : Prop := length H' = length H /\
  forall k, match nth_error H k, nth_error H' k with
            | Some (Some d), Some (Some d') => zlen d' = zlen d
            | Some None, Some None => True
            | None, None => True
            | _, _ => False
            end.
Lemma alike_refl H : alike H H.
Proof. split; auto. intros k. destruct (nth_error H k) as [[?|]|]; auto. Qed.
Lemma alike_trans H1 H2 H3 : alike H1 H2 -> alike H2 H3 -> alike H1 H3.
Proof.
  intros [L1 K1] [L2 K2]. split; [congruence|]. intros k. specialize (K1 k). specialize (K2 k).
  destruct (nth_error H1 k) as [[?|]|], (nth_error H2 k) as [[?|]|], (nth_error H3 k) as [[?|]|]; try tauto. congruence.
Qed.
Lemma alike_live H H' k d : alike H H' -> nth_error H k = Some (Some d) ->
  exists d', nth_error H' k = Some (Some d') /\ zlen d' = zlen d.
Proof. intros [_ K] E. specialize (K k). rewrite E in K. destruct (nth_error H' k) as [[d'|]|]; try tauto. eauto. Qed.
Lemma alike_back H H' k d' : alike H H' -> nth_error H' k = Some (Some d') ->
  exists d, nth_error H k = Some (Some d) /\ zlen d = zlen d'.
Proof. intros [_ K] E. specialize (K k). rewrite E in K. destruct (nth_error H k) as [[d|]|]; try tauto. eauto. Qed.

Lemma good_data H o g d : good H o g -> nth_error H (h_block o) = Some (Some d) -> g_data g = d.
Proof. intros (V & _) E. apply view_inv in V as (D & _). congruence. Qed.
Lemma good_with H H' o g d' : good H o g -> nth_error H' (h_block o) = Some (Some d') -> zlen d' = zlen (g_data g) ->
  good H' o (with_data g d').
Proof.
  intros (V & Wg & L) E Ez. pose proof (view_inv _ _ _ V) as (_ & E1 & E2 & E3 & E4 & E5). split; [|split].
  - rewrite (view_Some _ _ _ E). unfold with_data. now rewrite E1, E2, E3, E4, E5.
  - now apply wf_with_data.
  - cbn. congruence.
Qed.
Lemma hwrite_alike H b i v H' : hwrite H b i v = Ok H' -> alike H H'.
Proof.
  unfold hwrite. destruct (nth_error H b) as [[d|]|] eqn:E; try discriminate. intros X. apply bind_Ok in X as (d' & Ed & X).
  injection X as <-. apply bset_Ok in Ed as (_ & L & _). split; [apply upd_length|]. intros k. rewrite upd_nth.
  apply nth_some_lt in E as Lt. destruct (Nat.eqb_spec b k) as [<-|N].
  - rewrite E. replace (Nat.ltb b (length H)) with true by (symmetry; now apply Nat.ltb_lt). auto.
  - destruct (nth_error H k) as [[?|]|]; auto.
Qed.

(** Copying between different blocks. *)
Lemma memcpy_ok H db di sb si n dd ds : db <> sb -> 0 <= n ->
  nth_error H db = Some (Some dd) -> nth_error H sb = Some (Some ds) ->
  (0 < n -> 0 <= di /\ di + n <= zlen dd /\ 0 <= si /\ si + n <= zlen ds) ->
  exists H', h_memcpy H db di sb si n = Ok H' /\ alike H H'.
Proof.
  intros N Hn Ed Es R. unfold h_memcpy. replace (Nat.eqb db sb) with false by (symmetry; now apply Nat.eqb_neq). cbn [andb].
  destruct (for_range_inv (fun _ H' => alike H H') 0 n (fun i H => let* v := hread H sb (si + i) in hwrite H db (di + i) v) H)
    as (H' & E & Al); auto.
  - apply alike_refl.
  - intros i H1 Hi Al. specialize (R ltac:(lia)).
    destruct (alike_live _ _ _ _ Al Ed) as (dd' & E1 & L1). destruct (alike_live _ _ _ _ Al Es) as (ds' & E2 & L2).
    rewrite (hread_live _ _ _ _ E2). destruct (bget_in ds' (si + i)) as (v & Bv & _); [lia|]. rewrite Bv. cbn [bind].
    rewrite (hwrite_live _ _ _ _ _ E1). destruct (bset_exists dd' (di + i) v) as (d2 & B2 & _); [lia|]. rewrite B2. cbn [bind].
    eexists. split; [reflexivity|]. eapply alike_trans; [exact Al|].
    apply (hwrite_alike _ db (di + i) v). rewrite (hwrite_live _ _ _ _ _ E1), B2. reflexivity.
  - eauto.
Qed.

(** What an object shows before and after a change of the heap. *)
Definition dims o : Prop := is32 (h_width o) /\ is32 (h_height o).
Definition sound H o : Prop := (h_block o < length H)%nat /\ (live H (h_block o) -> exists g, good H o g) /\
  (h_sub o = false -> live H (h_block o)).

Definition winv W : Prop :=
  (forall i o, nth_error (w_objs W) i = Some (Some o) -> sound (w_heap W) o) /\
  (forall i j b, owns W i b -> owns W j b -> i = j) /\
  (forall b, live (w_heap W) b -> exists i, owns W i b).

Lemma winv_good W i o : winv W -> nth_error (w_objs W) i = Some (Some o) -> live (w_heap W) (h_block o) ->
  exists g, good (w_heap W) o g.
Proof. intros (S & _) E L. now apply (S i o E). Qed.

(** The heap changes, some blocks stay alive with the same length. *)
Lemma sound_change H H' o : sound H o -> (length H <= length H')%nat ->
  (forall d', nth_error H' (h_block o) = Some (Some d') -> exists d, nth_error H (h_block o) = Some (Some d) /\ zlen d = zlen d') ->
  (h_sub o = false -> live H' (h_block o)) -> sound H' o.
Proof.
  intros (S1 & S2 & S3) L K Ow. split; [lia|]. split; auto. intros (d' & E'). destruct (K d' E') as (d & E & Ez).
  destruct S2 as (g & G); [exists d; auto|]. pose proof (good_data _ _ _ _ G E) as Eg.
  exists (with_data g d'). eapply good_with; eauto. congruence.
Qed.

(** A statement that only changes pixel values. *)
Lemma winv_alike W H' : winv W -> alike (w_heap W) H' -> winv (mkWorld H' (w_objs W)).
Proof.
  intros (S & U & N) Al. split; [|split].
  - intros i o E. cbn in *. specialize (S i o E). eapply sound_change; eauto.
    + destruct Al as [L _]. lia.
    + intros d' E'. eapply alike_back; eauto.
    + intros Hs. destruct S as (_ & _ & S3). destruct (S3 Hs) as (d & Ed). destruct (alike_live _ _ _ _ Al Ed) as (d' & E' & _).
      exists d'. auto.
  - exact U.
  - intros b (d' & E'). cbn in E'. destruct (alike_back _ _ _ _ Al E') as (d & E & _). apply N. exists d; auto.
Qed.

Lemma app_nth {B} (l : list B) x k v : nth_error (l ++ [x]) k = Some v ->
  (nth_error l k = Some v /\ (k < length l)%nat) \/ (k = length l /\ v = x).
Proof.
  intros E. destruct (Nat.ltb_spec k (length l)).
  - left. rewrite nth_error_app1 in E by auto. auto.
  - right. rewrite nth_error_app2 in E by auto. destruct (k - length l)%nat eqn:D; cbn in E.
    + injection E as <-. split; auto. lia.
    + destruct n; discriminate.
Qed.
Lemma nth_app_last {B} (l : list B) x : nth_error (l ++ [x]) (length l) = Some x.
Proof. rewrite nth_error_app2 by lia. now rewrite Nat.sub_diag. Qed.

Lemma step_new W w h : winv W -> is32 w -> is32 h -> w * h < 4294967296 ->
  exists W', step zero W (CNew w h) = Ok W' /\ winv W'.
Proof.
  intros (S & U & N) Hw Hh Hm. cbn. unfold h_new, halloc. eexists. split; [reflexivity|].
  set (d := repeat zero (Z.to_nat (u32 (w * h)))). set (o := mkHimg w h 0 w false (length (w_heap W)) (u32 (w * h))).
  assert (Gn : good (w_heap W ++ [Some d]) o (gray_new zero w h)).
  { split; [|split].
    - unfold view. cbn. rewrite nth_app_last. reflexivity.
    - apply wf_new; unfold is32 in *; lia.
    - cbn. rewrite zlen_repeat. pose proof (u32_range (w * h)). lia. }
  assert (OW : forall i b, owns (mkWorld (w_heap W ++ [Some d]) (w_objs W ++ [Some o])) i b ->
     (owns W i b /\ (b < length (w_heap W))%nat) \/ (i = length (w_objs W) /\ b = length (w_heap W))).
  { intros i b (o' & E & Hs & Hb). cbn in E. apply app_nth in E as [[E _]|[-> E]].
    - left. split; [exists o'; auto|]. destruct (S i o' E) as (L & _). lia.
    - right. injection E as ->. cbn in Hb. auto. }
  split; [|split]; cbn [w_heap w_objs].
  - intros i o' E. apply app_nth in E as [[E _]|[-> E]].
    + specialize (S i o' E). destruct S as (S1 & S2 & S3). eapply sound_change; [split; [exact S1|split; eauto]| | |].
      * rewrite app_length; cbn; lia.
      * intros d' E'. rewrite nth_error_app1 in E' by auto. exists d'. auto.
      * intros Hs. destruct (S3 Hs) as (d0 & E0). exists d0. now rewrite nth_error_app1.
    + injection E as ->. split; [cbn; rewrite app_length; cbn; lia|]. split; eauto. intros _. exists d. cbn.
      apply nth_app_last.
  - intros i j b Oi Oj. apply OW in Oi as [[Oi Bi]|[-> Bi]], Oj as [[Oj Bj]|[-> Bj]]; auto; try lia. eapply U; eauto.
  - intros b (d' & E). apply app_nth in E as [[E _]|[-> E]].
    + destruct (N b) as (i & oi & E1 & E2 & E3); [exists d'; auto|]. exists i, oi. cbn. split; auto.
      rewrite nth_error_app1; auto. now apply nth_some_lt in E1.
    + exists (length (w_objs W)), o. cbn. split; auto. apply nth_app_last.
Qed.

Lemma obj_ok W i o : nth_error (w_objs W) i = Some (Some o) -> obj W i = Ok o.
Proof. unfold obj. now intros ->. Qed.

Lemma sub_good H o g x0 y0 x1 y1 : good H o g -> is32 x0 -> is32 y0 -> is32 x1 -> is32 y1 ->
  x1 <= h_width o -> y1 <= h_height o -> x0 <= x1 -> y0 <= y1 ->
  exists g', good H (mkHimg (u32 (x1 - x0)) (u32 (y1 - y0)) (u32 (h_offset o + y0 * h_stride o + x0)) (h_stride o) true
             (h_block o) (h_len o)) g'.
Proof.
  intros (V & Wg & L) H0 H1 H2 H3 L1 L2 L3 L4. pose proof (view_inv _ _ _ V) as (D & E1 & E2 & E3 & E4 & E5).
  exists (mkGray (u32 (x1 - x0)) (u32 (y1 - y0)) (u32 (g_offset g + y0 * g_stride g + x0)) (g_stride g) true (g_data g)).
  split; [|split]; auto.
  - unfold view. cbn. now rewrite D, E3, E4.
  - apply (gray_subimage_wf g x0 y0 x1 y1); unfold is32 in *; auto; try lia. unfold gray_subimage.
    replace (_ || _ || _ || _) with false by lia. reflexivity.
Qed.

(** The objects gain a sub-image. *)
Lemma step_sub W i x0 y0 x1 y1 : winv W -> exists_obj W i -> is32 x0 -> is32 y0 -> is32 x1 -> is32 y1 ->
  step zero W (CSub i x0 y0 x1 y1) = Throw \/ exists W', step zero W (CSub i x0 y0 x1 y1) = Ok W' /\ winv W'.
Proof.
  intros (S & U & N) (o & E) H0 H1 H2 H3. cbn. rewrite (obj_ok _ _ _ E). cbn [bind]. unfold h_subimage.
  destruct (_ || _ || _ || _) eqn:B; auto. right. cbn [bind]. eexists. split; [reflexivity|].
  set (s := mkHimg _ _ _ _ _ _ _). pose proof (S i o E) as (S1 & S2 & S3).
  assert (OW : forall k b, owns (mkWorld (w_heap W) (w_objs W ++ [Some s])) k b -> owns W k b).
  { intros k b (o' & E' & Hs & Hb). cbn in E'. apply app_nth in E' as [[E' _]|[-> E']]; [exists o'; auto|].
    injection E' as ->. discriminate. }
  split; [|split]; cbn [w_heap w_objs].
  - intros k o' E'. apply app_nth in E' as [[E' _]|[-> E']]; [eauto|]. injection E' as ->. split; [exact S1|].
    split; [|discriminate]. intros Lv. destruct (S2 Lv) as (g & G). apply (sub_good _ _ g); auto; lia.
  - intros k j b Oi Oj. apply (U k j b); auto.
  - intros b Lv. destruct (N b Lv) as (k & ok & E1 & E2 & E3). exists k, ok. cbn. split; auto.
    rewrite nth_error_app1; auto. now apply nth_some_lt in E1.
Qed.

Lemma upd_same_value {B} (l : list B) i a : nth_error l i = Some a -> upd l i a = l.
Proof. revert i. induction l as [|x l IH]; destruct i; cbn; intros E; try discriminate; [congruence|f_equal; auto]. Qed.

(** Object [i] becomes [o'] whose memory is as before or fresh. *)
Lemma reshape_world W i o w h : winv W -> nth_error (w_objs W) i = Some (Some o) -> is32 w -> is32 h -> w * h < 4294967296 ->
  (h_width o = w /\ h_height o = h) \/ h_sub o = false ->
  exists H' o', h_reshape zero (w_heap W) o w h = Ok (H', o') /\ winv (mkWorld H' (upd (w_objs W) i (Some o'))) /\
    h_sub o' = h_sub o /\ h_width o' = w /\ h_height o' = h /\
    (forall b d, b <> h_block o -> nth_error (w_heap W) b = Some (Some d) -> nth_error H' b = Some (Some d) /\ b <> h_block o').
Proof.
  intros HW E Hw Hh Hm Hs. assert (I := HW). destruct I as (S & U & N).
  apply nth_some_lt in E as Li. pose proof (S i o E) as (S1 & S2 & S3).
  destruct (Bool.bool_dec (h_sub o) true) as [Sb|Sb].
  { destruct Hs as [[E1 E2]|]; [|congruence]. exists (w_heap W), o. unfold h_reshape.
    replace (_ && _) with true by lia. split; auto. split; [|auto 6].
    rewrite (upd_same_value _ _ _ E). now destruct W. }
  apply Bool.not_true_is_false in Sb. destruct (S3 Sb) as (d0 & D0). destruct S2 as (g & G); [exists d0; auto|].
  destruct (h_reshape_ok zero (w_heap W) o g w h G Hw Hh Hm) as (H' & o' & g' & E1 & G' & _ & Q1 & Q2 & Q3 & _ & B); auto.
  exists H', o'. split; auto.
  assert (D1 : h_width o' = w /\ h_height o' = h).
  { destruct G' as (V & _). apply view_inv in V as (_ & P1 & P2 & _). lia. }
  assert (KL : forall b d, b <> h_block o -> nth_error (w_heap W) b = Some (Some d) -> nth_error H' b = Some (Some d) /\ b <> h_block o').
  { intros b d Nb Eb. apply nth_some_lt in Eb as Lb. destruct B as [[B1 ->]|[B1 ->]]; rewrite B1; auto.
    split; [|lia]. rewrite nth_error_app1 by (rewrite upd_length; auto). now rewrite upd_other by auto. }
  split; [|destruct D1; auto]. 
  assert (Lv' : live H' (h_block o')).
  { destruct G' as (V & _). apply view_inv in V as (P & _). exists (g_data g'). auto. }
  assert (NB : forall k o2, k <> i -> nth_error (w_objs W) k = Some (Some o2) -> h_sub o2 = false -> h_block o2 <> h_block o).
  { intros k o2 Nk E2 Sb2 Eb. apply Nk. apply (U k i (h_block o)); [exists o2|exists o]; auto. }
  assert (BK : forall b d', (b < length (w_heap W))%nat -> nth_error H' b = Some (Some d') -> nth_error (w_heap W) b = Some (Some d')).
  { intros b d' Lb Eb. destruct B as [[B1 ->]|[B1 ->]]; auto. rewrite nth_error_app1 in Eb by (rewrite upd_length; auto).
    rewrite upd_nth in Eb. destruct (Nat.eqb_spec (h_block o) b); auto. destruct (Nat.ltb _ _); discriminate. }
  assert (LL : (length (w_heap W) <= length H')%nat).
  { destruct B as [[B1 ->]|[B1 ->]]; auto. rewrite app_length, upd_length. lia. }
  split; [|split]; cbn [w_heap w_objs].
  - intros k o2 E2. rewrite upd_nth in E2. destruct (Nat.eqb_spec i k) as [<-|Nk].
    + destruct (Nat.ltb i _); [|discriminate]. injection E2 as <-. split; [destruct Lv' as (? & X); now apply nth_some_lt in X|].
      split; eauto.
    + specialize (S k o2 E2). eapply sound_change; eauto.
      * intros d' Ed'. destruct S as (T1 & _). exists d'. split; auto.
      * intros Sb2. destruct S as (_ & _ & T3). destruct (T3 Sb2) as (d & Ed). exists d. apply KL; auto. eapply NB; eauto.
  - intros k j b (ok & Ek & Sk & Bk) (oj & Ej & Sj & Bj). cbn in Ek, Ej. rewrite upd_nth in Ek, Ej.
    assert (FR : forall k ok, k <> i -> nth_error (w_objs W) k = Some (Some ok) -> h_sub ok = false -> h_block ok <> h_block o').
    { intros k2 ok2 N2 E2 Sb2. pose proof (S k2 ok2 E2) as (_ & _ & T3). destruct (T3 Sb2) as (d & Ed).
      apply (KL _ d); auto. eapply NB; eauto. }
    destruct (Nat.eqb_spec i k) as [<-|Nk], (Nat.eqb_spec i j) as [<-|Nj]; auto.
    + destruct (Nat.ltb i _); [|discriminate]. injection Ek as <-. exfalso. apply (FR j oj); auto. congruence.
    + destruct (Nat.ltb i _); [|discriminate]. injection Ej as <-. exfalso. apply (FR k ok); auto. congruence.
    + apply (U k j b); [exists ok|exists oj]; auto.
  - intros b (d & Ed).
    destruct (Nat.eq_dec b (h_block o')) as [->|Nb].
    { exists i, o'. cbn. rewrite upd_nth, Nat.eqb_refl. replace (Nat.ltb i _) with true by (symmetry; now apply Nat.ltb_lt).
      rewrite Q3. auto. }
    assert (Lb : (b < length (w_heap W))%nat).
    { apply nth_some_lt in Ed. destruct B as [[B1 ->]|[B1 ->]]; auto. rewrite app_length, upd_length in Ed. cbn in Ed. lia. }
    pose proof (BK b d Lb Ed) as Eb. destruct (N b) as (k & ok & K1 & K2 & K3); [exists d; auto|].
    assert (k <> i).
    { intros ->. rewrite E in K1. injection K1 as <-. destruct B as [[B1 ->]|[B1 ->]]; [congruence|].
      rewrite nth_error_app1 in Ed by (rewrite upd_length; auto). rewrite <- K3 in Ed. rewrite upd_nth, Nat.eqb_refl in Ed.
      destruct (Nat.ltb _ _); discriminate. }
    exists k, ok. cbn. rewrite upd_other by auto. auto.
Qed.

Lemma upd_upd {B} (l : list B) i a b : upd (upd l i a) i b = upd l i b.
Proof. revert i. induction l as [|x l IH]; destruct i; cbn; auto. f_equal. apply IH. Qed.

Lemma step_reshape W i w h : winv W -> exists_obj W i -> is32 w -> is32 h -> w * h < 4294967296 ->
  step zero W (CReshape i w h) = Throw \/ exists W', step zero W (CReshape i w h) = Ok W' /\ winv W'.
Proof.
  intros HW (o & E) Hw Hh Hm. cbn. rewrite (obj_ok _ _ _ E). cbn [bind].
  destruct (Z.eq_dec (h_width o) w) as [E1|N1], (Z.eq_dec (h_height o) h) as [E2|N2];
    destruct (h_sub o) eqn:Sb;
    try (left; unfold h_reshape; rewrite Sb; replace (_ && _) with false by lia; reflexivity);
    right; destruct (reshape_world W i o w h HW E Hw Hh Hm) as (H' & o' & Er & Wr & _); auto;
    rewrite Er; cbn [bind]; eexists; split; eauto.
Qed.

Lemma copy_world W i j o s : winv W -> nth_error (w_objs W) i = Some (Some o) -> nth_error (w_objs W) j = Some (Some s) ->
  live (w_heap W) (h_block o) -> live (w_heap W) (h_block s) -> h_block o <> h_block s ->
  h_copy zero (w_heap W) o s = Throw \/
  exists H' o', h_copy zero (w_heap W) o s = Ok (H', o') /\ winv (mkWorld H' (upd (w_objs W) i (Some o'))).
Proof.
  intros HW Eo Es Lo Ls Nb. unfold h_copy.
  destruct (winv_good W j s HW Es Ls) as (gs & Gs). assert (Gs' := Gs). destruct Gs' as (Vs & Ws & Zs).
  pose proof (view_inv _ _ _ Vs) as (Ds & D1 & D2 & D3 & D4 & _). pose proof (wf_small gs Ws) as Sm. unfold small in Sm.
  assert (W0 := Ws). unfold wf in W0. destruct W0 as (W1 & W2 & W3 & W4 & W5 & W6 & W7). clear W6 W7.
  destruct (h_sub o && _) eqn:C; auto. right.
  destruct (reshape_world W i o (h_width s) (h_height s) HW Eo) as (H1 & o1 & E1 & I1 & Q1 & Q2 & Q3 & KL); unfold is32; try lia.
  { destruct (h_sub o); auto. left. cbn in C. lia. }
  rewrite E1. cbn [bind].
  apply nth_some_lt in Eo as Li.
  destruct (KL (h_block s) (g_data gs) (not_eq_sym Nb) Ds) as [Ds1 Nb1].
  assert (L1 : live H1 (h_block o1)).
  { destruct (Bool.bool_dec (h_sub o) true) as [Sb|Sb].
    - rewrite Sb in C. cbn in C. unfold h_reshape in E1. replace (_ && _) with true in E1 by lia. injection E1 as <- <-. auto.
    - apply Bool.not_true_is_false in Sb. destruct I1 as (S1 & _). apply (S1 i o1); [|congruence].
      cbn. rewrite upd_nth, Nat.eqb_refl. replace (Nat.ltb i _) with true; auto. symmetry. now apply Nat.ltb_lt. }
  destruct (winv_good _ i o1 I1) as (g1 & G1); auto.
  { cbn. rewrite upd_nth, Nat.eqb_refl. replace (Nat.ltb i _) with true; auto. symmetry. now apply Nat.ltb_lt. }
  cbn [w_heap] in G1. destruct G1 as (V1 & Wg1 & Z1). pose proof (view_inv _ _ _ V1) as (F0 & F1 & F2 & F3 & F4 & _).
  match goal with |- context [for_range 0 (h_height o1) ?bd H1] =>
    destruct (for_range_inv (fun _ H' => alike H1 H') 0 (h_height o1) bd H1) as (H2 & E2 & Al) end.
  - lia.
  - apply alike_refl.
  - intros y H2 Hy Al. destruct (alike_live _ _ _ _ Al F0) as (d1 & P1 & P2). destruct (alike_live _ _ _ _ Al Ds1) as (d2 & P3 & P4).
    destruct (memcpy_ok H2 (h_block o1) (u32 (h_offset o1 + y * h_stride o1)) (h_block s) (u32 (h_offset s + y * h_stride s))
      (h_width s) d1 d2) as (H3 & E3 & Al3); auto; try lia.
    + intros Hn. destruct (wf_row gs y Ws ltac:(lia) ltac:(lia)) as (R1 & R2 & R3).
      destruct (wf_row g1 y Wg1 ltac:(lia) ltac:(lia)) as (T1 & T2 & T3).
      rewrite D3, D4 in *. rewrite F3, F4 in *. rewrite R1, T1. lia.
    + exists H3. split; auto. eapply alike_trans; eauto.
  - rewrite E2. cbn [bind]. exists H2, o1. split; auto. exact (winv_alike _ H2 I1 Al).
Qed.

Lemma step_copy W i j : winv W -> usable W i -> usable W j -> different_memory W i j ->
  step zero W (CCopy i j) = Throw \/ exists W', step zero W (CCopy i j) = Ok W' /\ winv W'.
Proof.
  intros HW (o & Eo & Lo) (s & Es & Ls) Nb. cbn. rewrite (obj_ok _ _ _ Eo), (obj_ok _ _ _ Es). cbn [bind].
  destruct (copy_world W i j o s HW Eo Es Lo Ls (Nb o s Eo Es)) as [-> | (H' & o' & -> & I)]; auto. right. cbn [bind]. eauto.
Qed.

Lemma step_allowed W c : winv W -> allowed W c -> step zero W c = Throw \/ exists W', step zero W c = Ok W' /\ winv W'.
Proof.
  intros HW Al. destruct c; cbn [allowed] in Al.
  - right. apply step_new; tauto.
  - apply step_sub; tauto.
  - apply step_reshape; tauto.
  - apply step_copy; tauto.
  - destruct Al as [[<- (o & E)]|((o & Eo & Lo) & (s & Es & Ls) & Nb & s' & Es' & Ss)].
    + right. exists W. cbn. rewrite (obj_ok _ _ _ E). cbn [bind]. rewrite Nat.eqb_refl. auto.
    + cbn. rewrite (obj_ok _ _ _ Eo), (obj_ok _ _ _ Es). cbn [bind]. rewrite Es in Es'. injection Es' as <-.
      destruct (Nat.eqb_spec i j) as [->|Nij].
      { right. exists W. auto. }
      unfold h_assign. rewrite Ss.
      destruct (copy_world W i j o s HW Eo Es Lo Ls (Nb o s Eo Es)) as [-> | (H' & o' & -> & I)]; auto. right. cbn [bind]. eauto.
  - destruct Al.
  - destruct Al as ((o & E & Lv) & Hx & Hy). cbn. rewrite (obj_ok _ _ _ E). cbn [bind]. unfold h_set.
    destruct (_ || _) eqn:C; auto. right. destruct (winv_good _ _ _ HW E Lv) as (g & V & Wg & _).
    pose proof (view_inv _ _ _ V) as (D & D1 & D2 & D3 & D4 & _). unfold is32 in *.
    assert (Hi : inside g x y) by (split; lia). pose proof (wf_pos g x y Wg Hi) as P. unfold pos in P. rewrite D3, D4 in P.
    assert (HI : h_index o x y = h_offset o + y * h_stride o + x) by (apply u32_id; unfold wf in Wg; lia).
    rewrite HI. rewrite (hwrite_live _ _ _ _ _ D). destruct (bset_exists (g_data g) (h_offset o + y * h_stride o + x) v) as (d' & Ed & _); [lia|].
    rewrite Ed. cbn [bind]. eexists. split; [reflexivity|]. apply winv_alike; auto.
    eapply hwrite_alike. rewrite (hwrite_live _ _ _ _ _ D), Ed. reflexivity.
  - destruct Al as ((o & E & Lv) & Hx & Hy). cbn. rewrite (obj_ok _ _ _ E). cbn [bind]. unfold h_get.
    destruct (_ || _) eqn:C; auto. right. destruct (winv_good _ _ _ HW E Lv) as (g & V & Wg & _).
    pose proof (view_inv _ _ _ V) as (D & D1 & D2 & D3 & D4 & _). unfold is32 in *.
    assert (Hi : inside g x y) by (split; lia). pose proof (wf_pos g x y Wg Hi) as P. unfold pos in P. rewrite D3, D4 in P.
    assert (HI : h_index o x y = h_offset o + y * h_stride o + x) by (apply u32_id; unfold wf in Wg; lia).
    rewrite HI. rewrite (hread_live _ _ _ _ D). destruct (bget_in (g_data g) (h_offset o + y * h_stride o + x)) as (v & Ev & _); [lia|].
    rewrite Ev. cbn [bind]. eauto.
  - destruct Al as (o & E). cbn. rewrite (obj_ok _ _ _ E). cbn [bind]. unfold h_destroy. right.
    apply nth_some_lt in E as Li. assert (I := HW). destruct I as (S & U & N). destruct (h_sub o) eqn:Sb.
    + cbn [bind]. eexists. split; [reflexivity|]. 
      assert (OW : forall k b, owns (mkWorld (w_heap W) (upd (w_objs W) i None)) k b -> owns W k b).
      { intros k b (ok & Ek & R). cbn in Ek. rewrite upd_nth in Ek. destruct (Nat.eqb i k); [destruct (Nat.ltb _ _); discriminate|].
        exists ok; auto. }
      split; [|split]; cbn [w_heap w_objs].
      * intros k ok Ek. rewrite upd_nth in Ek. destruct (Nat.eqb i k); [destruct (Nat.ltb _ _); discriminate|]. eauto.
      * intros k j b Ok1 Ok2. apply (U k j b); auto.
      * intros b Lv. destruct (N b Lv) as (k & ok & K1 & K2 & K3). exists k, ok. cbn.
        assert (k <> i) by (intros ->; congruence). rewrite upd_other by auto. auto.
    + destruct (S i o E) as (S1 & S2 & S3). destruct (S3 Sb) as (d0 & D0).
      assert (F : hfree (w_heap W) (h_block o) = Ok (upd (w_heap W) (h_block o) None)).
      { apply hfree_Ok. eauto. }
      rewrite F. cbn [bind]. eexists. split; [reflexivity|].
      split; [|split]; cbn [w_heap w_objs].
      * intros k ok Ek. rewrite upd_nth in Ek. destruct (Nat.eqb_spec i k) as [|Nk]; [destruct (Nat.ltb _ _); discriminate|].
        specialize (S k ok Ek). eapply sound_change; eauto.
        -- rewrite upd_length. lia.
        -- intros d' Ed'. rewrite upd_nth in Ed'. destruct (Nat.eqb _ _); [destruct (Nat.ltb _ _); discriminate|]. eauto.
        -- intros Sk. destruct S as (_ & _ & T3). destruct (T3 Sk) as (d & Ed). exists d. rewrite upd_other; auto.
           intros Eb. apply Nk. apply (U i k (h_block o)); [exists o|exists ok]; auto.
      * intros k j b (ok & Ek & R1) (oj & Ej & R2). cbn in Ek, Ej. rewrite upd_nth in Ek, Ej.
        destruct (Nat.eqb i k); [destruct (Nat.ltb _ _); discriminate|].
        destruct (Nat.eqb i j); [destruct (Nat.ltb _ _); discriminate|]. apply (U k j b); [exists ok|exists oj]; auto.
      * intros b (d & Ed). rewrite upd_nth in Ed. destruct (Nat.eqb_spec (h_block o) b) as [|Nb]; [destruct (Nat.ltb _ _); discriminate|].
        destruct (N b) as (k & ok & K1 & K2 & K3); [exists d; auto|]. exists k, ok. cbn.
        assert (k <> i) by (intros ->; congruence). rewrite upd_other by auto. auto.
Qed.

Lemma run_ok cs : forall W, winv W -> disciplined zero W cs -> exists W', run zero W cs = Ok W' /\ winv W'.
Proof.
  induction cs as [|c r IH]; intros W HW D; cbn.
  - eauto.
  - destruct D as [Al D]. destruct (step_allowed W c HW Al) as [E|(W' & E & I)]; rewrite E in *; auto.
Qed.

Lemma winv_empty : winv (mkWorld (A := A) [] []).
Proof.
  split; [|split].
  - intros i o E. destruct i; discriminate.
  - intros i j b (o & E & _). destruct i; discriminate.
  - intros b (d & E). destruct b; discriminate.
Qed.

Lemma ownership cs : disciplined zero (mkWorld [] []) cs ->
  exists W, run zero (mkWorld [] []) cs = Ok W /\
    (forall i b, owns W i b -> live (w_heap W) b) /\
    (forall i j b, owns W i b -> owns W j b -> i = j) /\
    (forall b, live (w_heap W) b -> exists i, owns W i b).
Proof.
  intros D. destruct (run_ok cs _ winv_empty D) as (W & E & S & U & N). exists W. split; auto. split; auto.
  intros i b (o & Eo & Sb & <-). now apply (S i o Eo).
Qed.
Lemma no_leak cs W : disciplined zero (mkWorld [] []) cs -> run zero (mkWorld [] []) cs = Ok W ->
  (forall i, ~ exists_obj W i) -> forall b, ~ live (w_heap W) b.
Proof.
  intros D E N b L. destruct (ownership cs D) as (W' & E' & _ & _ & K). rewrite E in E'. injection E' as <-.
  destruct (K b L) as (i & o & Eo & _). apply (N i). exists o; auto.
Qed.
Lemma disciplined_next W c W' r : step zero W c = Ok W' -> allowed W c -> disciplined zero W' r -> disciplined zero W (c :: r).
Proof. intros E Al D. split; auto. now rewrite E. Qed.
End Own.

Lemma copy_construction : exists (cs : list (cmd Z)),
  cs = [CNew 2 2; CCopyCtor 0; CDestroy 1; CDestroy 0] /\ run 0 (mkWorld [] []) cs = Undef.
Proof. eexists. split; [reflexivity|]. reflexivity. Qed.
Lemma assign_subimage : exists (cs : list (cmd Z)) W,
  cs = [CNew 2 2; CNew 5 5; CSub 1 0 0 1 1; CAssign 0 2; CDestroy 0; CDestroy 2; CDestroy 1] /\
  run 0 (mkWorld [] []) cs = Ok W /\ (forall i, ~ exists_obj W i) /\ live (w_heap W) 0.
Proof.
  eexists _, _. split; [reflexivity|]. split; [vm_compute; reflexivity|]. split.
  - intros i (o & E). do 3 (destruct i as [|i]; [discriminate|]). destruct i; discriminate.
  - eexists. reflexivity.
Qed.
Lemma dangling : exists (cs cs' : list (cmd Z)),
  cs = [CNew 2 2; CSub 0 0 0 1 1; CDestroy 0; CGet 1 0 0] /\ run 0 (mkWorld [] []) cs = Undef /\
  cs' = [CNew 2 2; CSub 0 0 0 1 1; CReshape 0 3 3; CGet 1 0 0] /\ run 0 (mkWorld [] []) cs' = Undef.
Proof. eexists _, _. split; [reflexivity|]. split; [reflexivity|]. split; reflexivity. Qed.
Lemma self_crop : exists (cs : list (cmd Z)),
  cs = [CNew 3 1; CSub 0 1 0 3 1; CCopy 0 1] /\ run 0 (mkWorld [] []) cs = Undef.
Proof. eexists. split; [reflexivity|]. reflexivity. Qed.

Lemma assign_cases {A} (zero : A) (H : heap A) (o other : himg) :
  (h_sub other = true -> h_assign zero H o other = Ok (H, other)) /\
  (h_sub other = false -> h_assign zero H o other = h_copy zero H o other).
Proof. unfold h_assign. destruct other as [w h off st sub b l]; cbn. destruct sub; split; intros E; congruence || reflexivity. Qed.

Lemma subimage_cases o x0 y0 x1 y1 : is32 x0 -> is32 y0 -> is32 x1 -> is32 y1 ->
  (h_subimage o x0 y0 x1 y1 = Throw <-> h_width o < x1 \/ h_height o < y1 \/ x1 < x0 \/ y1 < y0) /\
  (x0 <= x1 <= h_width o -> y0 <= y1 <= h_height o -> exists s, h_subimage o x0 y0 x1 y1 = Ok s /\ h_sub s = true /\
     h_width s = x1 - x0 /\ h_height s = y1 - y0 /\ forall {A} (H : heap A) x y, 0 <= x < x1 - x0 -> 0 <= y < y1 - y0 ->
       h_get H s x y = h_get H o (x0 + x) (y0 + y)).
Proof.
  intros A0 A1 A2 A3. unfold is32 in *. unfold h_subimage. split.
  - destruct (_ || _ || _ || _) eqn:E; split; auto; intros; try discriminate; lia.
  - intros B0 B1. replace (_ || _ || _ || _) with false by lia. eexists. split; [reflexivity|]. cbn [h_sub h_width h_height].
    rewrite !u32_id by lia. split; [reflexivity|]. split; [reflexivity|]. split; [reflexivity|]. intros A H x y Hx Hy.
    unfold h_get, h_index. cbn [h_width h_height h_offset h_stride h_block].
    replace ((x1 - x0 <=? x) || (y1 - y0 <=? y)) with false by lia.
    replace ((h_width o <=? x0 + x) || (h_height o <=? y0 + y)) with false by lia. f_equal.
    unfold u32. change (2 ^ 32) with 4294967296. rewrite <- Z.add_assoc, Z.add_mod_idemp_l by lia. f_equal. ring.
Qed.

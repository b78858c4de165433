(** The tracer follows the boundary walk. *)
From Verif Require Import Base BaseFacts M_Image S_Image L_Image M_PackedSet S_PackedSet L_PackedSet M_Contour S_Contour
  L_Crack L_Cycle L_Step.
From Coq Require Import Lia.

Lemma in_pt (p : point) l : {In p l} + {~ In p l}.
Proof. apply in_dec. intros [a b] [c d]. destruct (Z.eq_dec a c), (Z.eq_dec b d); [left|right..]; congruence. Defined.

(** [g'] is [g] with the pixels in [S] set to [v]. *)
Definition paint (g : gray Z) (S : list point) (v : Z) (g' : gray Z) : Prop :=
  same_layout g g' /\
  (forall p, In p S -> inside g (fst p) (snd p) /\ znth (g_data g') (pos g (fst p) (snd p)) = Some v) /\
  (forall j, (forall p, In p S -> pos g (fst p) (snd p) <> j) -> znth (g_data g') j = znth (g_data g) j).

Lemma same_layout_refl (g : gray Z) : same_layout g g.
Proof. unfold same_layout; tauto. Qed.
Lemma same_layout_trans (g1 g2 g3 : gray Z) : same_layout g1 g2 -> same_layout g2 g3 -> same_layout g1 g3.
Proof. unfold same_layout; intuition congruence. Qed.
Lemma pos_layout (g g' : gray Z) x y : same_layout g g' -> pos g' x y = pos g x y.
Proof. intros (_ & _ & O & S & _). unfold pos. now rewrite O, S. Qed.
Lemma paint_nil g v : paint g [] v g.
Proof. split; [apply same_layout_refl|]. split; [easy|auto]. Qed.
Lemma paint_app g S1 S2 v g1 g2 : paint g S1 v g1 -> paint g1 S2 v g2 -> paint g (S1 ++ S2) v g2.
Proof.
  intros (L1 & P1 & F1) (L2 & P2 & F2). split; [eapply same_layout_trans; eauto|]. split.
  - intros p Hp. apply in_app_iff in Hp. destruct (in_pt p S2) as [I|I].
    + destruct (P2 p I) as [X Y]. rewrite (inside_layout g g1) in X by auto. rewrite (pos_layout g g1) in Y by auto. auto.
    + destruct Hp as [Hp|]; [|tauto]. destruct (P1 p Hp) as [X Y]. split; auto.
      destruct (in_dec Z.eq_dec (pos g (fst p) (snd p)) (map (fun q => pos g (fst q) (snd q)) S2)) as [J|J].
      * apply in_map_iff in J as (q & E & Iq). destruct (P2 q Iq) as [_ Z]. rewrite (pos_layout g g1) in Z by auto. now rewrite <- E.
      * rewrite F2; auto. intros q Iq E. apply J. apply in_map_iff. exists q. rewrite (pos_layout g g1) in E by auto. auto.
  - intros j Hj. rewrite F2, F1; auto.
    + intros p Hp. apply Hj. apply in_app_iff; auto.
    + intros p Hp. rewrite (pos_layout g g1) by auto. apply Hj. apply in_app_iff; auto.
Qed.
Lemma paint_one g x y v : wf g -> inside g x y -> exists d, bset (g_data g) (pos g x y) v = Ok d /\ paint g [(x, y)] v (with_data g d).
Proof.
  intros W I. destruct (bset_exists (g_data g) (pos g x y) v (wf_pos _ _ _ W I)) as (d & E & L & F). exists d. split; auto.
  split; [now apply with_data_layout|]. split.
  - intros p [<-|[]]. split; auto. cbn. now rewrite F, Z.eqb_refl.
  - intros j Hj. cbn. rewrite F. specialize (Hj (x, y) (or_introl eq_refl)). cbn in Hj. now replace (j =? pos g x y) with false by lia.
Qed.
Lemma paint_pixel g S v g' x y : wf g -> paint g S v g' -> inside g x y ->
  pixel g' x y = if in_pt (x, y) S then Some v else pixel g x y.
Proof.
  intros W (L & P & F) I. rewrite pixel_inside by now apply (inside_layout g g'). rewrite (pos_layout g g') by auto.
  destruct (in_pt (x, y) S) as [Hi|Hi].
  - now destruct (P _ Hi).
  - rewrite F; [now rewrite pixel_inside|]. intros [a b] Hp E. destruct (P _ Hp) as [Ip _]. cbn in *.
    apply pos_inj in E as [-> ->]; auto.
Qed.
Lemma paint_inside g S v g' p : paint g S v g' -> In p S -> inside g (fst p) (snd p).
Proof. intros (_ & P & _) H. now apply P. Qed.

Definition sh (p : point) : point := (fst p - 1, snd p - 1).

Section Trace.
Variable r : crule.
Variable B : Z -> Z -> bool.
Notation isB := (isB B). Notation isW := (isW B). Notation next := (next r B). Notation valid := (valid r B).
Notation is_crack := (is_crack B). Notation corner := (corner B). Notation period := (period r B).
Notation orbit := (orbit r B). Notation iter := (iter r B). Notation wpt := (wpt B).
Notation bl := (bl B). Notation leaves := (leaves r B). Notation dirof := (dirof r B). Notation pre := (pre r B).
Notation first_black := (first_black r B). Notation seen := (seen r).
Notation N := (rule_n r).

Variables w h : Z.
Hypothesis HB : forall x y, B x y = true -> 1 <= x <= w /\ 1 <= y <= h.

(** Black exactly where the picture says so. *)
Definition reads (g : gray Z) : Prop :=
  forall x y, 0 <= x < w + 2 -> 0 <= y < h + 2 -> exists v, pixel g x y = Some v /\ (v =? 1) = B x y.
Definition bin_ok (g : gray Z) : Prop := wf g /\ g_width g = w + 2 /\ g_height g = h + 2 /\ reads g.
Definition lab_ok (g : gray Z) : Prop := wf g /\ g_width g = w /\ g_height g = h.

Lemma bin_paint g S g' : bin_ok g -> paint g S 255 g' -> (forall p, In p S -> isW p) -> bin_ok g'.
Proof.
  intros (W & Ew & Eh & R) P HS. pose proof P as (L & _). split; [now apply (wf_layout g g')|]. pose proof L as (E1 & E2 & _).
  rewrite E1, E2. repeat split; auto. intros x y Hx Hy. rewrite (paint_pixel g S 255 g') by (auto; split; lia).
  destruct (in_pt (x, y) S) as [I|I]; [|now apply R]. exists 255. split; auto. apply HS in I. symmetry. exact I.
Qed.
Lemma lab_paint g S v g' : lab_ok g -> paint g S v g' -> lab_ok g'.
Proof.
  intros (W & Ew & Eh) (L & _). split; [now apply (wf_layout g g')|]. pose proof L as (E1 & E2 & _). rewrite E1, E2. auto.
Qed.

Lemma nb_range p d : 1 <= fst p <= w -> 1 <= snd p <= h -> 0 <= fst (nb r p d) < w + 2 /\ 0 <= snd (nb r p d) < h + 2.
Proof.
  destruct p as [x y]; cbn [fst snd]. intros Hx Hy. unfold nb.
  destruct r; repeat match goal with |- context [match ?d with _ => _ end] => destruct d end; cbn [fst snd]; lia.
Qed.

(** The tables of offsets. *)
Definition disp (s : Z) (d : Z) : Z := let (dx, dy) := nb r (0, 0) d in dy * s + dx.
Definition table (l : list Z) (s : Z) : Prop := forall d, 0 <= d < N -> znth l d = Some (disp s d).
Lemma dir_cases (P : Z -> Prop) : (forall i, (i < Z.to_nat N)%nat -> P (Z.of_nat i)) -> forall d, 0 <= d < N -> P d.
Proof. intros H d Hd. specialize (H (Z.to_nat d)). rewrite Z2Nat.id in H by lia. apply H. lia. Qed.
Lemma nb_disp (g : gray Z) p d : 0 <= d < N -> pos g (fst (nb r p d)) (snd (nb r p d)) = pos g (fst p) (snd p) + disp (g_stride g) d.
Proof.
  intros Hd. unfold pos, disp. destruct p as [x y]. cbn [fst snd].
  destruct r; cbn [rule_n] in Hd.
  - assert (d = 0 \/ d = 1 \/ d = 2 \/ d = 3) as C by lia. destruct C as [->|[->|[->| ->]]]; cbn; lia.
  - assert (d = 0 \/ d = 1 \/ d = 2 \/ d = 3 \/ d = 4 \/ d = 5 \/ d = 6 \/ d = 7) as C by lia.
    destruct C as [->|[->|[->|[->|[->|[->|[->| ->]]]]]]]; cbn; lia.
Qed.
Lemma nb_shift p d : sh (nb r p d) = nb r (sh p) d.
Proof.
  destruct p as [x y]. unfold nb, sh.
  destruct r; repeat match goal with |- context [match ?d with _ => _ end] => destruct d end; cbn [fst snd]; f_equal; lia.
Qed.

Lemma first_black_cons p d k : 0 <= d < N -> Z.of_nat k < N -> bl (nb r p d) = false -> 
  (forall i, (i < k)%nat -> bl (nb r p (((d + 1) mod N + Z.of_nat i) mod N)) = false) ->
  forall i, (i < S k)%nat -> bl (nb r p ((d + Z.of_nat i) mod N)) = false.
Proof.
  intros Hd Hk B0 Bi i Hi. destruct i as [|i].
  - rewrite Z.add_0_r, Z.mod_small by lia. auto.
  - specialize (Bi i ltac:(lia)). rewrite Z.add_mod_idemp_l in Bi by lia. rewrite <- Bi. do 3 f_equal. lia.
Qed.
Lemma seen_cons p d k : 0 <= d < N -> seen p d (S k) = nb r p d :: seen p ((d + 1) mod N) k.
Proof.
  intros Hd. unfold L_Step.seen. cbn [seq map]. rewrite Z.add_0_r, Z.mod_small by lia. f_equal.
  rewrite <- seq_shift, map_map. apply map_ext. intros i. rewrite Z.add_mod_idemp_l by lia. do 2 f_equal. lia.
Qed.

Lemma search_ok ob g p : bin_ok g -> table ob (g_stride g) -> 1 <= fst p <= w -> 1 <= snd p <= h ->
  forall n d, 0 <= d < N -> Z.of_nat n <= N ->
  exists k g', search n N ob (pos g (fst p) (snd p)) d g = Ok (Nat.ltb k n, (d + Z.of_nat k) mod N, g') /\ (k <= n)%nat /\
    (forall i, (i < k)%nat -> bl (nb r p ((d + Z.of_nat i) mod N)) = false) /\
    ((k < n)%nat -> bl (nb r p ((d + Z.of_nat k) mod N)) = true) /\
    paint g (seen p d k) 255 g'.
Proof.
  intros Hg Ht Hx Hy n. revert g Hg Ht. induction n as [|n IH]; intros g Hg Ht d Hd Hn.
  - exists O, g. cbn. rewrite Z.add_0_r, Z.mod_small by lia. repeat (split; [auto; lia|]). apply paint_nil.
  - cbn [search]. pose proof (Ht d Hd) as E. apply bget_Ok in E. rewrite E. cbn [bind].
    rewrite <- (nb_disp g p d Hd). pose proof (nb_range p d Hx Hy) as [Qx Qy]. set (q := nb r p d) in *.
    pose proof Hg as (W & Ew & Eh & Rd). destruct (Rd _ _ Qx Qy) as (v & Ev & Bv).
    assert (inside g (fst q) (snd q)) as Iq by (split; lia).
    unfold check_black. rewrite pixel_inside in Ev by auto. apply bget_Ok in Ev. rewrite Ev. cbn [bind].
    destruct (v =? 1) eqn:Ev1; cbn [bind].
    + exists O, g. rewrite Z.add_0_r, Z.mod_small by lia. cbn. repeat (split; [auto; lia|]). apply paint_nil.
    + destruct (paint_one g (fst q) (snd q) 255 W Iq) as (d1 & Ed & Pd). rewrite Ed. cbn [bind]. rewrite <- surjective_pairing in Pd.
      assert (bin_ok (with_data g d1)) as Hg1.
      { apply (bin_paint g [q]); auto. intros u [<-|[]]. now symmetry. }
      destruct (IH (with_data g d1) Hg1 Ht ((d + 1) mod N)) as (k & g' & Es & Hk & K2 & K3 & Pg).
      { apply Z.mod_pos_bound. lia. }
      { lia. }
      change (pos (with_data g d1)) with (pos g) in Es. rewrite Es. exists (S k), g'.
      rewrite Z.add_mod_idemp_l in * by lia.
      replace (d + 1 + Z.of_nat k) with (d + Z.of_nat (S k)) in * by lia. split; [reflexivity|]. split; [lia|]. split.
      { apply first_black_cons; auto; lia. }
      split; [intros; apply K3; lia|]. rewrite seen_cons by auto. exact (paint_app g [q] _ _ _ _ Pd Pg).
Qed.

(** The tracer stands on pixel [p] looking in direction [s]. *)
Record at_pix (t : tracer) (p : point) (s : Z) : Prop := {
  ap_bin : bin_ok (tr_bin t);
  ap_lab : lab_ok (tr_lab t);
  ap_x : tr_x t = fst p; ap_y : tr_y t = snd p; ap_dir : tr_dir t = s;
  ap_ib : tr_ib t = pos (tr_bin t) (fst p) (snd p);
  ap_il : tr_il t = pos (tr_lab t) (fst p - 1) (snd p - 1);
  ap_in : isB p; ap_s : 0 <= s < N }.
Record conf_ok (c : tconf) (bin lab : gray Z) : Prop := {
  cf_rule : tc_rule c = r;
  cf_ob : table (tc_ob c) (g_stride bin);
  cf_ol : table (tc_ol c) (g_stride lab) }.

Lemma black_range p : isB p -> 1 <= fst p <= w /\ 1 <= snd p <= h.
Proof. apply HB. Qed.

Lemma search_black_ok c t p s : at_pix t p s -> conf_ok c (tr_bin t) (tr_lab t) ->
  exists k g', let d := (s + Z.of_nat k) mod N in
    search_black c t = Ok (Z.of_nat k <? N, mkTr g' (tr_lab t) (tr_pts t) (tr_x t) (tr_y t) d (tr_ib t) (tr_il t)) /\
    first_black p s k /\ paint (tr_bin t) (seen p s k) 255 g' /\
    at_pix (mkTr g' (tr_lab t) (tr_pts t) (tr_x t) (tr_y t) d (tr_ib t) (tr_il t)) p d.
Proof.
  intros A C. destruct A as [Ab Al Ax Ay Ad Aib Ail Ain As]. destruct C as [Cr Cob Col].
  pose proof (black_range p Ain) as [Px Py]. unfold search_black. rewrite Cr, Aib, Ad.
  pose proof Ab as (W & Ew & Eh & Rd).
  destruct (bget_in (g_data (tr_bin t)) (pos (tr_bin t) (fst p) (snd p))) as (v & Ev & _).
  { apply wf_pos; auto. split; lia. }
  rewrite Ev. cbn [bind]. pose proof (rule_n_pos r) as Np.
  destruct (search_ok (tc_ob c) (tr_bin t) p Ab Cob Px Py (Z.to_nat N) s As ltac:(lia)) as (k & g' & Es & Hk & K2 & K3 & Pg).
  rewrite Es. cbn [bind]. exists k, g'. cbv zeta. split.
  { do 2 f_equal. f_equal. destruct (Nat.ltb_spec k (Z.to_nat N)), (Z.ltb_spec (Z.of_nat k) N); auto; lia. }
  split; [split; [lia|split; [auto|intros; apply K3; lia]]|]. split; [exact Pg|].
  assert (bin_ok g') as Hg'.
  { apply (bin_paint _ _ _ Ab Pg). intros q Hq. unfold L_Step.seen in Hq. apply in_map_iff in Hq as (i & <- & Hi). apply in_seq in Hi. apply K2. lia. }
  split; cbn; auto; try congruence.
  - rewrite (pos_layout (tr_bin t) g'); [auto|apply Pg].
  - apply Z.mod_pos_bound. lia.
Qed.

Lemma move_turn_ok c t p d : at_pix t p d -> conf_ok c (tr_bin t) (tr_lab t) -> isB (nb r p d) ->
  exists t', (let* t3 := move_to_next c t in turn c t3) = Ok t' /\ at_pix t' (nb r p d) (nextdir r d) /\
    tr_bin t' = tr_bin t /\ tr_lab t' = tr_lab t /\ tr_pts t' = tr_pts t.
Proof.
  intros A C Bq. destruct A as [Ab Al Ax Ay Ad Aib Ail Ain As]. destruct C as [Cr Cob Col].
  pose proof (black_range _ Ain) as [Px Py]. pose proof (black_range _ Bq) as [Qx Qy]. pose proof (rule_n_pos r) as Np.
  unfold move_to_next. rewrite Ad. pose proof (Cob d As) as E. apply bget_Ok in E. rewrite E. clear E.
  pose proof (Col d As) as E. apply bget_Ok in E. rewrite E. clear E. cbn [bind]. rewrite Aib, Ail.
  rewrite <- nb_disp by auto.
  assert (pos (tr_lab t) (fst p - 1) (snd p - 1) + disp (g_stride (tr_lab t)) d = pos (tr_lab t) (fst (nb r p d) - 1) (snd (nb r p d) - 1)) as El.
  { pose proof (nb_disp (tr_lab t) (sh p) d As) as X. rewrite <- nb_shift in X. unfold sh in X. cbn [fst snd] in X. lia. }
  rewrite El. set (q := nb r p d) in *.
  destruct Ab as (W & Ew & Eh & Rd). destruct Al as (Wl & Elw & Elh).
  pose proof (wf_pos (tr_bin t) (fst q) (snd q) W ltac:(split; lia)) as Pb.
  pose proof (wf_pos (tr_lab t) (fst q - 1) (snd q - 1) Wl ltac:(split; lia)) as Pl.
  pose proof W as W'. pose proof Wl as Wl'. destruct_wf W'. destruct_wf Wl'.
  rewrite (u32_id (pos (tr_bin t) _ _)) by lia. rewrite (u32_id (pos (tr_lab t) _ _)) by lia.
  assert (pos (tr_bin t) (fst q) (snd q) - g_offset (tr_bin t) = fst q + snd q * g_stride (tr_bin t)) as Ea by (unfold pos; lia).
  assert (0 <= fst q + snd q * g_stride (tr_bin t)) by nia.
  rewrite Ea, u32_id by lia. unfold umod, udiv. replace (g_stride (tr_bin t) =? 0) with false by lia. cbn [bind].
  rewrite Z.mod_add, Z.div_add, Z.mod_small, Z.div_small by lia. unfold turn. cbn [tr_dir tr_bin tr_lab tr_pts tr_x tr_y tr_ib tr_il].
  assert (bget (next_direction (tc_rule c)) d = Ok (nextdir r d) /\ 0 <= nextdir r d < N) as [-> Hn].
  { rewrite Cr. clear - As. destruct r; cbn [rule_n] in As.
    - assert (d = 0 \/ d = 1 \/ d = 2 \/ d = 3) as C by lia. destruct C as [->|[->|[->| ->]]]; cbn; split; auto; lia.
    - assert (d = 0 \/ d = 1 \/ d = 2 \/ d = 3 \/ d = 4 \/ d = 5 \/ d = 6 \/ d = 7) as C by lia.
      destruct C as [->|[->|[->|[->|[->|[->|[->| ->]]]]]]]; cbn; split; auto; lia. }
  cbn [bind]. eexists. split; [reflexivity|]. cbn. split; [split; cbn; auto|auto].
  - split; auto.
  - split; auto.
Qed.

(** ** Recording a point *)
Lemma firstn_push {A} m (l : list A) a : (length (firstn m l) < m)%nat -> firstn m l = l /\ firstn m (l ++ [a]) = l ++ [a].
Proof. intros H. rewrite firstn_length in H. split; apply firstn_all2; rewrite ?app_length; cbn; lia. Qed.
Lemma firstn_full {A} m (l : list A) a : (m <= length (firstn m l))%nat -> firstn m (l ++ [a]) = firstn m l.
Proof. intros H. rewrite firstn_length in H. rewrite firstn_app. replace (m - length l)%nat with O by lia. apply app_nil_r. Qed.

Hypothesis Hw : w < 2147483647.
Hypothesis Hh : h < 2147483647.

Lemma tr_add_ok c t p s s0 l : at_pix t p s -> 0 <= tc_max c ->
  Rps (tr_pts t) (s0 ++ [firstn (Z.to_nat (tc_max c)) l]) -> ll_total s0 + zlen l + 1 < 4294967296 ->
  exists t', tr_add c t = Ok t' /\ at_pix t' p s /\ tr_bin t' = tr_bin t /\ paint (tr_lab t) [sh p] (tc_label c) (tr_lab t') /\
    Rps (tr_pts t') (s0 ++ [firstn (Z.to_nat (tc_max c)) (l ++ [sh p])]).
Proof.
  intros A Hm R Ht. pose proof A as [Ab Al Ax Ay Ad Aib Ail Ain As]. pose proof (black_range _ Ain) as [Px Py].
  unfold tr_add. rewrite Ail. pose proof Al as (Wl & Elw & Elh).
  destruct (paint_one (tr_lab t) (fst p - 1) (snd p - 1) (tc_label c) Wl ltac:(split; lia)) as (d & Ed & Pd).
  rewrite Ed. cbn [bind]. change (fst p - 1, snd p - 1) with (sh p) in Pd.
  assert (forall q, at_pix (mkTr (tr_bin t) (with_data (tr_lab t) d) q (tr_x t) (tr_y t) (tr_dir t) (tr_ib t)
     (pos (tr_lab t) (fst p - 1) (snd p - 1))) p s) as Hat.
  { intros q. split; cbn; auto. exact (lab_paint _ _ _ _ Al Pd). }
  rewrite (ps_tail_size_ok _ _ R), last_last. unfold zlen at 1.
  destruct (Z.ltb_spec (Z.of_nat (length (firstn (Z.to_nat (tc_max c)) l))) (tc_max c)) as [Lt|Ge].
  - destruct (firstn_push (Z.to_nat (tc_max c)) l (sh p) ltac:(lia)) as [E1 E2]. rewrite E2. rewrite E1 in R.
    rewrite Ax, Ay. rewrite !s32_id by lia. rewrite !arith_result_in by (cbn; lia). cbn [bind].
    destruct (ps_push_ok (tr_pts t) (s0 ++ [l]) (sh p) (s0 ++ [l ++ [sh p]]) R) as (p' & Ep & Rp).
    + cbn. now rewrite match_snoc, removelast_last, last_last.
    + rewrite ll_total_app, ll_total_1, zlen_app. change (zlen [sh p]) with 1. lia.
    + change (fst p - 1, snd p - 1) with (sh p). rewrite Ep. cbn [bind]. eexists. split; [reflexivity|]. rewrite Ax, Ay in Hat.
      split; [apply Hat|]. cbn. auto.
  - rewrite firstn_full by lia. eexists. split; [reflexivity|]. split; [apply Hat|]. cbn. auto.
Qed.

(** ** The loop *)
Lemma orbit_S i c : orbit (S i) c = orbit i c ++ [iter i c].
Proof. unfold L_Crack.orbit. now rewrite seq_S, map_app. Qed.
Lemma orbit_plus i j c : orbit (i + j) c = orbit i c ++ orbit j (iter i c).
Proof.
  unfold L_Crack.orbit. rewrite seq_app, map_app. f_equal. cbn. rewrite <- (Nat.add_0_r i) at 1. generalize 0%nat as k.
  induction j as [|j IH]; intros k; cbn [seq map]; auto. f_equal.
  - rewrite Nat.add_comm. apply iter_add.
  - replace (S (i + k)) with (i + S k)%nat by lia. apply IH.
Qed.
Lemma no_leaves_filter j c : (forall i, (i < j)%nat -> leaves (iter i c) = false) -> filter leaves (orbit j c) = [].
Proof.
  induction j as [|j IH]; intros H; auto. rewrite orbit_S, filter_app, IH by auto. cbn. now rewrite H by auto.
Qed.
Lemma no_leaves_pix j c : (forall i, (i < j)%nat -> leaves (iter i c) = false) -> cpix (iter j c) = cpix c.
Proof.
  induction j as [|j IH]; intros H; auto. rewrite iter_S. specialize (H j ltac:(lia)) as Hj. apply leaves_false in Hj.
  rewrite Hj. auto.
Qed.

Section Walk.
Variables (c0 : crack) (n j0 : nat) (cf : tconf) (bin0 lab0 : gray Z) (s0 : list (list point)).
Hypothesis Hc : is_crack c0 = true.
Hypothesis Pn : period n c0.
Hypothesis Hj1 : forall i, (i < j0)%nat -> leaves (iter i c0) = false.
Hypothesis Hj2 : leaves (iter j0 c0) = true.
Hypothesis Hcf : conf_ok cf bin0 lab0.
Hypothesis Hmax : 0 <= tc_max cf.
Hypothesis Hfit : ll_total s0 + Z.of_nat n + 1 < 4294967296.

Let Vc : valid c0 = true := crack_valid r B c0 Hc.

Definition linked (M : list point) (m : nat) : Prop :=
  is_crack (iter m c0) = true -> In (cout (iter m c0)) M \/
    (is_crack (iter (pred m) c0) = true /\ cout (iter m c0) = cout (iter (pred m) c0)).

Lemma j0_n : (j0 < n)%nat.
Proof.
  destruct Pn as (P & E & _). destruct (Nat.lt_ge_cases j0 n) as [|Ge]; auto. exfalso.
  pose proof (Hj1 (j0 - n)%nat ltac:(lia)) as H1. replace j0 with (j0 - n + n)%nat in Hj2 by lia.
  rewrite iter_add, E in Hj2. congruence.
Qed.
Lemma iter_n i : iter (i + n) c0 = iter i c0.
Proof. destruct Pn as (P & E & _). now rewrite iter_add, E. Qed.

Definition pts_at (i : nat) : list point := map cpix (filter leaves (orbit i c0)).
Lemma pts_end : pts_at (j0 + n) = pts_at n.
Proof.
  unfold pts_at. rewrite (Nat.add_comm j0 n), orbit_plus, filter_app. destruct Pn as (P & E & _). rewrite E.
  now rewrite (no_leaves_filter j0 c0 Hj1), app_nil_r.
Qed.
Lemma pts_len i : (length (pts_at i) <= i)%nat.
Proof.
  unfold pts_at. rewrite map_length. replace i with (length (orbit i c0)) at 2 by (unfold L_Crack.orbit; now rewrite map_length, seq_length).
  induction (orbit i c0) as [|a l IH]; cbn; auto. destruct (leaves a); cbn; lia.
Qed.
Lemma pts_mono i j : (i <= j)%nat -> (length (pts_at i) <= length (pts_at j))%nat.
Proof.
  intros H. replace j with (i + (j - i))%nat by lia. unfold pts_at. rewrite orbit_plus, filter_app, map_app, app_length. lia.
Qed.

Record walk (i : nat) (t : tracer) (M : list point) : Prop := {
  wk_lab : paint lab0 (map sh (pts_at i)) (tc_label cf) (tr_lab t);
  wk_bin : paint bin0 M 255 (tr_bin t);
  wk_pts : Rps (tr_pts t) (s0 ++ [firstn (Z.to_nat (tc_max cf)) (map sh (pts_at i))]);
  wk_sound : forall q, In q M -> conn (adj_bg r) isW (cout c0) q;
  wk_linked : forall m, (0 < m < i)%nat -> linked M m }.

Lemma conf_paint S v g S' v' g' : paint bin0 S v g -> paint lab0 S' v' g' -> conf_ok cf g g'.
Proof.
  intros ((_ & _ & _ & E & _) & _) ((_ & _ & _ & E' & _) & _). destruct Hcf as [C1 C2 C3]. split; [auto|now rewrite E|now rewrite E'].
Qed.
Lemma pre_seen f p s i k : pre f p s (iter i c0) -> first_black p s k ->
  forall q, In q (seen p s k) -> conn (adj_bg r) isW (cout c0) q.
Proof.
  intros Hp Hf q Hq. eapply conn_trans; [|exact (seen_sound r B f p s _ k Hp Hf q Hq)].
  rewrite <- (wpt_crack B c0 Hc). now apply iter_conn_W.
Qed.

Lemma leave_exit i j : (j0 < i)%nat -> (i <= j0 + n)%nat -> (forall k, (k < j)%nat -> leaves (iter k (iter i c0)) = false) ->
  leaves (iter j (iter i c0)) = true -> (i + j <= j0 + n)%nat /\ (iter j (iter i c0) = iter j0 c0 <-> i + j = j0 + n)%nat.
Proof.
  intros H1 H2 N L. assert (i + j <= j0 + n)%nat as Le.
  { destruct (Nat.le_gt_cases (i + j) (j0 + n)) as [|G]; auto. exfalso.
    specialize (N (j0 + n - i)%nat ltac:(lia)). rewrite <- iter_add in N. replace (j0 + n - i + i)%nat with (j0 + n)%nat in N by lia.
    rewrite iter_n in N. congruence. }
  split; auto. rewrite <- iter_add, (Nat.add_comm j i). split.
  - intros E. destruct (Nat.eq_dec (i + j) (j0 + n)) as [|Ne]; auto. exfalso.
    replace (i + j)%nat with (j0 + (i + j - j0))%nat in E by lia. apply (iter_cancel r B) in E; auto.
    destruct Pn as (_ & _ & M). apply (M (i + j - j0)%nat); auto; lia.
  - intros ->. apply iter_n.
Qed.

Lemma loop_ok fuel : forall i t M f p s, at_pix t p s -> pre f p s (iter i c0) -> walk i t M ->
  (f = true -> is_crack (iter (pred i) c0) = true /\ cout (iter i c0) = cout (iter (pred i) c0)) ->
  (j0 < i)%nat -> (i <= j0 + n)%nat -> (j0 + n < fuel + i)%nat ->
  exists t' M', trace_loop fuel cf (fst (cpix c0)) (snd (cpix c0)) (dirof (iter j0 c0)) t = Ok t' /\ 
    walk (j0 + n) t' M' /\ (forall m, (0 < m <= n)%nat -> linked M' m) /\ bin_ok (tr_bin t') /\ lab_ok (tr_lab t').
Proof.
  induction fuel as [|fuel IH]; intros i t M f p s At Pr Wk Hf H1 H2 H3; [lia|]. cbn [trace_loop].
  pose proof Wk as [Wl Wb Wp Ws Wi].
  assert (conf_ok cf (tr_bin t) (tr_lab t)) as Cf by (eapply conf_paint; eauto).
  destruct (search_black_ok cf t p s At Cf) as (k & g' & Es & Fb & Pg & At'). cbv zeta in Es, At'. rewrite Es. cbn [bind].
  assert (Z.of_nat k < N) as Hk.
  { destruct (Z.lt_ge_cases (Z.of_nat k) N) as [|Ge]; auto. exfalso. pose proof Fb as (Kn & _).
    assert (k = Z.to_nat N) as -> by lia. destruct (round_none r B f p s _ Pr Fb) as (Nl & E4 & _).
    assert (forall q, leaves (iter q (iter i c0)) = false) as Nq.
    { intros q. induction q as [q IHq] using lt_wf_ind. destruct (Nat.lt_ge_cases q 4); [now apply Nl|].
      replace q with (q - 4 + 4)%nat by lia. rewrite iter_add, E4. apply IHq. lia. }
    specialize (Nq (j0 + n - i)%nat). rewrite <- iter_add in Nq. replace (j0 + n - i + i)%nat with (j0 + n)%nat in Nq by lia.
    rewrite iter_n in Nq. congruence. }
  pose proof (round_found r B f p s _ k Pr Fb Hk) as (Rl & Rj & Rd & Rn & (f' & Rf & Rf') & R0). cbv zeta in *.
  set (d := (s + Z.of_nat k) mod N) in *. set (j := turns r f k) in *.
  set (t1 := mkTr g' (tr_lab t) (tr_pts t) (tr_x t) (tr_y t) d (tr_ib t) (tr_il t)) in *.
  destruct (leave_exit i j H1 H2 (fun q Hq => proj1 (Rl q Hq)) Rj) as [Le Ex].
  assert (cpix (iter j (iter i c0)) = p) as Ep.
  { rewrite no_leaves_pix by apply Rl. now destruct Pr as (_ & -> & _). }
  assert (cpix (iter j0 c0) = cpix c0) as E0 by now apply no_leaves_pix.
  (* marks *)
  set (M' := M ++ seen p s k).
  assert (paint bin0 M' 255 g') as Pb' by (eapply paint_app; eauto).
  assert (forall q, In q M' -> conn (adj_bg r) isW (cout c0) q) as Ws'.
  { intros q Hq. apply in_app_iff in Hq as [Hq|Hq]; auto. eapply pre_seen; eauto. }
  assert (forall m, (0 < m <= i + j)%nat -> linked M' m) as Wi'.
  { intros m Hm. destruct (Nat.lt_trichotomy m i) as [Lt|[->|Gt]].
    - intros Cr. destruct (Wi m ltac:(lia) Cr) as [|]; [left; apply in_app_iff; auto|auto].
    - intros Cr. destruct f; [right; auto|]. left. apply in_app_iff. right. apply R0; auto.
    - intros Cr. left. apply in_app_iff. right. destruct (Rl (m - i - 1)%nat ltac:(lia)) as [_ I].
      rewrite <- iter_add in I. now replace (S (m - i - 1) + i)%nat with m in I by lia. }
  assert ((tr_x t1 =? fst (cpix c0)) && (tr_y t1 =? snd (cpix c0)) && (tr_dir t1 =? dirof (iter j0 c0)) = (i + j =? j0 + n)%nat) as ->.
  { assert (((i + j =? j0 + n)%nat = true) <-> (tr_x t1 =? fst (cpix c0)) && (tr_y t1 =? snd (cpix c0)) && (tr_dir t1 =? dirof (iter j0 c0)) = true) as Iff.
    { rewrite Nat.eqb_eq, <- Ex, !andb_true_iff, !Z.eqb_eq. destruct At' as [_ _ Ax Ay Ad _ _ _ _]. rewrite Ax, Ay, Ad. split.
      - intros E. rewrite <- E0, <- Rd, <- E, Ep. auto.
      - intros [[X Y] Z]. apply (dirof_inj r B); auto using valid_iter.
        + rewrite Ep, E0. destruct p, (cpix c0); cbn in *; congruence.
        + congruence. }
    destruct (_ && _), (i + j =? j0 + n)%nat; try tauto; try (symmetry; tauto); exfalso; intuition congruence. }
  destruct (Nat.eqb_spec (i + j) (j0 + n)) as [Eq|Ne].
  - exists t1, M'. split; [reflexivity|]. split.
    + split; auto.
      * replace (pts_at (j0 + n)) with (pts_at i); [exact Wl|]. rewrite <- Eq. unfold pts_at.
        rewrite orbit_plus, filter_app, (no_leaves_filter j), app_nil_r by apply Rl. auto.
      * replace (pts_at (j0 + n)) with (pts_at i); [exact Wp|]. rewrite <- Eq. unfold pts_at.
        rewrite orbit_plus, filter_app, (no_leaves_filter j), app_nil_r by apply Rl. auto.
      * intros m Hm. apply Wi'. lia.
    + split; [intros m Hm; apply Wi'; lia|]. split; apply At'.
  - assert (pts_at (S (i + j)) = pts_at i ++ [p]) as Epts.
    { unfold pts_at. rewrite orbit_S, orbit_plus, !filter_app, (no_leaves_filter j), app_nil_r by apply Rl.
      rewrite map_app. f_equal. cbn [filter]. rewrite (Nat.add_comm i j), iter_add, Rj. cbn. now rewrite Ep. }
    destruct (tr_add_ok cf t1 p d s0 (map sh (pts_at i)) At' Hmax) as (t2 & Ea & At2 & Eb2 & Pl2 & Rp2).
    { exact Wp. }
    { unfold zlen. rewrite map_length. pose proof (pts_mono i (j0 + n) ltac:(lia)). rewrite pts_end in H. pose proof (pts_len n). lia. }
    rewrite Ea. cbn [bind].
    assert (paint lab0 (map sh (pts_at i ++ [p])) (tc_label cf) (tr_lab t2)) as Pl3.
    { rewrite map_app. eapply paint_app; [exact Wl|]. exact Pl2. }
    assert (conf_ok cf (tr_bin t2) (tr_lab t2)) as Cf2 by (rewrite Eb2; eapply conf_paint; eauto).
    assert (isB (nb r p d)) as Bd.
    { rewrite Rn. apply (valid_B r). apply valid_next. now apply valid_iter, valid_iter. }
    destruct (move_turn_ok cf t2 p d At2 Cf2 Bd) as (t4 & Em & At4 & Eb4 & El4 & Ep4).
    replace (let* t3 := move_to_next cf t2 in let* t0 := turn cf t3 in trace_loop fuel cf (fst (cpix c0)) (snd (cpix c0)) (dirof (iter j0 c0)) t0)
      with (let* t0 := (let* t3 := move_to_next cf t2 in turn cf t3) in trace_loop fuel cf (fst (cpix c0)) (snd (cpix c0)) (dirof (iter j0 c0)) t0)
      by (destruct (move_to_next cf t2); reflexivity).
    rewrite Em. cbn [bind].
    assert (next (iter j (iter i c0)) = iter (S (i + j)) c0) as En by (rewrite iter_S, Nat.add_comm, iter_add; reflexivity).
    apply (IH (S (i + j)) t4 M' f' (nb r p d) (nextdir r d)); auto.
    + split; [now apply valid_iter|]. rewrite <- En. split; [exact Rn|]. split; [exact Rf|]. intros X. now apply Rf'.
    + split; auto.
      * now rewrite Epts, El4.
      * now rewrite Eb4, Eb2.
      * now rewrite Epts, Ep4, map_app.
      * intros m Hm. apply Wi'. lia.
    + intros X. cbn [pred]. rewrite <- En. rewrite (Nat.add_comm i j), iter_add. destruct (Rf' X) as (X1 & X2 & X3). auto.
    + lia.
    + lia.
    + lia.
Qed.
End Walk.

(** ** A whole trace *)
Lemma linked_all c0 n M : period n c0 -> (forall m, (0 < m <= n)%nat -> linked c0 M m) ->
  (forall a, In a (orbit n c0) -> is_crack a = true -> In (cout a) M) \/
  (forall a, In a (orbit n c0) -> is_crack a = true /\ cout a = cout c0).
Proof.
  intros (P & E & _) Hl.
  destruct (is_crack c0) eqn:C0.
  2:{ left. assert (forall m, (m <= n)%nat -> is_crack (iter m c0) = true -> In (cout (iter m c0)) M) as G.
      { induction m as [|m IH]; intros Hm Cr; [cbn in Cr; congruence|].
        destruct (Hl (S m) ltac:(lia) Cr) as [|[X Y]]; auto. rewrite Y. apply IH; auto. lia. }
      intros a Ha. apply in_orbit in Ha as (i & Hi & ->). apply G. lia. }
  assert (forall m, (m <= n)%nat ->
    (forall i, (i <= m)%nat -> is_crack (iter i c0) = true -> In (cout (iter i c0)) M \/ cout (iter i c0) = cout c0) /\
    ((forall i, (i <= m)%nat -> is_crack (iter i c0) = true /\ cout (iter i c0) = cout c0) \/
     (is_crack (iter m c0) = true -> In (cout (iter m c0)) M))) as G.
  { induction m as [|m IH]; intros Hm.
    - split; [|left]; intros i Hi; assert (i = 0)%nat as -> by lia; cbn; auto.
    - destruct (IH ltac:(lia)) as [A1 A2]. pose proof (Hl (S m) ltac:(lia)) as Ls. unfold linked in Ls. cbn [pred] in Ls.
      assert (is_crack (iter (S m) c0) = true -> In (cout (iter (S m) c0)) M \/ cout (iter (S m) c0) = cout c0) as X.
      { intros Cr. destruct (Ls Cr) as [|[X Y]]; auto. rewrite Y. now apply A1. }
      split.
      + intros i Hi Cr. destruct (Nat.eq_dec i (S m)) as [->|]; auto. apply A1; auto. lia.
      + destruct A2 as [A2|A2].
        * destruct (is_crack (iter (S m) c0)) eqn:Cr; [|right; congruence]. destruct (Ls eq_refl) as [|[Y Z]]; [right; auto|].
          left. intros i Hi. destruct (Nat.eq_dec i (S m)) as [->|]; [|apply A2; lia]. split; auto. rewrite Z. apply A2; lia.
        * right. intros Cr. destruct (Ls Cr) as [|[Y Z]]; auto. rewrite Z. auto. }
  destruct (G n (le_n n)) as [A1 [A2|A2]].
  - right. intros a Ha. apply in_orbit in Ha as (i & Hi & ->). apply A2. lia.
  - left. rewrite E in A2. specialize (A2 C0). intros a Ha Cr. apply in_orbit in Ha as (i & Hi & ->).
    destruct (A1 i ltac:(lia) Cr) as [|Y]; auto. now rewrite Y.
Qed.

(** The points of the contour walked from [c], as a list of pixels. *)
Definition cpoints (n : nat) (c : crack) : list point :=
  match filter leaves (orbit n c) with [] => [cpix c] | l => map cpix l end.
(** Where a trace starts. *)
Definition start (external : bool) (x y : Z) : crack := Ck x y (if external then U else D).

Lemma trace_ok cf bin lab pts s0 x0 y0 ext n fuel : let c0 := start ext x0 y0 in
  bin_ok bin -> lab_ok lab -> conf_ok cf bin lab -> 0 <= tc_max cf -> is_crack c0 = true -> period n c0 ->
  ll_total s0 + Z.of_nat n + 1 < 4294967296 -> (n <= fuel)%nat -> Rps pts (s0 ++ [[]]) ->
  exists t M, trace fuel cf bin lab pts x0 y0 ext = Ok t /\
    paint bin M 255 (tr_bin t) /\ bin_ok (tr_bin t) /\
    paint lab (map sh (cpoints n c0)) (tc_label cf) (tr_lab t) /\ lab_ok (tr_lab t) /\
    Rps (tr_pts t) (s0 ++ [firstn (Z.to_nat (tc_max cf)) (map sh (cpoints n c0))]) /\
    (forall q, In q M -> conn (adj_bg r) isW (cout c0) q) /\
    ((forall a, In a (orbit n c0) -> is_crack a = true -> In (cout a) M) \/
     (forall a, In a (orbit n c0) -> is_crack a = true /\ cout a = cout c0)).
Proof.
  intros c0 Hb Hl Cf Hmax Hc Pn Hfit Hfuel Rp. pose proof (crack_valid r B c0 Hc) as Vc.
  assert (cpix c0 = (x0, y0)) as Epix by reflexivity.
  assert (isB (x0, y0)) as Bp by (rewrite <- Epix; now apply (valid_B r)).
  pose proof (black_range _ Bp) as [Px Py]. cbn [fst snd] in Px, Py.
  unfold trace. pose proof Cf as [Cr _ _]. rewrite Cr.
  assert (gray_index bin x0 y0 = pos bin x0 y0) as -> by (apply wf_index; [apply Hb|]; destruct Hb as (_ & E1 & E2 & _); split; lia).
  assert (gray_index lab (u32 (x0 - 1)) (u32 (y0 - 1)) = pos lab (x0 - 1) (y0 - 1)) as ->.
  { destruct Hl as (Wl & E1 & E2). rewrite !u32_id by lia. apply wf_index; auto. split; lia. }
  set (s := initial_dir r ext).
  assert (0 <= s < N) as Hs by (unfold s; destruct r, ext; cbn; lia).
  assert (pre true (x0, y0) s c0) as Pr.
  { split; auto. split; auto. split; auto. unfold c0, s. destruct r, ext; reflexivity. }
  set (t0 := mkTr bin lab pts x0 y0 s (pos bin x0 y0) (pos lab (x0 - 1) (y0 - 1))).
  assert (at_pix t0 (x0, y0) s) as At0 by (split; cbn; auto).
  destruct (tr_add_ok cf t0 (x0, y0) s s0 [] At0 Hmax) as (t1 & Ea & At1 & Eb1 & Pl1 & Rp1).
  { cbn [tr_pts t0]. destruct (Z.to_nat (tc_max cf)); exact Rp. }
  { change (zlen (@nil (Z * Z))) with 0. pose proof Pn as (? & _). lia. }
  rewrite Ea. cbn [bind app] in *.
  assert (conf_ok cf (tr_bin t1) (tr_lab t1)) as Cf1.
  { destruct Cf as [C1 C2 C3]. destruct Pl1 as ((_ & _ & _ & E & _) & _). cbn in E. split; auto.
    - now rewrite Eb1.
    - now rewrite E. }
  destruct (search_black_ok cf t1 _ s At1 Cf1) as (k & g' & Es & Fb & Pg & At'). cbv zeta in Es, At'. rewrite Es. cbn [bind].
  set (d := (s + Z.of_nat k) mod N) in *.
  set (t2 := mkTr g' (tr_lab t1) (tr_pts t1) (tr_x t1) (tr_y t1) d (tr_ib t1) (tr_il t1)) in *.
  assert (forall q, In q (seen (x0, y0) s k) -> conn (adj_bg r) isW (cout c0) q) as Snd.
  { intros q Hq. rewrite <- (wpt_crack B c0 Hc). eapply (seen_sound r B true); eauto. }
  rewrite Eb1 in Pg. cbn [tr_bin t0 tr_lab] in Pg, Pl1.
  destruct (Z.ltb_spec (Z.of_nat k) N) as [Hk|Hk]; cbn [negb].
  - pose proof (round_found r B true _ s c0 k Pr Fb Hk) as (Rl & Rj & Rd & Rn & (f' & Rf & Rf') & R0). cbv zeta in *. fold d in Rd, Rn, Rf.
    set (j := turns r true k) in *.
    assert (isB (nb r (x0, y0) d)) as Bd.
    { rewrite Rn. apply (valid_B r). apply valid_next. now apply valid_iter. }
    assert (conf_ok cf (tr_bin t2) (tr_lab t2)) as Cf2.
    { destruct Cf1 as [C1 C2 C3]. destruct Pg as ((_ & _ & _ & E & _) & _). cbn. split; auto. rewrite E, Eb1 in *. auto. }
    destruct (move_turn_ok cf t2 _ d At' Cf2 Bd) as (t4 & Em & At4 & Eb4 & El4 & Ep4).
    assert (forall G : tracer -> outcome tracer, (let* t3 := move_to_next cf t2 in let* t := turn cf t3 in G t) =
      (let* t := (let* t3 := move_to_next cf t2 in turn cf t3) in G t)) as -> by (intros G; destruct (move_to_next cf t2); reflexivity).
    rewrite Em. cbn [bind].
    assert (pts_at c0 (S j) = [(x0, y0)]) as Epts.
    { unfold pts_at. rewrite orbit_S, filter_app, (no_leaves_filter j) by apply Rl. cbn [filter app]. rewrite Rj. cbn [map].
      rewrite (no_leaves_pix j) by apply Rl. reflexivity. }
    assert (next (iter j c0) = iter (S j) c0) as En by (now rewrite iter_S).
    destruct (loop_ok c0 n j cf bin lab s0 Hc Pn (fun i Hi => proj1 (Rl i Hi)) Rj Cf Hmax Hfit fuel
       (S j) t4 (seen (x0, y0) s k) f' (nb r (x0, y0) d) (nextdir r d)) as (t' & M' & Et & Wk & Hlk & Hb' & Hl'); auto.
    + split; [now apply valid_iter|]. rewrite <- En. split; [exact Rn|]. split; [exact Rf|]. intros X. now apply Rf'.
    + split; auto.
      * rewrite Epts, El4. exact Pl1.
      * rewrite Eb4. exact Pg.
      * rewrite Epts, Ep4. exact Rp1.
      * intros m Hm X. left. destruct (Rl (pred m) ltac:(lia)) as [_ I]. replace (S (pred m)) with m in I by lia. exact I.
    + intros X. cbn [pred]. rewrite <- En. destruct (Rf' X) as (X1 & X2 & X3). auto.
    + pose proof Pn as (? & _). lia.
    + lia.
    + exists t', M'. rewrite Rd, Epix in Et. cbn [fst snd] in Et. change (tr_dir t2) with d. rewrite Et. split; [reflexivity|].
      destruct Wk as [W1 W2 W3 W4 W5]. rewrite (pts_end c0 n j Pn (fun i Hi => proj1 (Rl i Hi))) in W1, W3.
      assert (cpoints n c0 = pts_at c0 n) as Ec.
      { unfold cpoints, pts_at. destruct (filter leaves (orbit n c0)) eqn:Ef; auto. exfalso.
        assert (In (iter j c0) []) as []. rewrite <- Ef. apply filter_In. split; auto. now apply orbit_iter. }
      rewrite Ec. split; [exact W2|]. split; [exact Hb'|]. split; [exact W1|]. split; [exact Hl'|]. split; [exact W3|].
      split; [exact W4|]. now apply linked_all.
  - pose proof Fb as (Kn & _). assert (k = Z.to_nat N) as Ek by lia. rewrite Ek in *.
    destruct (round_none r B true _ s c0 Pr Fb) as (Nl & E4 & Mk).
    assert (n <= 4)%nat as Hn.
    { destruct Pn as (_ & _ & Mn). destruct (Nat.le_gt_cases n 4) as [|G]; auto. exfalso. apply (Mn 4%nat); auto. lia. }
    exists t2, (seen (x0, y0) s (Z.to_nat N)). split; [reflexivity|]. split; [exact Pg|]. split; [apply At'|].
    assert (cpoints n c0 = [(x0, y0)]) as Ec.
    { unfold cpoints. rewrite no_leaves_filter; auto. intros i Hi. apply Nl. lia. }
    rewrite Ec. split; [exact Pl1|]. split; [apply At'|]. split; [exact Rp1|]. split; [exact Snd|].
    left. intros a Ha _. apply in_orbit in Ha as (i & Hi & ->). apply Mk. lia.
Qed.

(** ** The tables *)
Lemma all_ok_map (l : list Z) : (forall z, In z l -> -2147483648 <= z <= 2147483647) -> all_ok (map (arith_result S32) l) = Ok l.
Proof.
  induction l as [|z l IH]; intros H; auto. cbn [map all_ok]. rewrite arith_result_in by (cbn; apply H; now left). cbn [bind].
  rewrite IH by (intros; apply H; now right). reflexivity.
Qed.
Ltac tbl := unfold znth; cbn [Z.ltb Z.compare]; match goal with |- context [Z.to_nat ?k] =>
  let v := eval vm_compute in (Z.to_nat k) in change (Z.to_nat k) with v end; cbn [nth_error nb]; f_equal; lia.
Lemma set_offsets_ok s : 0 <= s < 2147483647 -> exists l, set_offsets r s = Ok l /\ table l s.
Proof.
  intros Hs. unfold set_offsets. rewrite s32_id by lia. eexists. split.
  - apply all_ok_map. intros z Hz. destruct r; cbn in Hz; intuition lia.
  - unfold table, disp. destruct r; cbn [rule_n]; intros d Hd.
    + assert (d = 0 \/ d = 1 \/ d = 2 \/ d = 3) as C by lia. destruct C as [->|[->|[->| ->]]]; tbl.
    + assert (d = 0 \/ d = 1 \/ d = 2 \/ d = 3 \/ d = 4 \/ d = 5 \/ d = 6 \/ d = 7) as C by lia.
      destruct C as [->|[->|[->|[->|[->|[->|[->| ->]]]]]]]; tbl.
Qed.
End Trace.

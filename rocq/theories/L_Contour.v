(** The results of the labeller in terms of the picture. *)
From Verif Require Import Base BaseFacts M_Image S_Image L_Image M_PackedSet S_PackedSet L_PackedSet
  M_Contour S_Contour S_Stats L_Crack L_Cycle L_Step L_Trace L_Trig L_Label L_Scan L_Hole.
From Coq Require Import Lia Sorted.

(** ** Coordinates *)
Definition up (p : point) : point := (fst p + 1, snd p + 1).
Lemma sh_up p : sh (up p) = p.
Proof. destruct p; unfold sh, up; cbn. f_equal; lia. Qed.
Lemma up_sh p : up (sh p) = p.
Proof. destruct p; unfold sh, up; cbn. f_equal; lia. Qed.
Lemma conn_map (f : point -> point) (a : point -> point -> Prop) (S S' : point -> Prop) p q :
  (forall u v, a u v -> a (f u) (f v)) -> (forall u, S u -> S' (f u)) -> conn a S p q -> conn a S' (f p) (f q).
Proof. intros Ha Hs. induction 1 as [|u v C IH A Sv]; [apply conn_refl; auto|]. eapply conn_step; eauto. Qed.
Lemma adj_up r u v : adj r u v <-> adj r (up u) (up v).
Proof. destruct r; cbn; unfold adj4, adj8, up; cbn; lia. Qed.
Lemma adj_bg_up r u v : adj_bg r u v <-> adj_bg r (up u) (up v).
Proof. destruct r; cbn; unfold adj4, adj8, up; cbn; lia. Qed.
Lemma adj4_up u v : adj4 u v <-> adj4 (up u) (up v).
Proof. unfold adj4, up; cbn; lia. Qed.
Lemma before_up_iff u v : before u v <-> before (up u) (up v).
Proof. unfold before, up; cbn; lia. Qed.
Lemma conn_up (a : point -> point -> Prop) (S S' : point -> Prop) p q :
  (forall u v, a u v <-> a (up u) (up v)) -> (forall u, S u <-> S' (up u)) -> conn a S p q <-> conn a S' (up p) (up q).
Proof.
  intros Ha Hs. split.
  - apply conn_map; intros; [now apply -> Ha|now apply Hs].
  - intros C. rewrite <- (sh_up p), <- (sh_up q). revert C. apply conn_map.
    + intros u v A. apply Ha. now rewrite !up_sh.
    + intros u Su. apply Hs. now rewrite up_sh.
Qed.

Section Pic.
Variable g : gray Z.
Notation B := (pic g). Notation w := (g_width g). Notation h := (g_height g).
Lemma fg_pic p : fg g p <-> isB B (up p).
Proof.
  unfold fg, isB, pic, up; cbn. replace (fst p + 1 - 1) with (fst p) by lia. replace (snd p + 1 - 1) with (snd p) by lia.
  destruct (pixel g (fst p) (snd p)) as [v|]; [|split; discriminate]. rewrite Z.eqb_eq. split; congruence.
Qed.
Lemma bg_pic p : bg g p <-> isW B (up p).
Proof. unfold bg. now rewrite fg_pic, isW_B. Qed.
Lemma blob_pic r p q : blob r g p q <-> conn (adj r) (isB B) (up p) (up q).
Proof. apply conn_up; [apply adj_up|apply fg_pic]. Qed.
Lemma space_pic r p q : space r g p q <-> conn (adj_bg r) (isW B) (up p) (up q).
Proof. apply conn_up; [apply adj_bg_up|apply bg_pic]. Qed.
Lemma escapes_pic r p q : escapes r g p q <-> esc r B w h (up p) (up q).
Proof.
  assert (forall s, inside g (fst s) (snd s) <-> box w h (up s)) as I by (intros s; unfold inside, box, up; cbn; lia).
  assert (forall s, conn (adj_bg r) (fun u => ~ blob r g p u) q s <-> conn (adj_bg r) (fun u => ~ conn (adj r) (isB B) (up p) u) (up q) (up s)) as C.
  { intros s. apply conn_up; [apply adj_bg_up|]. intros u. now rewrite blob_pic. }
  unfold escapes, esc. split.
  - intros (s & X & Y). exists (up s). split; [now apply C|]. now rewrite <- I.
  - intros (s & X & Y). exists (sh s). rewrite C, I, !up_sh. auto.
Qed.
Lemma first_pic r p : first_of (adj r) (fg g) p <-> first_of (adj r) (isB B) (up p).
Proof.
  unfold first_of. rewrite fg_pic. apply and_iff_compat_l. split; intros H q C X.
  - apply (H (sh q)).
    + apply blob_pic. now rewrite up_sh.
    + apply before_up_iff. now rewrite up_sh.
  - apply (H (up q)); [now apply blob_pic|now apply -> before_up_iff].
Qed.
Lemma outer_pic r p u : outer_edge r g p u <->
  conn (adj r) (isB B) (up p) (up u) /\ exists v, isW B v /\ adj_bg r (up u) v /\ esc r B w h (up p) v.
Proof.
  unfold outer_edge. rewrite blob_pic. apply and_iff_compat_l. split.
  - intros (v & V & A & E). exists (up v). rewrite <- bg_pic, <- adj_bg_up, <- escapes_pic. auto.
  - intros (v & V & A & E). exists (sh v). rewrite bg_pic, adj_bg_up, escapes_pic, up_sh. auto.
Qed.
Lemma hole_edge_pic r p q u : hole_edge r g p q u <->
  conn (adj r) (isB B) (up p) (up u) /\ exists v, conn (adj_bg r) (isW B) (up q) v /\ adj_bg r (up u) v.
Proof.
  unfold hole_edge. rewrite blob_pic. apply and_iff_compat_l. split.
  - intros (v & V & A). exists (up v). rewrite <- space_pic, <- adj_bg_up. auto.
  - intros (v & V & A). exists (sh v). rewrite space_pic, adj_bg_up, up_sh. auto.
Qed.
Lemma hole_pic r p q : hole r g p q <->
  isW B (up q) /\ (exists u v, conn (adj r) (isB B) (up p) u /\ conn (adj_bg r) (isW B) (up q) v /\ adj4 u v) /\ ~ esc r B w h (up p) (up q).
Proof.
  unfold hole. rewrite bg_pic, escapes_pic. apply and_iff_compat_l, and_iff_compat_r. split.
  - intros (u & v & U & V & A). exists (up u), (up v). rewrite <- blob_pic, <- space_pic, <- adj4_up. auto.
  - intros (u & v & U & V & A). exists (sh u), (sh v). rewrite blob_pic, space_pic, adj4_up, !up_sh. auto.
Qed.
End Pic.
Lemma walk_sh r l p : closed_walk (adj r) l p -> closed_walk (adj r) (map sh l) (sh p).
Proof.
  assert (forall k, chained (adj r) k -> chained (adj r) (map sh k)) as C.
  { induction k as [|a [|b k] IH]; cbn; auto. intros [A H]. split; [|now apply IH]. rewrite adj_up, !up_sh. exact A. }
  intros (t & -> & H). exists (map sh t). split; auto. destruct H as [->|H]; auto. right. apply C in H. now rewrite map_app in H.
Qed.
Lemma in_map_sh u l : In u (map sh l) <-> In (up u) l.
Proof.
  rewrite in_map_iff. split.
  - intros (x & <- & H). now rewrite up_sh.
  - intros H. exists (up u). split; auto. apply sh_up.
Qed.

(** ** The list of contours *)
Lemma nodup_znth {A} (l : list A) i j a : NoDup l -> znth l i = Some a -> znth l j = Some a -> i = j.
Proof.
  intros N Hi Hj. pose proof (znth_Some_range _ _ _ Hi). pose proof (znth_Some_range _ _ _ Hj). unfold znth in *.
  replace (i <? 0) with false in Hi by lia. replace (j <? 0) with false in Hj by lia.
  assert (Z.to_nat i = Z.to_nat j); [|lia]. rewrite NoDup_nth_error in N. apply N; [|congruence]. unfold zlen in *. lia.
Qed.
Lemma znth_upd {A} (l : list A) i j a : 0 <= i < zlen l -> znth (upd l (Z.to_nat i) a) j = if j =? i then Some a else znth l j.
Proof.
  intros Hi. destruct (bset_exists l i a Hi) as (d & E & _ & F). rewrite <- F. unfold bset in E. replace (_ && _) with true in E by (unfold zlen in *; lia).
  injection E as <-. reflexivity.
Qed.

Section Con.
Variable r : crule.
Variable B : Z -> Z -> bool.
Notation rank := (rank r B). Notation conrel := (conrel r B).
Definition functional (T : list crack) : Prop := forall q k k', rank T q k -> rank T q k' -> k = k'.
Lemma functional_prefix T T' : functional (T ++ T') -> functional T.
Proof. intros F q k k' H H'. apply (F q); now apply rank_app. Qed.
Lemma conrel_D T con : conrel T con -> forall j c, znth T j = Some c -> isU c = false -> exists k, rank T (cpix c) k.
Proof.
  induction 1 as [|T con c H IH E|T con c k co H IH E R Z]; intros j c0 J U; [apply znth_In in J; easy|..].
  - destruct (Z.lt_ge_cases j (zlen T)) as [L|G]; [rewrite znth_app_l in J by auto|rewrite znth_app_r in J by auto].
    + destruct (IH _ _ J U) as (k & K). exists k. now apply rank_app.
    + apply znth_In in J as [<-|[]]. congruence.
  - destruct (Z.lt_ge_cases j (zlen T)) as [L|G]; [rewrite znth_app_l in J by auto|rewrite znth_app_r in J by auto].
    + destruct (IH _ _ J U) as (k' & K). exists k'. now apply rank_app.
    + apply znth_In in J as [<-|[]]. exists k. now apply rank_app.
Qed.
Lemma conrel_spec T con : conrel T con -> functional T -> forall k co, znth con (k - 1) = Some co ->
  co_id co = k /\ (exists c, znth T (co_ext co) = Some c /\ znth (Us T) (k - 1) = Some c) /\ NoDup (co_int co) /\
  (forall j, In j (co_int co) <-> exists c, znth T j = Some c /\ isU c = false /\ rank T (cpix c) k).
Proof.
  induction 1 as [|T con c H IH E|T con c k0 co0 H IH E R Z]; intros F k co K; [apply znth_In in K; easy|..];
    pose proof (functional_prefix _ _ F) as F'; specialize (IH F'); pose proof (conrel_len r B _ _ H) as Len; pose proof (conrel_D _ _ H) as HD.
  - destruct (Z.lt_ge_cases (k - 1) (zlen con)) as [L|G]; [rewrite znth_app_l in K by auto|rewrite znth_app_r in K by auto].
    + destruct (IH k co K) as (I1 & (c1 & I2 & I3) & I4 & I5). split; auto. split; [|split; auto].
      * exists c1. pose proof (znth_Some_range _ _ _ I2). pose proof (znth_Some_range _ _ _ I3).
        rewrite Us_app, !znth_app_l by lia. auto.
      * intros j. rewrite I5. split.
        -- intros (c2 & J & U2 & R2). exists c2. pose proof (znth_Some_range _ _ _ J). rewrite znth_app_l by lia. split; auto. split; auto. now apply rank_app.
        -- intros (c2 & J & U2 & R2). destruct (Z.lt_ge_cases j (zlen T)) as [Lj|Gj]; [rewrite znth_app_l in J by auto|rewrite znth_app_r in J by auto].
           ++ exists c2. split; auto. split; auto. destruct (HD j c2 J U2) as (k2 & K2). assert (k2 = k) as <-; auto.
              apply (F (cpix c2)); auto. now apply rank_app.
           ++ apply znth_In in J as [<-|[]]. congruence.
    + assert (k - 1 - zlen con = 0) as X. { apply znth_Some_range in K. change (zlen [_]) with 1 in K. lia. }
      rewrite X in K. injection K as <-. cbn. split; [lia|]. split; [|split; [constructor|]].
      * exists c. rewrite Us_app, !znth_app_r by lia. replace (zlen T - zlen T) with 0 by lia. replace (k - 1 - zlen (Us T)) with 0 by lia.
        split; auto. change (Us [c]) with (if isU c then [c] else []). now rewrite E.
      * intros j. split; [easy|]. intros (c2 & J & U2 & R2).
        destruct (Z.lt_ge_cases j (zlen T)) as [Lj|Gj]; [rewrite znth_app_l in J by auto|rewrite znth_app_r in J by auto].
        -- destruct (HD j c2 J U2) as (k2 & K2). pose proof (rank_range _ _ _ _ _ K2). assert (k2 = k); [|lia].
           apply (F (cpix c2)); auto. now apply rank_app.
        -- apply znth_In in J as [<-|[]]. congruence.
  - pose proof (znth_Some_range _ _ _ Z) as Rz. rewrite znth_upd in K by auto.
    assert (forall k co, znth con (k - 1) = Some co -> co_id co = k /\ (exists c1, znth (T ++ [c]) (co_ext co) = Some c1 /\ znth (Us (T ++ [c])) (k - 1) = Some c1) /\ NoDup (co_int co) /\
      (forall j, In j (co_int co) <-> exists c1, znth T j = Some c1 /\ isU c1 = false /\ rank (T ++ [c]) (cpix c1) k)) as Old.
    { clear k co K. intros k co K. destruct (IH k co K) as (I1 & (c1 & I2 & I3) & I4 & I5). split; auto. split; [|split; auto].
      * exists c1. pose proof (znth_Some_range _ _ _ I2). pose proof (znth_Some_range _ _ _ I3).
        rewrite Us_app, !znth_app_l by lia. auto.
      * intros j. rewrite I5. split.
        -- intros (c2 & J & U2 & R2). exists c2. split; auto. split; auto. now apply rank_app.
        -- intros (c2 & J & U2 & R2). exists c2. split; auto. split; auto. destruct (HD j c2 J U2) as (k2 & K2). assert (k2 = k) as <-; auto.
           apply (F (cpix c2)); auto. now apply rank_app. }
    assert (rank (T ++ [c]) (cpix c) k0) as Rc by now apply rank_app.
    destruct (Z.eqb_spec (k - 1) (k0 - 1)) as [X|X].
    + assert (k = k0) as -> by lia. injection K as <-. cbn. destruct (Old k0 co0 Z) as (I1 & I2 & I3 & I4). split; auto. split; auto. split.
      * apply NoDup_app_snoc; auto. intros I. apply I4 in I as (c1 & J & _). apply znth_Some_range in J. lia.
      * intros j. rewrite in_app_iff, I4. split.
        -- intros [(c1 & J & U1 & R1)|[<-|[]]].
           ++ exists c1. pose proof (znth_Some_range _ _ _ J). rewrite znth_app_l by lia. auto.
           ++ exists c. rewrite znth_app_r by lia. replace (zlen T - zlen T) with 0 by lia. auto.
        -- intros (c1 & J & U1 & R1). destruct (Z.lt_ge_cases j (zlen T)) as [Lj|Gj]; [rewrite znth_app_l in J by auto; left; eauto|].
           right. left. apply znth_Some_range in J. rewrite zlen_app in J. change (zlen [c]) with 1 in J. lia.
    + destruct (Old k co K) as (I1 & I2 & I3 & I4). split; auto. split; auto. split; auto. intros j. rewrite I4. split.
      * intros (c1 & J & U1 & R1). exists c1. pose proof (znth_Some_range _ _ _ J). rewrite znth_app_l by lia. auto.
      * intros (c1 & J & U1 & R1). destruct (Z.lt_ge_cases j (zlen T)) as [Lj|Gj]; [rewrite znth_app_l in J by auto; eauto|].
        rewrite znth_app_r in J by auto. apply znth_In in J as [<-|[]]. exfalso. apply X. f_equal. apply (F (cpix c)); auto.
Qed.
End Con.

(** ** States of the labeller *)
Record lb_inv (st : labeler) : Prop := {
  li_border : border_ok (lb_border st);
  li_pts : exists s, Rps (lb_pts st) s;
  li_min : 0 <= lb_min st < 4294967296;
  li_max : 0 <= lb_max st < 4294967296 }.

Lemma process_run fuel st g lab : lb_inv st -> label_args fuel g lab ->
  exists lab0 st' lab' T ls, gray_reshape 0 lab (g_width g) (g_height g) = Ok lab0 /\
    process fuel st g lab = Ok (st', lab') /\ run_ok st g lab0 st' lab' T ls.
Proof.
  intros [I1 I2 I3 I4] [A1 A2 A3 A4 A5 A6]. apply process_ok; auto. lia.
Qed.
Lemma run_inv st g lab0 st' lab' T ls : lb_inv st -> run_ok st g lab0 st' lab' T ls -> lb_inv st'.
Proof.
  intros [I1 I2 I3 I4] [(E1 & E2 & E3 & E4) R2 R3 R4 R5 R6 R7 R8 R9 R10 R11 R12]. split; eauto; rewrite ?E2, ?E3; auto.
Qed.
Lemma used_inv st : used st -> lb_inv st.
Proof.
  induction 1 as [r|st r mn mx save H [I1 I2 I3 I4] Hn Hx|fuel st g lab st' lab' H IH A E].
  - split; cbn; try lia.
    + split; auto; [apply wf_new; lia|]. intros x y _ P. apply pixel_Some in P as [P _]. cbn in P. lia.
    + exists []. apply Rps_new. lia.
  - split; cbn; auto.
  - destruct (process_run fuel st g lab IH A) as (lab0 & st1 & lab1 & T & ls & _ & E' & R). rewrite E in E'. injection E' as <- <-.
    eapply run_inv; eauto.
Qed.

Lemma Us_in T c : In c (Us T) <-> In c T /\ isU c = true.
Proof. apply filter_In. Qed.
Lemma sorted_Us T : StronglySorted tlt T -> StronglySorted (fun a b => before (cpix a) (cpix b)) (Us T).
Proof.
  induction 1 as [|c T S IH F]; [constructor|]. cbn [Us filter]. fold (Us T). destruct (isU c) eqn:E; auto. constructor; auto.
  apply Forall_forall. intros b Hb. apply Us_in in Hb as [Hb Ub]. rewrite Forall_forall in F. apply F in Hb as [Hb|(_ & _ & Hb)]; congruence.
Qed.
Lemma sorted_lt {A} (R : A -> A -> Prop) l i j a b : StronglySorted R l -> znth l i = Some a -> znth l j = Some b -> i < j -> R a b.
Proof.
  intros S. revert i j. induction S as [|c l S IH F]; intros i j Hi Hj L; [now apply znth_In in Hi|].
  pose proof (znth_Some_range _ _ _ Hi). rewrite znth_cons_S in Hj by lia.
  destruct (Z.eq_dec i 0) as [->|N].
  - rewrite znth_cons_0 in Hi. injection Hi as <-. rewrite Forall_forall in F. apply F. eapply znth_In; eauto.
  - rewrite znth_cons_S in Hi by lia. apply (IH (i - 1) (j - 1)); auto. lia.
Qed.

Section Run.
Variables (st : labeler) (g lab0 : gray Z) (st' : labeler) (lab' : gray Z) (T : list crack) (ls : list (list point)).
Hypothesis Wg : wf g.
Hypothesis Hsz : 4 * (g_width g + 2) * (g_height g + 2) < 4294967296.
Hypothesis Ro : run_ok st g lab0 st' lab' T ls.
Notation r := (lb_rule st). Notation B := (pic g). Notation w := (g_width g). Notation h := (g_height g).
Notation con := (lb_contours st').
Let HB := pic_dims g.

Lemma run_dims : 0 <= w /\ 0 <= h.
Proof. destruct Wg as (? & ? & _). lia. Qed.
Lemma run_U c k : znth (Us T) k = Some c -> exists x y, c = Ck x y U /\ trig r B c.
Proof.
  intros E. apply znth_In, Us_in in E as [E U]. apply (ro_T _ _ _ _ _ _ _ Ro) in E. destruct c as [x y []]; try discriminate. eauto.
Qed.
Lemma run_functional : functional r B T.
Proof.
  intros q k k' (c & E & C) (c' & E' & C'). destruct (run_U _ _ E) as (x & y & -> & Tc). destruct (run_U _ _ E') as (x' & y' & -> & Tc').
  cbn [cpix] in *. assert ((x, y) = (x', y')) as [= <- <-].
  { eapply (first_unique (adj_sym r)); eauto. eapply conn_trans; eauto. eapply conn_sym; eauto. apply adj_sym. }
  assert (k - 1 = k' - 1); [|lia]. eapply nodup_znth; eauto. apply NoDup_filter. apply sorted_nodup, Ro.
Qed.
Lemma run_len : zlen con = zlen (Us T).
Proof. eapply conrel_len. apply Ro. Qed.

Definition lab_at (p : point) : option Z := pixel lab' (fst p) (snd p).
Lemma lab_fg p : fg g p -> exists k, lab_at p = Some k /\ rank r B T (up p) k.
Proof.
  intros F. apply fg_pic in F. destruct (ro_black _ _ _ _ _ _ _ Ro _ F) as (k & E & R). exists k. split; auto. unfold lab_at.
  unfold up in E; cbn in E. replace (fst p) with (fst p + 1 - 1) by lia. now replace (snd p) with (snd p + 1 - 1) by lia.
Qed.
Lemma lab_bg p : inside g (fst p) (snd p) -> bg g p -> lab_at p = Some 0.
Proof.
  intros I F. apply bg_pic in F. unfold lab_at. unfold isW, up in F; cbn in F. destruct I.
  pose proof (ro_white _ _ _ _ _ _ _ Ro (fst p + 1) (snd p + 1) ltac:(lia) ltac:(lia) F) as E.
  replace (fst p + 1 - 1) with (fst p) in E by lia. now replace (snd p + 1 - 1) with (snd p) in E by lia.
Qed.
Lemma fg_dec p : fg g p \/ bg g p.
Proof. rewrite fg_pic, bg_pic. apply B_dec. Qed.
Lemma fg_inside p : fg g p -> inside g (fst p) (snd p).
Proof. apply pixel_Some. Qed.

Lemma run_values p : inside g (fst p) (snd p) -> exists k, lab_at p = Some k /\ 0 <= k <= zlen con /\ (k = 0 <-> bg g p).
Proof.
  intros I. pose proof (zlen_nonneg con). destruct (fg_dec p) as [F|F].
  - destruct (lab_fg p F) as (k & E & R). pose proof (rank_range _ _ _ _ _ R) as X. exists k. split; auto. rewrite run_len. split; [lia|].
    split; [lia|]. intros N. now apply N in F.
  - exists 0. split; [now apply lab_bg|]. split; [lia|]. tauto.
Qed.
Lemma run_blobs p q k k' : fg g p -> fg g q -> lab_at p = Some k -> lab_at q = Some k' -> (k = k' <-> blob r g p q).
Proof.
  intros F F' E E'. destruct (lab_fg p F) as (k1 & E1 & R1). destruct (lab_fg q F') as (k2 & E2 & R2).
  rewrite E in E1. injection E1 as <-. rewrite E' in E2. injection E2 as <-. rewrite blob_pic. split.
  - intros <-. destruct R1 as (c & Z & C). destruct R2 as (c' & Z' & C'). rewrite Z in Z'. injection Z' as <-.
    eapply conn_trans; eauto. eapply conn_sym; eauto. apply adj_sym.
  - intros C. apply (run_functional (up q)); auto. eapply rank_conn; eauto.
Qed.
(** The [k]-th contour belongs to the blob whose first pixel is [p]. *)
Lemma run_first k : 1 <= k <= zlen con -> exists p, znth (Us T) (k - 1) = Some (Ck (fst p + 1) (snd p + 1) U) /\
  first_of (adj r) (fg g) p /\ lab_at p = Some k.
Proof.
  intros K. rewrite run_len in K. destruct (znth_in_range (Us T) (k - 1) ltac:(lia)) as (c & E). destruct (run_U _ _ E) as (x & y & -> & Tc).
  assert (up (x - 1, y - 1) = (x, y)) as Eu by (unfold up; cbn; f_equal; lia).
  exists (x - 1, y - 1). cbn [fst snd]. replace (x - 1 + 1) with x by lia. replace (y - 1 + 1) with y by lia. split; auto.
  assert (first_of (adj r) (fg g) (x - 1, y - 1)) as Fi by (apply first_pic; rewrite Eu; exact Tc).
  split; auto. destruct (lab_fg (x - 1, y - 1) (proj1 Fi)) as (k' & E' & R). rewrite E'. f_equal. rewrite Eu in R.
  eapply run_functional; eauto. exists (Ck x y U). split; auto. apply conn_refl. apply Tc.
Qed.
Lemma run_order p q k k' : first_of (adj r) (fg g) p -> first_of (adj r) (fg g) q -> lab_at p = Some k -> lab_at q = Some k' ->
  (k < k' <-> before p q).
Proof.
  intros F F' E E'. destruct (lab_fg p (proj1 F)) as (k1 & E1 & c & Z & C). destruct (lab_fg q (proj1 F')) as (k2 & E2 & c' & Z' & C').
  rewrite E in E1. injection E1 as <-. rewrite E' in E2. injection E2 as <-.
  destruct (run_U _ _ Z) as (x & y & -> & Tc). destruct (run_U _ _ Z') as (x' & y' & -> & Tc'). cbn [cpix] in *.
  assert (forall p x y, first_of (adj r) (fg g) p -> trig r B (Ck x y U) -> conn (adj r) (isB B) (x, y) (up p) -> (x, y) = up p) as X.
  { intros p0 x0 y0 F0 T0 C0. eapply (first_unique (adj_sym r)); eauto. now apply first_pic. }
  apply X in C; auto. apply X in C'; auto. rewrite before_up_iff, <- C, <- C'.
  pose proof (sorted_Us _ (ro_sorted _ _ _ _ _ _ _ Ro)) as S.
  assert (forall i j a b, znth (Us T) i = Some a -> znth (Us T) j = Some b -> i < j -> before (cpix a) (cpix b)) as Lt.
  { intros i j a b Hi Hj L. exact (sorted_lt _ _ i j a b S Hi Hj L). }
  split.
  - intros L. apply (Lt (k - 1) (k' - 1) _ _ Z Z'). lia.
  - intros L. destruct (Z.lt_trichotomy k k') as [|[->|G]]; auto; exfalso.
    + rewrite Z in Z'. injection Z' as -> ->. now apply before_irrefl in L.
    + specialize (Lt (k' - 1) (k - 1) _ _ Z' Z ltac:(lia)). cbn [cpix] in Lt. apply (before_irrefl (x, y)). eapply before_trans; eauto.
Qed.

(** Points. *)
Lemma run_count : ps_count (lb_pts st') = zlen T.
Proof.
  pose proof (ro_pts _ _ _ _ _ _ _ Ro) as R. pose proof (ro_ls _ _ _ _ _ _ _ Ro) as F.
  assert (zlen ls = zlen T) as E. { clear - F. induction F as [|c l T ls _ _ IH]; auto. now rewrite !zlen_cons, IH. }
  assert (zlen T <= 2 * w * h) as L.
  { pose proof run_dims. apply (T_len r B w h HB); try lia; [apply sorted_nodup, Ro|]. intros c Hc. now apply (ro_T _ _ _ _ _ _ _ Ro). }
  rewrite (ps_count_ok _ _ R); auto. pose proof run_dims. nia.
Qed.
Lemma run_stored i c : znth T i = Some c -> exists n, period r B n c /\
  has_points st' i (limited (isU c || lb_save st) (lb_min st) (lb_max st) (map sh (cpoints r B n c))).
Proof.
  intros E. pose proof (znth_Some_range _ _ _ E) as Ri.
  assert (exists l, znth ls i = Some l /\ stored r B st c l) as (l & El & n & Pn & ->).
  { pose proof (ro_ls _ _ _ _ _ _ _ Ro) as F. clear - F E Ri. revert i E Ri. induction F as [|c0 l0 T ls S F IH]; intros i E Ri; [now apply znth_In in E|].
    destruct (Z.eq_dec i 0) as [->|N].
    - rewrite znth_cons_0 in *. injection E as <-. eauto.
    - rewrite znth_cons_S by lia. rewrite znth_cons_S in E by lia. apply IH; auto. rewrite zlen_cons in Ri. lia. }
  exists n. split; auto. split; [rewrite run_count; lia|]. rewrite (ps_load_ok _ _ i [] (ro_pts _ _ _ _ _ _ _ Ro)) by lia. rewrite El. cbn [app]. f_equal.
  unfold limited, kept. destruct (isU c || lb_save st); cbn [negb orb]; reflexivity.
Qed.

Lemma run_outer i x y : znth T i = Some (Ck (x + 1) (y + 1) U) -> exists l,
  has_points st' i (limited true (lb_min st) (lb_max st) l) /\ traces r l (x, y) (outer_edge r g (x, y)).
Proof.
  intros E. destruct (run_stored _ _ E) as (n & Pn & P). cbn [isU orb] in P. exists (map sh (cpoints r B n (Ck (x + 1) (y + 1) U))). split; auto.
  assert (trig r B (Ck (x + 1) (y + 1) U)) as Tc by (apply (ro_T _ _ _ _ _ _ _ Ro); eapply znth_In; eauto).
  pose proof (crack_valid r B _ (trig_crack r B w h HB _ Tc)) as V. split.
  - replace (x, y) with (sh (cpix (Ck (x + 1) (y + 1) U))) by (unfold sh; cbn; f_equal; lia). apply walk_sh. now apply cpoints_walk.
  - intros u. rewrite in_map_sh, (outer_points r B w h HB n (x + 1) (y + 1) (up u) Tc Pn), outer_pic. reflexivity.
Qed.
Lemma run_inner i x y : znth T i = Some (Ck (x + 1) (y + 1) D) -> exists l,
  has_points st' i (limited (lb_save st) (lb_min st) (lb_max st) l) /\ traces r l (x, y) (hole_edge r g (x, y) (x, y + 1)).
Proof.
  intros E. destruct (run_stored _ _ E) as (n & Pn & P). cbn [isU orb] in P. exists (map sh (cpoints r B n (Ck (x + 1) (y + 1) D))). split; auto.
  assert (trig r B (Ck (x + 1) (y + 1) D)) as Tc by (apply (ro_T _ _ _ _ _ _ _ Ro); eapply znth_In; eauto).
  pose proof (crack_valid r B _ (trig_crack r B w h HB _ Tc)) as V. split.
  - replace (x, y) with (sh (cpix (Ck (x + 1) (y + 1) D))) by (unfold sh; cbn; f_equal; lia). apply walk_sh. now apply cpoints_walk.
  - intros u. rewrite in_map_sh, (hole_points r B w h HB n (x + 1) (y + 1) (up u) Tc Pn), hole_edge_pic. reflexivity.
Qed.
Lemma blob_sym p q : blob r g p q -> blob r g q p.
Proof. apply conn_sym, adj_sym. Qed.
Lemma space_sym p q : space r g p q -> space r g q p.
Proof. apply conn_sym, adj_bg_sym. Qed.
Lemma hole_edge_blob p p' q u : blob r g p p' -> hole_edge r g p q u -> hole_edge r g p' q u.
Proof. intros C [H X]. split; auto. eapply conn_trans; [apply blob_sym, C|exact H]. Qed.
Lemma hole_blob p p' q : blob r g p p' -> hole r g p q -> hole r g p' q.
Proof.
  intros C (H1 & (u & v & U & V & A) & H3). split; auto. split.
  - exists u, v. split; auto. eapply conn_trans; [apply blob_sym, C|exact U].
  - intros X. apply H3. apply escapes_pic. apply escapes_pic in X. apply blob_sym, blob_pic in C. apply (esc_same r B w h (up p') _ (up q)); auto.
    apply conn_refl. now apply bg_pic.
Qed.

(** A contour is that of a hole: [q] is the pixel under the start of the walk. *)
Lemma run_contour k : 1 <= k <= zlen con -> exists co p, znth con (k - 1) = Some co /\ co_id co = k /\
  first_of (adj r) (fg g) p /\ lab_at p = Some k /\
  (exists l, has_points st' (co_ext co) (limited true (lb_min st) (lb_max st) l) /\ traces r l p (outer_edge r g p)) /\
  exists qs, Forall2 (fun j q => hole r g p q /\ exists l, has_points st' j (limited (lb_save st) (lb_min st) (lb_max st) l) /\
      traces r l (fst q, snd q - 1) (hole_edge r g p q)) (co_int co) qs /\
    forall q, hole r g p q -> exists i q', znth qs i = Some q' /\ space r g q q' /\
      forall i' q'', znth qs i' = Some q'' -> space r g q q'' -> i' = i.
Proof.
  intros K. destruct (run_first k K) as (p & Zp & Fp & Lp). destruct (znth_in_range con (k - 1) ltac:(lia)) as (co & Eco).
  destruct (conrel_spec r B T con (ro_con _ _ _ _ _ _ _ Ro) run_functional k co Eco) as (I1 & (c & I2 & I3) & I4 & I5).
  rewrite Zp in I3. injection I3 as <-. exists co, p. split; auto. split; auto. split; auto. split; auto. split.
  { destruct (run_outer _ _ _ I2) as (l & L1 & L2). exists l. split; auto. now rewrite <- surjective_pairing in L2. }
  assert (isB B (up p)) as Bp by (apply fg_pic; apply Fp).
  assert (forall j, In j (co_int co) -> exists x y, znth T j = Some (Ck (x + 1) (y + 1) D) /\ trig r B (Ck (x + 1) (y + 1) D) /\ blob r g p (x, y)) as Inn.
  { intros j Hj. apply I5 in Hj as (c & Zc & Uc & Rk). assert (trig r B c) as Tc by (apply (ro_T _ _ _ _ _ _ _ Ro); eapply znth_In; eauto).
    destruct c as [x y o]. exists (x - 1), (y - 1). replace (x - 1 + 1) with x by lia. replace (y - 1 + 1) with y by lia.
    destruct o; cbn in Tc, Uc; try tauto; try discriminate. split; auto. split; auto. rewrite blob_pic.
    replace (up (x - 1, y - 1)) with (x, y) by (unfold up; cbn; f_equal; lia). destruct Rk as (c' & Z' & C').
    rewrite Zp in Z'. injection Z' as <-. exact C'. }
  set (under := fun j => match znth T j with Some (Ck x y _) => (x - 1, y - 1 + 1) | None => (0, 0) end).
  exists (map under (co_int co)). split.
  - assert (forall j, In j (co_int co) -> hole r g p (under j) /\ exists l, has_points st' j (limited (lb_save st) (lb_min st) (lb_max st) l) /\
      traces r l (fst (under j), snd (under j) - 1) (hole_edge r g p (under j))) as X.
    { intros j Hj. destruct (Inn j Hj) as (x & y & Zj & Tj & C). unfold under. rewrite Zj. cbn [fst snd].
      replace (x + 1 - 1) with x by lia. replace (y + 1 - 1 + 1 - 1) with y by lia. replace (y + 1 - 1 + 1) with (y + 1) by lia. split.
      - apply (hole_blob (x, y)); [now apply blob_sym|]. apply hole_pic. unfold up; cbn [fst snd]. now apply (trig_hole r B w h HB).
      - destruct (run_inner _ _ _ Zj) as (l & L1 & L2 & L3). exists l. split; auto. split; auto. intros u. rewrite L3.
        split; apply hole_edge_blob; auto. now apply blob_sym. }
    clear - X. induction (co_int co) as [|j l IH]; cbn; constructor; [apply X; now left|]. apply IH. intros; apply X. now right.
  - intros q Hq. apply hole_pic in Hq as (Hq1 & Hq2 & Hq3).
    destruct (hole_trig r B w h HB (up p) (up q) Hq1 Hq2 Hq3) as (x & y & Tc & C1 & C2).
    pose proof Tc as Tc'. apply (ro_T _ _ _ _ _ _ _ Ro) in Tc'. apply In_nth_error in Tc' as (m & Em).
    assert (znth T (Z.of_nat m) = Some (Ck x y D)) as Zm by (unfold znth; replace (_ <? 0) with false by lia; now rewrite Nat2Z.id).
    assert (In (Z.of_nat m) (co_int co)) as Im.
    { apply I5. exists (Ck x y D). split; auto. split; auto. exists (Ck (fst p + 1) (snd p + 1) U). split; auto. }
    apply In_nth_error in Im as (i & Ei). exists (Z.of_nat i), (x - 1, y - 1 + 1).
    assert (znth (co_int co) (Z.of_nat i) = Some (Z.of_nat m)) as Zi by (unfold znth; replace (_ <? 0) with false by lia; now rewrite Nat2Z.id).
    assert (up (x - 1, y - 1 + 1) = (x, y + 1)) as Eu by (unfold up; cbn; f_equal; lia).
    split; [rewrite znth_map, Zi; cbn; unfold under; now rewrite Zm|]. split; [apply space_pic; now rewrite Eu|].
    intros i' q'' Z' S'. rewrite znth_map in Z'. destruct (znth (co_int co) i') as [j'|] eqn:Ej; [|discriminate]. cbn in Z'. injection Z' as <-.
    assert (In j' (co_int co)) as Ij by (eapply znth_In; eauto). destruct (Inn j' Ij) as (x' & y' & Zj & Tj & C').
    unfold under in S'. rewrite Zj in S'. apply space_pic in S'. unfold up in S'; cbn [fst snd] in S'.
    replace (x' + 1 - 1 + 1) with (x' + 1) in S' by lia. replace (y' + 1 - 1 + 1 + 1) with (y' + 1 + 1) in S' by lia.
    assert ((x, y + 1) = (x' + 1, y' + 1 + 1)) as [= -> Ey].
    { eapply (first_unique (adj_bg_sym r)); [apply Tc|apply Tj|]. eapply conn_trans; [|exact S']. eapply conn_sym; [apply adj_bg_sym|exact C2]. }
    assert (y = y' + 1) as -> by lia.
    assert (j' = Z.of_nat m) as -> by (apply (nodup_znth T _ _ _ (sorted_nodup _ (ro_sorted _ _ _ _ _ _ _ Ro)) Zj Zm)).
    exact (nodup_znth _ _ _ _ I4 Ej Zi).
Qed.

(** Every set of points belongs to one contour. *)
Lemma run_owner i : 0 <= i < ps_count (lb_pts st') -> exists k co, znth con (k - 1) = Some co /\ (i = co_ext co \/ In i (co_int co)) /\
  ~ (i = co_ext co /\ In i (co_int co)) /\
  forall k' co', znth con (k' - 1) = Some co' -> i = co_ext co' \/ In i (co_int co') -> k' = k.
Proof.
  intros Hi. rewrite run_count in Hi. destruct (znth_in_range T i Hi) as (c & Zc).
  pose proof (conrel_spec r B T con (ro_con _ _ _ _ _ _ _ Ro) run_functional) as Sp.
  assert (NoDup T) as Nd by apply sorted_nodup, Ro.
  assert (forall k co, znth con (k - 1) = Some co -> i = co_ext co \/ In i (co_int co) -> rank r B T (cpix c) k) as Rk.
  { intros k co Eco H. destruct (Sp k co Eco) as (_ & (c1 & S2 & S3) & _ & S4). destruct H as [->|H].
    - rewrite Zc in S2. injection S2 as <-. exists c. split; auto. apply conn_refl. destruct (run_U _ _ S3) as (x & y & -> & Tc). apply Tc.
    - apply S4 in H as (c2 & Z2 & _ & R2). rewrite Zc in Z2. injection Z2 as <-. exact R2. }
  assert (exists k co, znth con (k - 1) = Some co /\ (i = co_ext co \/ In i (co_int co))) as (k & co & Eco & Own).
  { assert (exists k, rank r B T (cpix c) k) as (k & R).
    { assert (isB B (cpix c)) as Bc by (apply (trig_black r); apply (ro_T _ _ _ _ _ _ _ Ro); eapply znth_In; eauto).
      destruct (ro_black _ _ _ _ _ _ _ Ro _ Bc) as (k & _ & R). eauto. }
    pose proof (rank_range _ _ _ _ _ R) as Rg. destruct (znth_in_range con (k - 1)) as (co & Eco); [rewrite run_len; lia|].
    exists k, co. split; auto. destruct (Sp k co Eco) as (_ & (c1 & S2 & S3) & _ & S4). destruct (isU c) eqn:U; [|right; apply S4; eauto]. left.
    apply (nodup_znth T _ _ c1 Nd); [|exact S2]. rewrite Zc. f_equal. destruct R as (c' & Z' & C'). rewrite S3 in Z'. injection Z' as <-.
    destruct (run_U _ _ S3) as (x & y & -> & Tc1).
    assert (trig r B c) as Tc by (apply (ro_T _ _ _ _ _ _ _ Ro); eapply znth_In; eauto). destruct c as [x' y' []]; try discriminate.
    assert ((x, y) = (x', y')) as [= -> ->]; auto. eapply (first_unique (adj_sym r)); eauto. }
  exists k, co. split; auto. split; auto. split.
  - intros [H1 H2]. destruct (Sp k co Eco) as (_ & (c1 & S2 & S3) & _ & S4). apply S4 in H2 as (c2 & Z2 & U2 & _). rewrite <- H1, Zc in S2. injection S2 as <-.
    rewrite Zc in Z2. injection Z2 as <-. apply znth_In, Us_in in S3 as [_ S3]. congruence.
  - intros k' co' Eco' Own'. eapply run_functional; eapply Rk; eauto.
Qed.
End Run.

(** ** Results of [process] *)
Lemma labels_lemma fuel st g lab : used st -> label_args fuel g lab ->
  exists st' lab', process fuel st g lab = Ok (st', lab') /\ used st' /\
    g_width lab' = g_width g /\ g_height lab' = g_height g /\
    (forall p, inside g (fst p) (snd p) -> exists k, pixel lab' (fst p) (snd p) = Some k /\
       0 <= k <= zlen (lb_contours st') /\ (k = 0 <-> bg g p)) /\
    (forall p q k k', fg g p -> fg g q -> pixel lab' (fst p) (snd p) = Some k -> pixel lab' (fst q) (snd q) = Some k' ->
       (k = k' <-> blob (lb_rule st) g p q)) /\
    (forall k, 1 <= k <= zlen (lb_contours st') -> exists p, first_of (adj (lb_rule st)) (fg g) p /\
       pixel lab' (fst p) (snd p) = Some k) /\
    (forall p q k k', first_of (adj (lb_rule st)) (fg g) p -> first_of (adj (lb_rule st)) (fg g) q ->
       pixel lab' (fst p) (snd p) = Some k -> pixel lab' (fst q) (snd q) = Some k' -> (k < k' <-> before p q)).
Proof.
  intros U A. destruct (process_run fuel st g lab (used_inv st U) A) as (lab0 & st' & lab' & T & ls & E0 & E & R).
  exists st', lab'. split; auto. split; [econstructor; eauto|]. pose proof (la_in _ _ _ A) as Wg. pose proof (la_size _ _ _ A) as Sz.
  pose proof (ro_lab _ _ _ _ _ _ _ R) as (L1 & L2 & _).
  destruct (sizes g Wg Sz) as (Dw & Dh & Dm).
  destruct (gray_reshape_wf 0 lab (g_width g) (g_height g) lab0 (la_out _ _ _ A) ltac:(lia) ltac:(lia) ltac:(nia) E0) as (_ & Ew & Eh).
  split; [congruence|]. split; [congruence|].
  split; [intros p; eapply run_values; eauto|]. split; [intros p q k k'; eapply run_blobs; eauto|].
  split; [intros k K; edestruct run_first as (p & _ & Hp); eauto|]. intros p q k k'; eapply run_order; eauto.
Qed.

Lemma frame_lemma fuel st g lab st' lab' : used st -> label_args fuel g lab -> process fuel st g lab = Ok (st', lab') ->
  g_width lab = g_width g -> g_height lab = g_height g ->
  same_layout lab lab' /\ forall j, outside_window lab j -> znth (g_data lab') j = znth (g_data lab) j.
Proof.
  intros U A E Ew Eh. destruct (process_run fuel st g lab (used_inv st U) A) as (lab0 & st1 & lab1 & T & ls & E0 & E1 & R).
  rewrite E in E1. injection E1 as <- <-. unfold gray_reshape in E0. rewrite Ew, Eh, !Z.eqb_refl in E0. injection E0 as <-.
  pose proof (ro_lab _ _ _ _ _ _ _ R) as L. split; auto. intros j Hj. apply R. intros x y I. rewrite (pos_layout lab lab') by auto.
  apply Hj. now apply (inside_layout lab lab').
Qed.
Lemma throw_lemma fuel st g lab : g_sub lab = true -> g_width lab <> g_width g \/ g_height lab <> g_height g -> process fuel st g lab = Throw.
Proof.
  intros S N. unfold process, gray_reshape. replace (_ && _) with false by lia. now rewrite S.
Qed.

Lemma contours_lemma fuel st g lab st' lab' : used st -> label_args fuel g lab -> process fuel st g lab = Ok (st', lab') ->
  (forall k, 1 <= k <= zlen (lb_contours st') -> exists co p, znth (lb_contours st') (k - 1) = Some co /\ co_id co = k /\
    first_of (adj (lb_rule st)) (fg g) p /\ pixel lab' (fst p) (snd p) = Some k /\
    (exists l, has_points st' (co_ext co) (limited true (lb_min st) (lb_max st) l) /\
       traces (lb_rule st) l p (outer_edge (lb_rule st) g p)) /\
    exists qs, Forall2 (fun j q => hole (lb_rule st) g p q /\
        exists l, has_points st' j (limited (lb_save st) (lb_min st) (lb_max st) l) /\
          traces (lb_rule st) l (fst q, snd q - 1) (hole_edge (lb_rule st) g p q)) (co_int co) qs /\
      forall q, hole (lb_rule st) g p q -> exists i q', znth qs i = Some q' /\ space (lb_rule st) g q q' /\
        forall i' q'', znth qs i' = Some q'' -> space (lb_rule st) g q q'' -> i' = i) /\
  (forall i, 0 <= i < ps_count (lb_pts st') -> exists k co, znth (lb_contours st') (k - 1) = Some co /\
    (i = co_ext co \/ In i (co_int co)) /\ ~ (i = co_ext co /\ In i (co_int co)) /\
    forall k' co', znth (lb_contours st') (k' - 1) = Some co' -> i = co_ext co' \/ In i (co_int co') -> k' = k).
Proof.
  intros U A E. destruct (process_run fuel st g lab (used_inv st U) A) as (lab0 & st1 & lab1 & T & ls & E0 & E1 & R).
  rewrite E in E1. injection E1 as <- <-. split.
  - intros k K. eapply run_contour; eauto; apply A.
  - intros i Hi. eapply run_owner; eauto; apply A.
Qed.

(** ** Two runs on the same picture *)
Lemma before_asym p q : before p q -> before q p -> False.
Proof. intros H1 H2. apply (before_irrefl p). eapply before_trans; eauto. Qed.
Lemma tlt_asym a b : tlt a b -> tlt b a -> False.
Proof.
  intros [H|(E & U1 & U2)] [H'|(E' & U1' & U2')]; try congruence.
  - eapply before_asym; eauto.
  - rewrite E' in H. now apply before_irrefl in H.
  - rewrite E in H'. now apply before_irrefl in H'.
Qed.
Lemma sorted_eq l l' : StronglySorted tlt l -> StronglySorted tlt l' -> (forall c, In c l <-> In c l') -> l = l'.
Proof.
  intros S. revert l'. induction S as [|a l S IH F]; intros [|b l'] S' E; auto.
  - exfalso. apply (E b). now left.
  - exfalso. apply (E a). now left.
  - inversion S' as [|? ? S2 F2]; subst. rewrite Forall_forall in F, F2.
    assert (a = b) as <-.
    { destruct (proj1 (E a)) as [<-|Ia]; [now left|reflexivity|]. destruct (proj2 (E b)) as [<-|Ib]; [now left|reflexivity|].
      exfalso. eapply tlt_asym; eauto. }
    f_equal. apply IH; auto. intros c. split; intros Hc.
    + destruct (proj1 (E c)) as [<-|]; [now right| |auto]. apply F in Hc. now apply tlt_irrefl in Hc.
    + destruct (proj2 (E c)) as [<-|]; [now right| |auto]. apply F2 in Hc. now apply tlt_irrefl in Hc.
Qed.

Lemma conrel_snoc r B T c con : conrel r B (T ++ [c]) con ->
  (exists con0, conrel r B T con0 /\ isU c = true /\ con = con0 ++ [mkCo (zlen con0 + 1) (zlen T) []]) \/
  (exists con0 k co, conrel r B T con0 /\ isU c = false /\ rank r B T (cpix c) k /\ znth con0 (k - 1) = Some co /\
    con = upd con0 (Z.to_nat (k - 1)) (mkCo (co_id co) (co_ext co) (co_int co ++ [zlen T]))).
Proof.
  intros C. remember (T ++ [c]) as T' eqn:E. destruct C as [|T1 con1 c1 C U|T1 con1 c1 k co C U R Z].
  - symmetry in E. apply app_eq_nil in E as [_ E]. discriminate.
  - apply app_inj_tail in E as [-> ->]. left. eauto.
  - apply app_inj_tail in E as [-> ->]. right. eauto 9.
Qed.
Lemma conrel_det r B T con con' : functional r B T -> conrel r B T con -> conrel r B T con' -> con = con'.
Proof.
  intros Fn C. revert con'. induction C as [|T con c C IH Uc|T con c k co C IH Uc R Z]; intros con' C'.
  - remember [] as T' eqn:E. destruct C'; auto; apply app_eq_nil in E as [_ E]; discriminate.
  - apply conrel_snoc in C' as [(con0 & C0 & _ & ->)|(con0 & k & co & _ & F & _)]; [|congruence].
    now rewrite (IH (functional_prefix _ _ _ _ Fn) con0 C0).
  - apply conrel_snoc in C' as [(con0 & _ & F & _)|(con0 & k' & co' & C0 & _ & R' & Z' & ->)]; [congruence|].
    apply functional_prefix in Fn. rewrite <- (IH Fn con0 C0) in *. assert (k' = k) as -> by (eapply Fn; eauto).
    rewrite Z in Z'. now injection Z' as <-.
Qed.

Lemma limited_all l : zlen l < 4294967295 -> limited true 0 4294967295 l = l.
Proof. intros H. pose proof (zlen_nonneg l). unfold limited. replace (_ || _) with false; auto. cbn. lia. Qed.

(** What two labellers with the same rule make of the same picture. *)
Lemma two_runs fuel1 fuel2 st1 st2 g lab1 lab2 st1' lab1' st2' lab2' :
  used st1 -> used st2 -> lb_rule st1 = lb_rule st2 -> label_args fuel1 g lab1 -> label_args fuel2 g lab2 ->
  process fuel1 st1 g lab1 = Ok (st1', lab1') -> process fuel2 st2 g lab2 = Ok (st2', lab2') ->
  (forall p, inside g (fst p) (snd p) -> pixel lab1' (fst p) (snd p) = pixel lab2' (fst p) (snd p)) /\
  lb_contours st1' = lb_contours st2' /\ ps_count (lb_pts st1') = ps_count (lb_pts st2') /\
  (forall i, 0 <= i < ps_count (lb_pts st1') -> exists (ext : bool) l, l <> [] /\ zlen l < 4294967295 /\
     (ext = true <-> exists co, In co (lb_contours st1') /\ co_ext co = i) /\
     has_points st1' i (limited (ext || lb_save st1) (lb_min st1) (lb_max st1) l) /\
     has_points st2' i (limited (ext || lb_save st2) (lb_min st2) (lb_max st2) l)).
Proof.
  intros U1 U2 Er A1 A2 E1 E2.
  destruct (process_run fuel1 st1 g lab1 (used_inv st1 U1) A1) as (l1 & s1 & lb1 & T1 & ls1 & _ & X1 & R1). rewrite E1 in X1. injection X1 as <- <-.
  destruct (process_run fuel2 st2 g lab2 (used_inv st2 U2) A2) as (l2 & s2 & lb2 & T2 & ls2 & _ & X2 & R2). rewrite E2 in X2. injection X2 as <- <-.
  pose proof (la_in _ _ _ A1) as Wg. pose proof (la_size _ _ _ A1) as Sz. destruct (sizes g Wg Sz) as (Dw & Dh & Dm).
  assert (T1 = T2) as <-.
  { apply sorted_eq; [apply R1|apply R2|]. intros c. rewrite (ro_T _ _ _ _ _ _ _ R1), (ro_T _ _ _ _ _ _ _ R2), Er. reflexivity. }
  pose proof (run_functional _ _ _ _ _ _ _ R1) as Fn.
  assert (lb_contours st1' = lb_contours st2') as Ec.
  { eapply conrel_det; [exact Fn|apply R1|]. rewrite Er. apply R2. }
  pose proof (run_count _ _ _ _ _ _ _ Wg Sz R1) as C1. pose proof (run_count _ _ _ _ _ _ _ Wg Sz R2) as C2.
  split; [|split; [exact Ec|split; [congruence|]]].
  - intros p I. destruct (fg_dec g p) as [F|F].
    + destruct (lab_fg _ _ _ _ _ _ _ R1 p F) as (k & P & Rk). destruct (lab_fg _ _ _ _ _ _ _ R2 p F) as (k' & P' & Rk').
      unfold lab_at in *. rewrite P, P'. f_equal. rewrite <- Er in Rk'. eapply Fn; eauto.
    + pose proof (lab_bg _ _ _ _ _ _ _ R1 p I F) as P. pose proof (lab_bg _ _ _ _ _ _ _ R2 p I F) as P'. unfold lab_at in *. congruence.
  - intros i Hi. rewrite C1 in Hi. destruct (znth_in_range T1 i Hi) as (c & Zc).
    destruct (run_stored _ _ _ _ _ _ _ Wg Sz R1 i c Zc) as (n & Pn & H1). destruct (run_stored _ _ _ _ _ _ _ Wg Sz R2 i c Zc) as (n' & Pn' & H2).
    rewrite <- Er in *. assert (n' = n) as -> by (eapply period_unique; eauto).
    exists (isU c), (map sh (cpoints (lb_rule st1) (pic g) n c)). split; [|split; [|split; [|split; auto]]].
    + unfold cpoints. destruct (filter _ _); discriminate.
    + assert (trig (lb_rule st1) (pic g) c) as Tc by (apply (ro_T _ _ _ _ _ _ _ R1); eapply znth_In; eauto).
      destruct (trig_period (lb_rule st1) (pic g) _ _ (pic_dims g) c Tc) as (m & Pm & Lm). assert (m = n) as -> by (eapply period_unique; eauto).
      assert (zlen (map sh (cpoints (lb_rule st1) (pic g) n c)) <= Z.of_nat n) as L.
      { unfold zlen. rewrite map_length. apply inj_le. apply (cpoints_len _ _ _ _ (pic_dims g)). now destruct Pn. }
      nia.
    + pose proof (conrel_spec _ _ _ _ (ro_con _ _ _ _ _ _ _ R1) Fn) as Sp. split.
      * intros Uc. destruct (run_owner _ _ _ _ _ _ _ Wg Sz R1 i ltac:(lia)) as (k & co & Zk & [O|O] & _); exists co; (split; [eapply znth_In; eauto|auto]).
        destruct (Sp k co Zk) as (_ & _ & _ & S4). apply S4 in O as (c' & Zc' & U' & _). congruence.
      * intros (co & I & <-). apply In_nth_error in I as (k & Ek).
        assert (znth (lb_contours st1') (Z.of_nat k + 1 - 1) = Some co) as Zk.
        { unfold znth. replace (_ <? 0) with false by lia. now replace (Z.to_nat (Z.of_nat k + 1 - 1)) with k by lia. }
        destruct (Sp _ co Zk) as (_ & (c' & S2 & S3) & _). rewrite Zc in S2. injection S2 as <-. apply znth_In, Us_in in S3. tauto.
Qed.

(** ** A single trace *)
Definition black (g : gray Z) (x y : Z) : bool := match pixel g x y with Some v => v =? 1 | None => false end.
Lemma fg_black g p : fg g p <-> isB (black g) p.
Proof.
  unfold fg, isB, black. destruct (pixel g (fst p) (snd p)) as [v|]; [|split; discriminate].
  split; [intros [= ->]; reflexivity|]. intros E. f_equal. lia.
Qed.
Lemma bg_black g p : bg g p <-> isW (black g) p.
Proof.
  unfold bg. rewrite fg_black. unfold isB, isW. destruct (black g (fst p) (snd p)); split; congruence.
Qed.

Lemma offsets_table r s l : 0 <= s < 2147483647 -> set_offsets r s = Ok l -> table r l s.
Proof.
  intros Hs E. destruct (set_offsets_ok r (fun _ _ => false) 0 0 ltac:(discriminate) s Hs) as (l' & E' & H).
  rewrite E in E'. now injection E' as <-.
Qed.

Lemma trace_lemma fuel cf bin lab s0 pts x y ext : trace_args fuel cf bin lab s0 pts x y ext ->
  exists t l, trace fuel cf bin lab pts x y ext = Ok t /\
    same_layout bin (tr_bin t) /\ same_layout lab (tr_lab t) /\
    (forall j, outside_window bin j -> znth (g_data (tr_bin t)) j = znth (g_data bin) j) /\
    (forall j, outside_window lab j -> znth (g_data (tr_lab t)) j = znth (g_data lab) j) /\
    (forall p v, pixel bin (fst p) (snd p) = Some v -> pixel (tr_bin t) (fst p) (snd p) = Some v \/
       (v <> 1 /\ pixel (tr_bin t) (fst p) (snd p) = Some 255)) /\
    (forall p, inside lab (fst p) (snd p) ->
       (In p l -> pixel (tr_lab t) (fst p) (snd p) = Some (tc_label cf)) /\
       (~ In p l -> pixel (tr_lab t) (fst p) (snd p) = pixel lab (fst p) (snd p))) /\
    closed_walk (adj (tc_rule cf)) l (x - 1, y - 1) /\
    (forall p, In p l -> fg bin (fst p + 1, snd p + 1) /\ exists q, bg bin q /\ adj_bg (tc_rule cf) (fst p + 1, snd p + 1) q) /\
    zlen l <= 4 * g_width lab * g_height lab /\
    (forall i, 0 <= i -> ps_load (tr_pts t) i [] =
       match znth (s0 ++ [firstn (Z.to_nat (tc_max cf)) l]) i with Some l' => Ok l' | None => Throw end).
Proof.
  intros [Wb Wl [Dw Dh] Fr [Sb Sl] Ob Ol Mx (bs & hist & Hbs & Hh & Hf & Hr & Ep) Tot Fu Fg Bg].
  set (r := tc_rule cf) in *. set (w := g_width lab) in *. set (h := g_height lab) in *. set (B := black bin) in *.
  assert (forall u v, B u v = true -> 1 <= u <= w /\ 1 <= v <= h) as HB.
  { intros u v E. assert (fg bin (u, v)) as F by (now apply fg_black). apply Fr in F. cbn [fst snd] in F. lia. }
  destruct (ps_run_ok hist (ps_new bs) [] (Rps_new bs ltac:(lia)) Hh Hf) as (p' & E' & Rp & _). rewrite Ep in E'. injection E' as <-.
  rewrite Hr in Rp.
  assert (is_crack B (start ext x y) = true) as Cr.
  { unfold start, is_crack. apply fg_black in Fg. apply bg_black in Bg. destruct ext; cbn; unfold L_Crack.isB, isW in *; cbn [fst snd] in *; fold B in Fg, Bg; now rewrite Fg, Bg. }
  assert (1 <= x <= w /\ 1 <= y <= h) as [Hx Hy] by (apply HB; apply fg_black in Fg; exact Fg).
  pose proof (crack_valid r B _ Cr) as V.
  destruct (period_ex r B w h HB _ V) as (n & Pn & Ln).
  pose proof Wb as (B0 & B1 & B2 & B3 & _). pose proof Wl as (L0 & L1 & L2 & L3 & _).
  assert (0 <= ll_total s0) as T0 by apply zlen_nonneg. assert (h < 2147483647) as Hh' by (fold w h in L0, L1; nia).
  assert (w < 2147483647) as Hw' by (fold w in L3; lia).
  destruct (trace_ok r B w h HB Hw' Hh' cf bin lab pts s0 x y ext n fuel) as (t & M & Et & Pb & Bok & Pl & Lok & Rt & Ms & _); auto; try lia.
  { split; auto. split; auto. split; auto. intros u v Hu Hv. destruct (pixel_exists bin u v Wb ltac:(split; lia)) as (z & Z). exists z. split; auto. unfold B, black. now rewrite Z. }
  { split; auto. }
  { split; auto; apply offsets_table; auto; lia. }
  exists t, (map sh (cpoints r B n (start ext x y))). split; auto. pose proof Pb as Pb0. pose proof Pl as Pl0. destruct Pb as (Pb1 & Pb2 & Pb3). destruct Pl as (Pl1 & Pl2 & Pl3).
  split; auto. split; auto. split.
  { intros j Hj. apply Pb3. intros p Hp E. destruct (Pb2 p Hp) as [I _]. apply (Hj _ _ I). exact E. }
  split.
  { intros j Hj. apply Pl3. intros p Hp E. destruct (Pl2 p Hp) as [I _]. apply (Hj _ _ I). exact E. }
  split.
  { intros p v P. pose proof (pixel_Some bin _ _ _ P) as I.
    rewrite (paint_pixel bin M 255 (tr_bin t) (fst p) (snd p) Wb Pb0 I).
    rewrite <- surjective_pairing. destruct (in_pt p M) as [Ip|Ip]; [right|left; auto]. split; auto.
    apply Ms in Ip. apply conn_right, bg_black in Ip. intros ->. now apply Ip. }
  split.
  { intros p I. rewrite (paint_pixel lab (map sh (cpoints r B n (start ext x y))) (tc_label cf) (tr_lab t) (fst p) (snd p) Wl Pl0 I).
    rewrite <- surjective_pairing. destruct (in_pt p _) as [Ip|Ip]; split; tauto. }
  split.
  { replace (x - 1, y - 1) with (sh (cpix (start ext x y))) by reflexivity. apply walk_sh. now apply cpoints_walk. }
  split.
  { intros p Ip. apply in_map_sh in Ip. change (fst p + 1, snd p + 1) with (up p).
    rewrite (cpoints_in r B w h HB n _ _ V Pn), (orbit_pixels r B n _ Cr Pn) in Ip. destruct Ip as [C (q & Cq & A)].
    split; [apply fg_black; now apply conn_right in C|]. exists q. split; auto. apply bg_black. now apply conn_right in Cq. }
  split.
  { unfold zlen. rewrite map_length. pose proof (cpoints_len r B w h HB n (start ext x y)) as X. destruct Pn as [Pn _]. specialize (X Pn). lia. }
  intros i Hi. rewrite (ps_load_ok _ _ i [] Rt Hi). cbn [app]. reflexivity.
Qed.

Lemma trace_ends fuel cf bin lab s0 pts x y ext : trace_args fuel cf bin lab s0 pts x y ext ->
  exists t l, trace fuel cf bin lab pts x y ext = Ok t /\ closed_walk (adj (tc_rule cf)) l (x - 1, y - 1) /\
    zlen l <= 4 * g_width lab * g_height lab /\
    (forall p, inside lab (fst p) (snd p) -> ~ In p l -> pixel (tr_lab t) (fst p) (snd p) = pixel lab (fst p) (snd p)) /\
    (forall p, inside lab (fst p) (snd p) -> In p l -> pixel (tr_lab t) (fst p) (snd p) = Some (tc_label cf)).
Proof.
  intros A. destruct (trace_lemma _ _ _ _ _ _ _ _ _ A) as (t & l & E & _ & _ & _ & _ & _ & P & W & _ & L & _).
  exists t, l. split; [exact E|]. split; [exact W|]. split; [exact L|]. split; intros p I; apply P; exact I.
Qed.
Lemma pixel_dec (g : gray Z) x y (o : option Z) : pixel g x y = o \/ pixel g x y <> o.
Proof. destruct (pixel g x y) as [a|], o as [b|]; try (right; discriminate); auto. destruct (Z.eq_dec a b); [left|right]; congruence. Qed.
Lemma point_dec (p : point) l : In p l \/ ~ In p l.
Proof. destruct (in_pt p l); auto. Qed.

Lemma trace_marks fuel cf bin lab s0 pts x y ext : trace_args fuel cf bin lab s0 pts x y ext ->
  exists t, trace fuel cf bin lab pts x y ext = Ok t /\
    same_layout bin (tr_bin t) /\ same_layout lab (tr_lab t) /\
    (forall j, outside_window bin j -> znth (g_data (tr_bin t)) j = znth (g_data bin) j) /\
    (forall j, outside_window lab j -> znth (g_data (tr_lab t)) j = znth (g_data lab) j) /\
    (forall p, fg bin p -> fg (tr_bin t) p) /\
    (forall p v, pixel bin (fst p) (snd p) = Some v -> pixel (tr_bin t) (fst p) (snd p) <> Some v ->
       bg bin p /\ pixel (tr_bin t) (fst p) (snd p) = Some 255) /\
    (forall p, inside lab (fst p) (snd p) -> pixel (tr_lab t) (fst p) (snd p) <> pixel lab (fst p) (snd p) ->
       fg bin (fst p + 1, snd p + 1) /\ pixel (tr_lab t) (fst p) (snd p) = Some (tc_label cf)).
Proof.
  intros A. destruct (trace_lemma _ _ _ _ _ _ _ _ _ A) as (t & l & E & L1 & L2 & F1 & F2 & Mk & P & _ & B & _).
  exists t. do 5 (split; auto). split; [|split].
  - intros p F. destruct (Mk p 1 F) as [|[N _]]; auto. congruence.
  - intros p v Pv N. destruct (Mk p v Pv) as [X|[X Y]]; [congruence|]. split; auto. unfold bg, fg. congruence.
  - intros p I N. destruct (P p I) as [X Y]. destruct (point_dec p l) as [In|In]; [|now apply Y in In]. split; auto. now apply B.
Qed.
Lemma trace_points fuel cf bin lab s0 pts x y ext : trace_args fuel cf bin lab s0 pts x y ext ->
  exists t l, trace fuel cf bin lab pts x y ext = Ok t /\ closed_walk (adj (tc_rule cf)) l (x - 1, y - 1) /\
    (forall p, In p l -> fg bin (fst p + 1, snd p + 1) /\ exists q, bg bin q /\ adj_bg (tc_rule cf) (fst p + 1, snd p + 1) q) /\
    ps_load (tr_pts t) (zlen s0) [] = Ok (firstn (Z.to_nat (tc_max cf)) l) /\
    (forall i l', znth s0 i = Some l' -> ps_load (tr_pts t) i [] = Ok l').
Proof.
  intros A. destruct (trace_lemma _ _ _ _ _ _ _ _ _ A) as (t & l & E & _ & _ & _ & _ & _ & _ & W & B & _ & L).
  exists t, l. do 3 (split; auto). pose proof (zlen_nonneg s0). split.
  - rewrite L by lia. rewrite znth_app_r by lia. now rewrite Z.sub_diag.
  - intros i l' Z. pose proof (znth_Some_range _ _ _ Z). rewrite L by lia. rewrite znth_app_l by lia. now rewrite Z.
Qed.

Lemma has_unique st i l l' : has_points st i l -> has_points st i l' -> l = l'.
Proof. intros [_ H] [_ H']. rewrite H in H'. now injection H'. Qed.
Lemma history_lemma fuel1 fuel2 st1 st2 g lab1 lab2 st1' lab1' st2' lab2' :
  used st1 -> used st2 ->
  lb_rule st1 = lb_rule st2 -> lb_min st1 = lb_min st2 -> lb_max st1 = lb_max st2 -> lb_save st1 = lb_save st2 ->
  label_args fuel1 g lab1 -> label_args fuel2 g lab2 ->
  process fuel1 st1 g lab1 = Ok (st1', lab1') -> process fuel2 st2 g lab2 = Ok (st2', lab2') ->
  (forall p, inside g (fst p) (snd p) -> pixel lab1' (fst p) (snd p) = pixel lab2' (fst p) (snd p)) /\
  lb_contours st1' = lb_contours st2' /\ ps_count (lb_pts st1') = ps_count (lb_pts st2') /\
  (forall i l, has_points st1' i l <-> has_points st2' i l).
Proof.
  intros U1 U2 Er En Ex Es A1 A2 E1 E2. destruct (two_runs _ _ _ _ _ _ _ _ _ _ _ U1 U2 Er A1 A2 E1 E2) as (R1 & R2 & R3 & R4).
  split; auto. split; auto. split; auto. intros i l. split; intros H.
  - destruct (R4 i (proj1 H)) as (e & l0 & _ & _ & _ & H1 & H2). rewrite (has_unique _ _ _ _ H H1), En, Ex, Es. exact H2.
  - destruct (R4 i) as (e & l0 & _ & _ & _ & H1 & H2); [rewrite R3; apply H|]. rewrite (has_unique _ _ _ _ H H2), <- En, <- Ex, <- Es. exact H1.
Qed.
Lemma limits_lemma fuel1 fuel2 st1 st2 g lab1 lab2 st1' lab1' st2' lab2' :
  used st1 -> used st2 -> lb_rule st1 = lb_rule st2 ->
  lb_min st2 = 0 -> lb_max st2 = 4294967295 -> lb_save st2 = true ->
  label_args fuel1 g lab1 -> label_args fuel2 g lab2 ->
  process fuel1 st1 g lab1 = Ok (st1', lab1') -> process fuel2 st2 g lab2 = Ok (st2', lab2') ->
  (forall p, inside g (fst p) (snd p) -> pixel lab1' (fst p) (snd p) = pixel lab2' (fst p) (snd p)) /\
  lb_contours st1' = lb_contours st2' /\
  (forall co, In co (lb_contours st1') -> exists l, has_points st2' (co_ext co) l /\ l <> [] /\
     has_points st1' (co_ext co) (limited true (lb_min st1) (lb_max st1) l)) /\
  (forall co j, In co (lb_contours st1') -> In j (co_int co) -> exists l, has_points st2' j l /\ l <> [] /\
     has_points st1' j (limited (lb_save st1) (lb_min st1) (lb_max st1) l)).
Proof.
  intros U1 U2 Er En Ex Es A1 A2 E1 E2. destruct (two_runs _ _ _ _ _ _ _ _ _ _ _ U1 U2 Er A1 A2 E1 E2) as (R1 & R2 & R3 & R4).
  split; auto. split; auto. destruct (contours_lemma _ _ _ _ _ _ U1 A1 E1) as [Cn Ow].
  assert (forall co, In co (lb_contours st1') -> 0 <= co_ext co < ps_count (lb_pts st1') /\
    forall j, In j (co_int co) -> 0 <= j < ps_count (lb_pts st1')) as Rg.
  { intros co I. apply In_nth_error in I as (k & Ek).
    assert (znth (lb_contours st1') (Z.of_nat k + 1 - 1) = Some co) as Zk.
    { unfold znth. replace (_ <? 0) with false by lia. now replace (Z.to_nat (Z.of_nat k + 1 - 1)) with k by lia. }
    pose proof (znth_Some_range _ _ _ Zk). destruct (Cn (Z.of_nat k + 1) ltac:(lia)) as (co' & p & Zk' & _ & _ & _ & (l & H1 & _) & qs & F & _).
    rewrite Zk in Zk'. injection Zk' as <-. split; [apply H1|]. intros j Hj. clear - F Hj. induction F as [|j0 q js qs (_ & l & H & _) F IH]; [easy|].
    destruct Hj as [<-|Hj]; auto. apply H. }
  split.
  - intros co I. destruct (Rg co I) as [Re _]. destruct (R4 _ Re) as (e & l & N & L & Ee & H1 & H2).
    assert (e = true) as -> by (apply Ee; eauto). exists l. rewrite En, Ex in H2. cbn [orb] in *. rewrite limited_all in H2 by auto. auto.
  - intros co j I Ij. destruct (Rg co I) as [_ Rj]. destruct (R4 _ (Rj j Ij)) as (e & l & N & L & Ee & H1 & H2).
    assert (e = false) as ->.
    { destruct e; auto. exfalso. destruct (proj1 Ee eq_refl) as (co' & I' & E').
      destruct (Ow j (Rj j Ij)) as (k & co0 & Zk & O & NB & Un).
      assert (forall co1, In co1 (lb_contours st1') -> j = co_ext co1 \/ In j (co_int co1) -> co1 = co0) as Same.
      { intros co1 I1 O1. apply In_nth_error in I1 as (m & Em).
        assert (znth (lb_contours st1') (Z.of_nat m + 1 - 1) = Some co1) as Zm.
        { unfold znth. replace (_ <? 0) with false by lia. now replace (Z.to_nat (Z.of_nat m + 1 - 1)) with m by lia. }
        pose proof (Un _ _ Zm O1) as <-. rewrite Zm in Zk. now injection Zk. }
      apply NB. rewrite <- (Same co' I' (or_introl (eq_sym E'))) at 1. rewrite <- (Same co I (or_intror Ij)). auto. }
    exists l. rewrite En, Ex, Es in H2. cbn [orb] in *. rewrite limited_all in H2 by auto. auto.
Qed.

Lemma labels_theorem fuel st g lab : used st -> label_args fuel g lab ->
  exists st' lab', process fuel st g lab = Ok (st', lab') /\
    g_width lab' = g_width g /\ g_height lab' = g_height g /\
    (forall p, inside g (fst p) (snd p) -> exists k, pixel lab' (fst p) (snd p) = Some k /\
       0 <= k <= zlen (lb_contours st') /\ (k = 0 <-> bg g p)) /\
    (forall p q k k', fg g p -> fg g q -> pixel lab' (fst p) (snd p) = Some k -> pixel lab' (fst q) (snd q) = Some k' ->
       (k = k' <-> blob (lb_rule st) g p q)) /\
    (forall k, 1 <= k <= zlen (lb_contours st') -> exists p, first_of (adj (lb_rule st)) (fg g) p /\
       pixel lab' (fst p) (snd p) = Some k) /\
    (forall p q k k', first_of (adj (lb_rule st)) (fg g) p -> first_of (adj (lb_rule st)) (fg g) q ->
       pixel lab' (fst p) (snd p) = Some k -> pixel lab' (fst q) (snd q) = Some k' -> (k < k' <-> before p q)).
Proof. intros U A. destruct (labels_lemma fuel st g lab U A) as (st' & lab' & E & _ & R). eauto. Qed.
Lemma never_fails fuel st g lab : used st -> label_args fuel g lab ->
  exists st' lab', process fuel st g lab = Ok (st', lab') /\ used st' /\
    (g_width lab = g_width g -> g_height lab = g_height g ->
       same_layout lab lab' /\ forall j, outside_window lab j -> znth (g_data lab') j = znth (g_data lab) j).
Proof.
  intros U A. destruct (labels_lemma fuel st g lab U A) as (st' & lab' & E & U' & _). exists st', lab'.
  split; [exact E|]. split; [exact U'|]. intros Ew Eh. exact (frame_lemma fuel st g lab st' lab' U A E Ew Eh).
Qed.

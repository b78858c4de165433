(** Lemmas about blobs and holes of related images. *)
From Coq Require Import Lia Sorted.
From Verif Require Import Base BaseFacts M_Image S_Image L_Image M_PackedSet S_PackedSet M_Contour S_Contour S_Walk L_Crack L_Cycle L_Hole L_Contour L_Walk L_ContourEx L_Redraw S_Stats S_Blobs.
From Verif Require L_OtsuImage L_Brightness2.
Open Scope Z_scope.

(** ** Lists of the blobs and of the holes *)
Lemma listed {A} (R : Z -> A -> Prop) n : (forall k, 1 <= k <= Z.of_nat n -> exists a, R k a) ->
  exists l, length l = n /\ (forall a, In a l -> exists k, 1 <= k <= Z.of_nat n /\ R k a) /\ (forall k, 1 <= k <= Z.of_nat n -> exists a, In a l /\ R k a) /\
    ((forall k k' a, R k a -> R k' a -> k = k') -> NoDup l).
Proof.
  induction n as [|n IH]; intros H.
  - exists []. split; [reflexivity|]. split; [intros a []|]. split; [intros; lia|constructor].
  - destruct IH as (l & L & I1 & I2 & D); [intros; apply H; lia|]. destruct (H (Z.of_nat (S n))) as (a & Ra); [lia|].
    exists (a :: l). split; [cbn; lia|]. split; [|split].
    + intros b [<-|Hb]; [exists (Z.of_nat (S n)); split; auto; lia|]. destruct (I1 b Hb) as (k & K & Rk). exists k. split; auto; lia.
    + intros k K. destruct (Z.eq_dec k (Z.of_nat (S n))) as [->|]; [exists a; split; [now left|auto]|].
      destruct (I2 k) as (b & Ib & Rb); [lia|]. exists b. split; [now right|auto].
    + intros U. constructor; auto. intros Ia. destruct (I1 a Ia) as (k & K & Rk). specialize (U _ _ _ Ra Rk). lia.
Qed.
Lemma blob_list fuel st g lab st' lab' : used st -> label_args fuel g lab -> process fuel st g lab = Ok (st', lab') ->
  exists fs, NoDup fs /\ zlen fs = blobs st' /\ forall p, In p fs <-> first_of (adj (lb_rule st)) (fg g) p.
Proof.
  intros U A E. destruct (labels_theorem fuel st g lab U A) as (s2 & l2 & E2 & W & H & P & Q & R & T). rewrite E in E2. injection E2 as <- <-.
  unfold blobs. set (n := zlen (lb_contours st')) in *. assert (N : 0 <= n) by (unfold n, zlen; lia).
  destruct (listed (fun k p => first_of (adj (lb_rule st)) (fg g) p /\ pixel lab' (fst p) (snd p) = Some k) (Z.to_nat n)) as (fs & L & I1 & I2 & D).
  { intros k K. apply R. lia. }
  exists fs. split; [apply D; intros k k' a (_ & X1) (_ & X2); congruence|]. split; [unfold zlen; lia|]. intros p. split.
  - intros Ip. destruct (I1 p Ip) as (k & K & F & _). exact F.
  - intros F. pose proof (proj1 F) as Fp. destruct (P p) as (k & Ek & Rk & Z0); [eapply pixel_Some; exact Fp|].
    assert (k <> 0) by (intros E0; apply Z0 in E0; apply E0; exact Fp). destruct (I2 k) as (q & Iq & Fq & Eq); [lia|].
    destruct (before_total p q) as [B|[->|B]]; auto; exfalso.
    + apply (T p q k k F Fq Ek Eq) in B. lia.
    + apply (T q p k k Fq F Eq Ek) in B. lia.
Qed.
Lemma sorted_nodup (l : list (point * bool)) : StronglySorted sooner l -> NoDup l.
Proof.
  induction 1 as [|a l S IH F]; constructor; auto. intros I. rewrite Forall_forall in F. specialize (F a I). destruct F as [B|(_ & B & B')]; [now apply before_irrefl in B|congruence].
Qed.
Lemma split_count (l : list (point * bool)) : length l = (length (filter snd l) + length (filter (fun s => negb (snd s)) l))%nat.
Proof. induction l as [|(p, []) l IH]; cbn; lia. Qed.
Lemma side_nodup (b : bool) (f : point * bool -> bool) l : (forall s, f s = true -> snd s = b) -> NoDup l -> NoDup (map fst (filter f l)).
Proof.
  intros F. induction 1 as [|(p, c) l N D IH]; cbn; [constructor|]. destruct (f (p, c)) eqn:E; auto. cbn. constructor; auto. intros I. apply in_map_iff in I as ((q, c') & <- & I).
  apply filter_In in I as (I & E'). apply F in E, E'. cbn in *. subst. contradiction.
Qed.
Lemma side_In (b : bool) (f : point * bool -> bool) l p : (forall s, f s = true <-> snd s = b) -> (In p (map fst (filter f l)) <-> In (p, b) l).
Proof.
  intros F. rewrite in_map_iff. split.
  - intros ((q, c) & <- & I). apply filter_In in I as (I & E). apply F in E. cbn in *. now subst.
  - intros I. exists (p, b). split; auto. apply filter_In. split; auto. now apply F.
Qed.
Lemma same_length (l l' : list point) : NoDup l -> NoDup l' -> (forall p, In p l <-> In p l') -> zlen l = zlen l'.
Proof. intros D D' I. unfold zlen. assert (length l = length l'); [|lia]. apply Nat.le_antisymm; apply NoDup_incl_length; auto; intros p; apply I. Qed.
Lemma hole_list fuel st g lab st' lab' : used st -> label_args fuel g lab -> process fuel st g lab = Ok (st', lab') ->
  exists hs, NoDup hs /\ zlen hs = holes st' /\ forall p, In p hs <-> begins (lb_rule st) g (p, false).
Proof.
  intros U A E. destruct (blob_list fuel st g lab st' lab' U A E) as (fs & D & L & I).
  destruct (order_lemma fuel st g lab st' lab' U A E) as (ss & S & B & C & _). apply sorted_nodup in S.
  exists (map fst (filter (fun s => negb (snd s)) ss)). split; [|split].
  - apply (side_nodup false); auto. intros (p, []); cbn; congruence.
  - assert (X : zlen (map fst (filter snd ss)) = zlen fs).
    { apply same_length; auto. { apply (side_nodup true); auto. } intros p. rewrite I, (side_In true), B; [reflexivity|]. intros (q, []); cbn; intuition congruence. }
    unfold holes. fold (blobs st'). rewrite C, <- L, <- X. unfold zlen. rewrite !map_length. rewrite (split_count ss). lia.
  - intros p. rewrite (side_In false), B; [reflexivity|]. intros (q, []); cbn; intuition congruence.
Qed.

(** ** Rules, and more foreground *)
Lemma four_eight p q : adj4 p q -> adj8 p q.
Proof. unfold adj4, adj8. lia. Qed.
Lemma conn_more (a a' : point -> point -> Prop) (S S' : point -> Prop) p q : (forall u v, a u v -> a' u v) -> (forall u, S u -> S' u) -> conn a S p q -> conn a' S' p q.
Proof. intros H H'. induction 1; [constructor; auto|econstructor; eauto]. Qed.
Section Labels.
Variables (fuel : nat) (st : labeler) (g lab : gray Z) (st' : labeler) (lab' : gray Z).
Hypothesis U : used st.
Hypothesis A : label_args fuel g lab.
Hypothesis E : process fuel st g lab = Ok (st', lab').
Lemma label_of p : fg g p -> exists k, pixel lab' (fst p) (snd p) = Some k /\ 1 <= k <= blobs st'.
Proof.
  intros F. destruct (labels_theorem fuel st g lab U A) as (s2 & l2 & E2 & W & H & P & _). rewrite E in E2. injection E2 as <- <-.
  destruct (P p) as (k & Ek & Rk & Z0); [eapply pixel_Some; exact F|]. exists k. split; auto. unfold blobs.
  assert (k <> 0) by (intros E0; apply Z0 in E0; apply E0; exact F). lia.
Qed.
Lemma together_blob p q : fg g p -> fg g q -> (together lab' p q <-> blob (lb_rule st) g p q).
Proof.
  intros Fp Fq. destruct (label_of p Fp) as (k & Ek & _). destruct (label_of q Fq) as (k' & Ek' & _).
  destruct (labels_theorem fuel st g lab U A) as (s2 & l2 & E2 & W & H & P & Q & _). rewrite E in E2. injection E2 as <- <-.
  rewrite <- (Q p q k k' Fp Fq Ek Ek'). unfold together. rewrite Ek, Ek'. split; congruence.
Qed.
End Labels.
Lemma more_together fuel1 fuel2 st1 st2 g1 g2 lab1 lab2 st1' lab1' st2' lab2' : used st1 -> used st2 -> label_args fuel1 g1 lab1 -> label_args fuel2 g2 lab2 ->
  process fuel1 st1 g1 lab1 = Ok (st1', lab1') -> process fuel2 st2 g2 lab2 = Ok (st2', lab2') ->
  lb_rule st1 = Four \/ lb_rule st2 = Eight -> (forall p, fg g1 p -> fg g2 p) ->
  forall p q, fg g1 p -> fg g1 q -> together lab1' p q -> together lab2' p q.
Proof.
  intros U1 U2 A1 A2 E1 E2 R H p q Fp Fq T. apply (together_blob fuel1 st1 g1 lab1 st1' lab1') in T; auto.
  apply (together_blob fuel2 st2 g2 lab2 st2' lab2'); auto. unfold blob in *. revert T. apply conn_more; auto. intros u v.
  destruct (lb_rule st1), (lb_rule st2); cbn; auto using four_eight. destruct R; congruence.
Qed.
Lemma fewer_blobs fuel1 fuel2 st1 st2 g lab1 lab2 st1' lab1' st2' lab2' : used st1 -> used st2 -> label_args fuel1 g lab1 -> label_args fuel2 g lab2 ->
  process fuel1 st1 g lab1 = Ok (st1', lab1') -> process fuel2 st2 g lab2 = Ok (st2', lab2') -> lb_rule st1 = Four -> lb_rule st2 = Eight ->
  blobs st2' <= blobs st1'.
Proof.
  intros U1 U2 A1 A2 E1 E2 R1 R2. destruct (blob_list _ _ _ _ _ _ U1 A1 E1) as (l1 & D1 & <- & I1). destruct (blob_list _ _ _ _ _ _ U2 A2 E2) as (l2 & D2 & <- & I2).
  unfold zlen. apply inj_le. apply NoDup_incl_length; auto. intros p Ip. apply I2 in Ip as (F & B). apply I1. split; auto. intros q C. apply B.
  rewrite R1 in C. rewrite R2. revert C. apply conn_more; auto. apply four_eight.
Qed.

(** ** Symmetries *)
Lemma place_adj r s g p q : adj r p q -> adj r (place s g p) (place s g q).
Proof. destruct r, s; unfold adj, adj4, adj8, place; cbn [fst snd]; lia. Qed.
Lemma place_back s g h p : (match s with LeftRight => g_width h = g_width g | TopBottom => g_height h = g_height g | RowsColumns => True end) -> place s h (place s g p) = p.
Proof. destruct p as (x, y). destruct s; unfold place; cbn [fst snd]; intros H; f_equal; lia. Qed.
Lemma place_inv s g p : place s g (place s g p) = p.
Proof. apply place_back. now destruct s. Qed.
Lemma reflected_conn r s g h p q : reflected s g h -> (blob r h (place s g p) (place s g q) <-> blob r g p q).
Proof.
  intros R. unfold blob. split; intros C.
  - rewrite <- (place_inv s g p), <- (place_inv s g q). apply (conn_map (place s g) (adj r) (fg h)); auto.
    + intros u v. apply place_adj.
    + intros u Fu. apply R. now rewrite place_inv.
  - apply (conn_map (place s g) (adj r) (fg g)); auto.
    + intros u v. apply place_adj.
    + intros u Fu. now apply R.
Qed.
Lemma reflected_together s fuel1 fuel2 st1 st2 g1 g2 lab1 lab2 st1' lab1' st2' lab2' : used st1 -> used st2 -> label_args fuel1 g1 lab1 -> label_args fuel2 g2 lab2 ->
  process fuel1 st1 g1 lab1 = Ok (st1', lab1') -> process fuel2 st2 g2 lab2 = Ok (st2', lab2') -> lb_rule st1 = lb_rule st2 -> reflected s g1 g2 ->
  forall p q, fg g1 p -> fg g1 q -> (together lab2' (place s g1 p) (place s g1 q) <-> together lab1' p q).
Proof.
  intros U1 U2 A1 A2 E1 E2 R H p q Fp Fq. rewrite (together_blob fuel1 st1 g1 lab1 st1' lab1') by auto.
  rewrite (together_blob fuel2 st2 g2 lab2 st2' lab2') by (auto; now apply H). rewrite <- R. now apply reflected_conn.
Qed.
Lemma count_le (l : list Z) n : 0 <= n -> NoDup l -> (forall k, In k l -> 1 <= k <= n) -> zlen l <= n.
Proof.
  intros N D B. assert (X : (length l <= length (map Z.of_nat (seq 1 (Z.to_nat n))))%nat).
  { apply NoDup_incl_length; auto. intros k I. apply B in I. apply in_map_iff. exists (Z.to_nat k). split; [lia|]. apply in_seq. lia. }
  rewrite map_length, seq_length in X. unfold zlen. lia.
Qed.
Lemma nodup_map {A B} (f : A -> B) l : NoDup l -> (forall a b, In a l -> In b l -> f a = f b -> a = b) -> NoDup (map f l).
Proof.
  induction 1 as [|a l N D IH]; intros H; cbn; constructor.
  - intros I. apply in_map_iff in I as (b & E & I). apply H in E; [|now right|now left]. congruence.
  - apply IH. intros; apply H; auto; now right.
Qed.
Lemma reflected_le fuel1 fuel2 st1 st2 g1 g2 lab1 lab2 st1' lab1' st2' lab2' : used st1 -> used st2 -> label_args fuel1 g1 lab1 -> label_args fuel2 g2 lab2 ->
  process fuel1 st1 g1 lab1 = Ok (st1', lab1') -> process fuel2 st2 g2 lab2 = Ok (st2', lab2') -> lb_rule st1 = lb_rule st2 ->
  forall f, (forall p, fg g1 p -> fg g2 (f p)) -> (forall p q, fg g1 p -> fg g1 q -> blob (lb_rule st1) g2 (f p) (f q) -> blob (lb_rule st1) g1 p q) ->
  blobs st1' <= blobs st2'.
Proof.
  intros U1 U2 A1 A2 E1 E2 R f F B. destruct (blob_list _ _ _ _ _ _ U1 A1 E1) as (l & D & <- & I).
  set (k := fun p : point => match pixel lab2' (fst (f p)) (snd (f p)) with Some k => k | None => 0 end).
  assert (K : forall p, In p l -> pixel lab2' (fst (f p)) (snd (f p)) = Some (k p) /\ 1 <= k p <= blobs st2').
  { intros p Ip. apply I in Ip as (Fp & _). destruct (label_of fuel2 st2 g2 lab2 st2' lab2' U2 A2 E2 (f p)) as (j & Ej & Rj); auto. unfold k. rewrite Ej. auto. }
  rewrite <- (zlen_map k l). apply count_le.
  - unfold blobs, zlen. lia.
  - apply nodup_map; auto. intros p q Ip Iq E. destruct (K p Ip) as (K1 & _). destruct (K q Iq) as (K2 & _). apply I in Ip, Iq.
    apply (first_unique (adj_sym (lb_rule st1)) Ip Iq). apply B; try apply Ip; try apply Iq.
    rewrite R. apply (together_blob fuel2 st2 g2 lab2 st2' lab2'); auto; try (apply F; apply Ip); try (apply F; apply Iq). unfold together. congruence.
  - intros j J. apply in_map_iff in J as (p & <- & Ip). apply K; auto.
Qed.
Lemma reflected_blobs s fuel1 fuel2 st1 st2 g1 g2 lab1 lab2 st1' lab1' st2' lab2' : used st1 -> used st2 -> label_args fuel1 g1 lab1 -> label_args fuel2 g2 lab2 ->
  process fuel1 st1 g1 lab1 = Ok (st1', lab1') -> process fuel2 st2 g2 lab2 = Ok (st2', lab2') -> lb_rule st1 = lb_rule st2 -> reflected s g1 g2 ->
  blobs st2' = blobs st1'.
Proof.
  intros U1 U2 A1 A2 E1 E2 R H. apply Z.le_antisymm.
  - apply (reflected_le fuel2 fuel1 st2 st1 g2 g1 lab2 lab1 st2' lab2' st1' lab1' U2 U1 A2 A1 E2 E1 (eq_sym R) (place s g1)).
    + intros p Fp. apply H. now rewrite place_inv.
    + intros p q Fp Fq B. rewrite <- (place_inv s g1 p), <- (place_inv s g1 q). now apply (reflected_conn _ s g1 g2).
  - apply (reflected_le fuel1 fuel2 st1 st2 g1 g2 lab1 lab2 st1' lab1' st2' lab2' U1 U2 A1 A2 E1 E2 R (place s g1)).
    + intros p Fp. now apply H.
    + intros p q Fp Fq B. now apply (reflected_conn _ s g1 g2) in B.
Qed.

(** ** The inverse image *)
Lemma side_adj r p q : adj4 p q -> adj_bg r p q.
Proof. destruct r; cbn; auto using four_eight. Qed.
Lemma dual_adj r : adj (dual r) = adj_bg r.
Proof. now destruct r. Qed.
Section Inverse.
Variables (r : crule) (g h : gray Z).
Hypothesis Fr : framed g.
Hypothesis Hw : 0 < g_width g.
Hypothesis Hh : 0 < g_height g.
Hypothesis Inv : inverted g h.
Let F := fg h.
Let a := adj_bg r.
Lemma inv_fg p : F p <-> inside g (fst p) (snd p) /\ bg g p.
Proof.
  destruct Inv as (W & H & I). unfold F. split.
  - intros P. assert (N : inside g (fst p) (snd p)) by (pose proof (pixel_Some _ _ _ _ P) as X; unfold inside in *; lia). split; auto. now apply I.
  - intros (N & B). now apply I.
Qed.
Definition on_edge (p : point) : Prop := inside g (fst p) (snd p) /\ (fst p = 0 \/ fst p = g_width g - 1 \/ snd p = 0 \/ snd p = g_height g - 1).
Lemma edge_fg p : on_edge p -> F p.
Proof. intros (N & C). apply inv_fg. split; auto. intros P. apply Fr in P. lia. Qed.
Lemma row_conn y n : (forall i, 0 <= i <= Z.of_nat n -> F (i, y)) -> conn a F (Z.of_nat n, y) (0, y).
Proof.
  induction n as [|n IH]; intros H; [constructor; apply H; lia|]. eapply conn_trans; [|apply IH; intros; apply H; lia].
  econstructor; [constructor; apply H; lia| |apply H; lia]. apply side_adj. unfold adj4; cbn [fst snd]; lia.
Qed.
Lemma col_conn x n : (forall i, 0 <= i <= Z.of_nat n -> F (x, i)) -> conn a F (x, Z.of_nat n) (x, 0).
Proof.
  induction n as [|n IH]; intros H; [constructor; apply H; lia|]. eapply conn_trans; [|apply IH; intros; apply H; lia].
  econstructor; [constructor; apply H; lia| |apply H; lia]. apply side_adj. unfold adj4; cbn [fst snd]; lia.
Qed.
Lemma row_zero x y : on_edge (x, y) -> y = 0 \/ y = g_height g - 1 -> conn a F (x, y) (0, y).
Proof.
  intros (N & _) Y. unfold inside in N; cbn [fst snd] in N. replace x with (Z.of_nat (Z.to_nat x)) by lia. apply row_conn. intros i Hi. apply edge_fg. split; unfold inside; cbn [fst snd]; lia.
Qed.
Lemma col_zero x y : on_edge (x, y) -> x = 0 \/ x = g_width g - 1 -> conn a F (x, y) (x, 0).
Proof.
  intros (N & _) Y. unfold inside in N; cbn [fst snd] in N. replace y with (Z.of_nat (Z.to_nat y)) by lia. apply col_conn. intros i Hi. apply edge_fg. split; unfold inside; cbn [fst snd]; lia.
Qed.
Lemma edge_conn p : on_edge p -> conn a F p (0, 0).
Proof.
  destruct p as (x, y). intros O. pose proof O as (N & C). unfold inside in N; cbn [fst snd] in N, C.
  assert (X : x = 0 \/ x = g_width g - 1 \/ y = 0 \/ y = g_height g - 1) by lia. destruct X as [X|[X|X]].
  - rewrite X in *. apply col_zero; auto.
  - eapply conn_trans; [apply col_zero; auto|]. apply row_zero; auto. split; unfold inside; cbn [fst snd]; lia.
  - eapply conn_trans; [apply row_zero; auto|]. apply col_zero; auto. split; unfold inside; cbn [fst snd]; lia.
Qed.
Lemma step_near p q : a p q -> Z.abs (fst p - fst q) <= 1 /\ Z.abs (snd p - snd q) <= 1.
Proof. unfold a, adj_bg, adj4, adj8. destruct r; lia. Qed.
Lemma inverse_first x y : first_of a F (x, y) <-> (x, y) = (0, 0) \/ begins r g ((x, y - 1), false).
Proof.
  assert (Z0 : on_edge (0, 0)) by (split; unfold inside; cbn [fst snd]; lia). split.
  - intros (P & B). pose proof P as P'. apply inv_fg in P' as (N & Bp). unfold inside in N; cbn [fst snd] in N.
    destruct (Z.eq_dec y 0) as [->|Y].
    { left. destruct (Z.eq_dec x 0) as [->|X]; auto. exfalso. apply (B (0, 0)); [apply edge_conn; split; unfold inside; cbn [fst snd]; lia|]. right; cbn; lia. }
    right. cbn [begins fst snd]. replace (y - 1 + 1) with y by lia. split.
    { destruct (fg_decides g (x, y - 1)) as [Q|Q]; auto. exfalso. apply (B (x, y - 1)); [|left; cbn; lia].
      econstructor; [constructor; exact P| |]; [apply side_adj; unfold adj4; cbn [fst snd]; lia|]. apply inv_fg. split; auto. unfold inside; cbn [fst snd]; lia. }
    split; [exact Bp|]. intros q C. apply B. induction C as [|q q' C IH Aq S]; [now constructor|].
    destruct (inv_fg q) as (X & _). pose proof (conn_right IH) as Fq. apply X in Fq as (Nq & _).
    destruct (Z_lt_dec (fst q') 0) as [|H1]; [|destruct (Z_lt_dec (snd q') 0) as [|H2]; [|destruct (Z_lt_dec (fst q') (g_width g)) as [H3|]; [destruct (Z_lt_dec (snd q') (g_height g)) as [H4|]|]]].
    3: { econstructor; [exact IH|exact Aq|]. apply inv_fg. split; auto. unfold inside. lia. }
    all: exfalso; apply step_near in Aq; unfold inside in Nq; apply (B (0, 0)); [eapply conn_trans; [exact IH|]; apply edge_conn; split; [unfold inside; lia|lia]|left; cbn; lia].
  - intros [[= -> ->]|C].
    + split; [now apply edge_fg|]. intros q C. pose proof (conn_right C) as Fq. apply inv_fg in Fq as (N & _). unfold inside in N. intros [B|B]; cbn in B; lia.
    + cbn [begins fst snd] in C. destruct C as (Q & (Bp & B)). replace (y - 1 + 1) with y in * by lia. pose proof (Fr _ Q) as R. cbn [fst snd] in R.
      split; [apply inv_fg; split; [unfold inside; cbn [fst snd]; lia|exact Bp]|]. intros q C. apply B. revert C. apply conn_more; auto. intros u Fu. now apply inv_fg in Fu.
Qed.
End Inverse.
Lemma inverse_counts fuel1 fuel2 st1 st2 g h lab1 lab2 st1' lab1' st2' lab2' : used st1 -> used st2 -> label_args fuel1 g lab1 -> label_args fuel2 h lab2 ->
  process fuel1 st1 g lab1 = Ok (st1', lab1') -> process fuel2 st2 h lab2 = Ok (st2', lab2') -> lb_rule st2 = dual (lb_rule st1) ->
  framed g -> 0 < g_width g -> 0 < g_height g -> inverted g h -> blobs st2' = 1 + holes st1'.
Proof.
  intros U1 U2 A1 A2 E1 E2 R Fr Hw Hh Inv. destruct (blob_list _ _ _ _ _ _ U2 A2 E2) as (l & D & <- & I). destruct (hole_list _ _ _ _ _ _ U1 A1 E1) as (hs & D' & <- & I').
  set (down := fun p : point => (fst p, snd p + 1)). replace (1 + zlen hs) with (zlen ((0, 0) :: map down hs)) by (unfold zlen; cbn; rewrite map_length; lia).
  apply same_length; auto.
  - constructor.
    + intros J. apply in_map_iff in J as (p & E & J). apply I' in J as (Fp & _). injection E as X Y. apply Fr in Fp. lia.
    + apply nodup_map; auto. intros (x, y) (x', y') _ _ [= -> E]. f_equal. lia.
  - intros (x, y). rewrite I, R, dual_adj. rewrite (inverse_first (lb_rule st1) g h Fr Hw Hh Inv x y). cbn [In]. split; intros [E|E]; auto; right.
    + apply in_map_iff. exists (x, y - 1). split; [unfold down; cbn; f_equal; lia|now apply I'].
    + apply in_map_iff in E as ((x', y') & [= <- <-] & E). replace (y' + 1 - 1) with y' by lia. now apply I'.
Qed.

(** ** Holes of reflected images: the blobs of the inverse of the image with a frame *)
Definition is_fg (g : gray Z) (x y : Z) : bool := match pixel g x y with Some v => v =? 1 | None => false end.
Lemma is_fg_ok g x y : is_fg g x y = true <-> fg g (x, y).
Proof. unfold is_fg, fg; cbn [fst snd]. destruct (pixel g x y) as [v|]; [|split; congruence]. rewrite Z.eqb_eq. split; congruence. Qed.
Definition draw (w h : Z) (P : Z -> Z -> bool) : gray Z := pict w h (map (fun i => if P (i mod w) (i / w) then 1 else 0) (zrange (w * h))).
Lemma draw_fg w h P x y : 0 < w -> 0 < h -> (fg (draw w h P) (x, y) <-> 0 <= x < w /\ 0 <= y < h /\ P x y = true).
Proof.
  intros Hw Hh. unfold fg; cbn [fst snd]. assert (X : 0 <= x < w -> 0 <= y < h -> pixel (draw w h P) x y = Some (if P x y then 1 else 0)).
  { intros Hx Hy. unfold draw, pict, pixel, pos. cbn [g_width g_height g_offset g_stride g_data].
    replace ((0 <=? x) && (x <? w) && (0 <=? y) && (y <? h)) with true by (symmetry; rewrite !andb_true_iff; lia).
    rewrite znth_map. replace (0 + y * w + x) with (x + y * w) by lia. rewrite L_OtsuImage.znth_zrange by nia. cbn [option_map].
    now rewrite Z.mod_add, Z.div_add, Z.mod_small, Z.div_small by lia. }
  split.
  - intros E. pose proof (pixel_Some _ _ _ _ E) as N. unfold inside in N. cbn in N. rewrite X in E by lia. destruct (P x y); [|congruence]. split; [lia|]. split; [lia|reflexivity].
  - intros (Hx & Hy & E). now rewrite X, E.
Qed.
Lemma draw_args w h P : 0 < w -> 0 < h -> 4 * (w + 2) * (h + 2) < 4294967296 -> label_args (Z.to_nat (4 * w * h)) (draw w h P) lab0.
Proof.
  intros Hw Hh Hs. split; auto; try (cbn; nia); try (cbn; congruence).
  - unfold wf, draw, pict. cbn. unfold zlen. rewrite map_length, L_Brightness2.zrange_len. repeat split; try lia; try nia.
  - apply binary_data. apply forallb_forall. intros v I. apply in_map_iff in I as (i & <- & _). now destruct (P _ _).
  - apply wf_new; lia.
Qed.
Definition pad (g : gray Z) : gray Z := draw (g_width g + 2) (g_height g + 2) (fun x y => is_fg g (x - 1) (y - 1)).
Definition neg (g : gray Z) : gray Z := draw (g_width g + 2) (g_height g + 2) (fun x y => negb (is_fg g (x - 1) (y - 1))).
Section Pad.
Variables (g : gray Z).
Hypothesis W : wf g.
Let sizes : 0 <= g_width g /\ 0 <= g_height g.
Proof. unfold wf in W. lia. Qed.
Lemma pad_fg x y : fg (pad g) (x, y) <-> fg g (x - 1, y - 1).
Proof.
  unfold pad. rewrite draw_fg, is_fg_ok by lia. split; [tauto|]. intros F. pose proof (pixel_Some _ _ _ _ F) as N. unfold inside in N. cbn [fst snd] in N.
  split; [lia|]. split; [lia|exact F].
Qed.
Lemma pad_moved p : fg (pad g) (moved (1, 1) p) <-> fg g p.
Proof. destruct p as (x, y). unfold moved; cbn [fst snd]. rewrite pad_fg. now replace (x + 1 - 1) with x by lia; replace (y + 1 - 1) with y by lia. Qed.
Lemma pad_framed : framed (pad g).
Proof. intros (x, y) F. apply pad_fg in F. pose proof (pixel_Some _ _ _ _ F) as N. unfold inside in N. cbn [fst snd] in *. change (g_width (pad g)) with (g_width g + 2). change (g_height (pad g)) with (g_height g + 2). lia. Qed.
Lemma neg_inverted : inverted (pad g) (neg g).
Proof.
  split; [reflexivity|]. split; [reflexivity|]. intros (x, y) N. unfold inside in N. cbn [fst snd] in N. change (g_width (pad g)) with (g_width g + 2) in N.
  change (g_height (pad g)) with (g_height g + 2) in N. unfold bg. unfold neg. rewrite draw_fg by lia. rewrite pad_fg, <- is_fg_ok, negb_true_iff.
  destruct (is_fg g (x - 1) (y - 1)); intuition congruence.
Qed.
End Pad.
Lemma holes_inverse fuel st g lab st' lab' : used st -> label_args fuel g lab -> process fuel st g lab = Ok (st', lab') ->
  4 * (g_width g + 4) * (g_height g + 4) < 4294967296 ->
  exists s l, process (Z.to_nat (4 * (g_width g + 2) * (g_height g + 2))) (lb_new (dual (lb_rule st))) (neg g) lab0 = Ok (s, l) /\ blobs s = 1 + holes st'.
Proof.
  intros U A E Hs. pose proof (la_in _ _ _ A) as W. assert (0 <= g_width g /\ 0 <= g_height g) as (Hw & Hh) by (unfold wf in W; lia).
  assert (A1 : label_args (Z.to_nat (4 * (g_width g + 2) * (g_height g + 2))) (pad g) lab0) by (apply draw_args; lia).
  assert (A2 : label_args (Z.to_nat (4 * (g_width g + 2) * (g_height g + 2))) (neg g) lab0) by (apply draw_args; lia).
  destruct (labels_theorem _ _ _ _ (used_new (dual (lb_rule st))) A2) as (s & l & E2 & _). exists s, l. split; auto.
  destruct (labels_theorem _ _ _ _ U A1) as (s1 & l1 & E1 & _).
  destruct (moved_lemma _ _ _ _ _ _ (1, 1) _ _ _ _ _ _ U U eq_refl eq_refl eq_refl eq_refl A A1 (pad_moved g W) E E1) as (_ & C & P & _).
  assert (H : holes st' = holes s1) by (unfold holes; rewrite C, P; reflexivity). rewrite H.
  apply (inverse_counts _ _ _ _ _ _ _ _ _ _ _ _ U (used_new (dual (lb_rule st))) A1 A2 E1 E2); auto.
  - now apply pad_framed.
  - cbn. lia.
  - cbn. lia.
  - now apply neg_inverted.
Qed.
Lemma neg_reflected s g h : wf g -> wf h -> reflected_size s g h -> reflected s g h -> reflected s (neg g) (neg h).
Proof.
  intros Wg Wh Hs R (x, y). assert (0 <= g_width g /\ 0 <= g_height g) by (unfold wf in Wg; lia).
  assert (X : forall u v, is_fg h (fst (place s g (u, v))) (snd (place s g (u, v))) = is_fg g u v).
  { intros u v. specialize (R (u, v)). destruct (place s g (u, v)) as (u', v'). cbn [fst snd]. rewrite <- !is_fg_ok in R.
    destruct (is_fg h u' v'), (is_fg g u v); intuition congruence. }
  specialize (X (x - 1) (y - 1)). unfold neg. destruct s; cbn [place reflected_size fst snd draw pict g_width g_height] in *; destruct Hs as (S1 & S2); rewrite !draw_fg by lia; rewrite <- X.
  - replace (g_width g + 2 - 1 - x - 1) with (g_width g - 1 - (x - 1)) by lia. rewrite S1, S2. intuition lia.
  - replace (g_height g + 2 - 1 - y - 1) with (g_height g - 1 - (y - 1)) by lia. rewrite S1, S2. intuition lia.
  - rewrite S1, S2. intuition lia.
Qed.
Lemma reflected_holes s fuel1 fuel2 st1 st2 g1 g2 lab1 lab2 st1' lab1' st2' lab2' : used st1 -> used st2 -> label_args fuel1 g1 lab1 -> label_args fuel2 g2 lab2 ->
  process fuel1 st1 g1 lab1 = Ok (st1', lab1') -> process fuel2 st2 g2 lab2 = Ok (st2', lab2') -> lb_rule st1 = lb_rule st2 ->
  reflected_size s g1 g2 -> reflected s g1 g2 -> 4 * (g_width g1 + 4) * (g_height g1 + 4) < 4294967296 -> holes st2' = holes st1'.
Proof.
  intros U1 U2 A1 A2 E1 E2 R Hs H Hn. pose proof (la_in _ _ _ A1) as W1. pose proof (la_in _ _ _ A2) as W2.
  assert (Hn2 : 4 * (g_width g2 + 4) * (g_height g2 + 4) < 4294967296) by (destruct s; cbn in Hs; destruct Hs as (-> & ->); nia).
  destruct (holes_inverse _ _ _ _ _ _ U1 A1 E1 Hn) as (s1 & l1 & P1 & C1). destruct (holes_inverse _ _ _ _ _ _ U2 A2 E2 Hn2) as (s2 & l2 & P2 & C2).
  rewrite <- R in P2. assert (0 <= g_width g1 /\ 0 <= g_height g1) by (unfold wf in W1; lia). assert (0 <= g_width g2 /\ 0 <= g_height g2) by (unfold wf in W2; lia).
  assert (B : blobs s2 = blobs s1).
  { assert (A3 : label_args (Z.to_nat (4 * (g_width g1 + 2) * (g_height g1 + 2))) (neg g1) lab0) by (apply draw_args; lia).
    assert (A4 : label_args (Z.to_nat (4 * (g_width g2 + 2) * (g_height g2 + 2))) (neg g2) lab0) by (apply draw_args; lia).
    apply (reflected_blobs s _ _ _ _ _ _ _ _ _ _ _ _ (used_new (dual (lb_rule st1))) (used_new (dual (lb_rule st1))) A3 A4 P1 P2 eq_refl).
    now apply neg_reflected. }
  lia.
Qed.

(** ** Examples *)
Definition inv5 : gray Z := pict 5 5
  [1;1;1;1;1;
   1;0;0;0;1;
   1;0;1;0;1;
   1;0;0;0;1;
   1;1;1;1;1].
Definition diamond : gray Z := pict 5 5
  [0;0;0;0;0;
   0;0;1;0;0;
   0;1;0;1;0;
   0;0;1;0;0;
   0;0;0;0;0].
Definition diamond_inv : gray Z := pict 5 5
  [1;1;1;1;1;
   1;1;0;1;1;
   1;0;1;0;1;
   1;1;0;1;1;
   1;1;1;1;1].
Definition line3 : gray Z := pict 3 1 [1;0;1].
Definition wide : gray Z := pict 3 2 [1;0;0; 1;1;0].
Definition wide' : gray Z := pict 3 2 [0;0;1; 0;1;1].
Lemma args5 d : zlen d = 25 -> forallb (fun v => (v =? 0) || (v =? 1)) d = true -> label_args 100 (pict 5 5 d) lab0.
Proof. intros L F. apply (args_pict 5 5); try lia; try reflexivity; auto. apply wf_new; lia. Qed.
Ltac five x := assert (x = 0 \/ x = 1 \/ x = 2 \/ x = 3 \/ x = 4) as [->|[->|[->|[->| ->]]]] by lia.
Lemma ring_inverted : framed ring5 /\ inverted ring5 inv5.
Proof.
  split.
  - intros (x, y) F. pose proof (pixel_Some _ _ _ _ F) as N. unfold inside in N. cbn in N. cbn [fst snd] in *. change (g_width ring5) with 5. change (g_height ring5) with 5.
    assert (x = 0 \/ y = 0 \/ x = 4 \/ y = 4 \/ (1 <= x < 4 /\ 1 <= y < 4)) as [X|[X|[X|[X|X]]]] by lia; [..|lia]; exfalso; subst.
    + five y; vm_compute in F; congruence.
    + five x; vm_compute in F; congruence.
    + five y; vm_compute in F; congruence.
    + five x; vm_compute in F; congruence.
  - split; [reflexivity|]. split; [reflexivity|]. intros (x, y) N. unfold inside in N. cbn in N. unfold bg, fg. cbn [fst snd]. five x; five y; vm_compute; split; congruence.
Qed.
Lemma diamond_inverted : framed diamond /\ inverted diamond diamond_inv.
Proof.
  split.
  - intros (x, y) F. pose proof (pixel_Some _ _ _ _ F) as N. unfold inside in N. cbn in N. cbn [fst snd] in *. change (g_width diamond) with 5. change (g_height diamond) with 5.
    assert (x = 0 \/ y = 0 \/ x = 4 \/ y = 4 \/ (1 <= x < 4 /\ 1 <= y < 4)) as [X|[X|[X|[X|X]]]] by lia; [..|lia]; exfalso; subst.
    + five y; vm_compute in F; congruence.
    + five x; vm_compute in F; congruence.
    + five y; vm_compute in F; congruence.
    + five x; vm_compute in F; congruence.
  - split; [reflexivity|]. split; [reflexivity|]. intros (x, y) N. unfold inside in N. cbn in N. unfold bg, fg. cbn [fst snd]. five x; five y; vm_compute; split; congruence.
Qed.
Lemma same_rule_differs : exists fuel r g h lab st st' lab' lab'', label_args fuel g lab /\ label_args fuel h lab /\ framed g /\ inverted g h /\ 0 < g_width g /\ 0 < g_height g /\
  process fuel (lb_new r) g lab = Ok (st, lab') /\ process fuel (lb_new r) h lab = Ok (st', lab'') /\ blobs st' <> 1 + holes st.
Proof.
  exists 100%nat, Eight, diamond, diamond_inv, lab0. eexists _, _, _, _. split; [apply args5; reflexivity|]. split; [apply args5; reflexivity|].
  destruct diamond_inverted as (F & I). split; [exact F|]. split; [exact I|]. do 2 (split; [vm_compute; reflexivity|]). do 2 (split; [vm_compute; reflexivity|]). vm_compute. congruence.
Qed.
Lemma no_frame_differs : exists fuel r g h lab st st' lab' lab'', label_args fuel g lab /\ label_args fuel h lab /\ inverted g h /\ 0 < g_width g /\ 0 < g_height g /\
  process fuel (lb_new r) g lab = Ok (st, lab') /\ process fuel (lb_new (dual r)) h lab = Ok (st', lab'') /\ blobs st' <> 1 + holes st.
Proof.
  exists 4%nat, Four, (pict 1 1 [1]), (pict 1 1 [0]), lab0. eexists _, _, _, _.
  do 2 (split; [apply (args_pict 1 1); try lia; try reflexivity; apply wf_new; lia|]). split.
  { split; [reflexivity|]. split; [reflexivity|]. intros (x, y) N. unfold inside in N. cbn in N. assert (x = 0) as -> by lia. assert (y = 0) as -> by lia. unfold bg, fg. vm_compute. split; congruence. }
  do 2 (split; [vm_compute; reflexivity|]). do 2 (split; [vm_compute; reflexivity|]). vm_compute. congruence.
Qed.
Lemma numbers_differ : exists fuel r s g h lab st st' lab' lab'' p, label_args fuel g lab /\ label_args fuel h lab /\ reflected_size s g h /\ reflected s g h /\
  process fuel (lb_new r) g lab = Ok (st, lab') /\ process fuel (lb_new r) h lab = Ok (st', lab'') /\ fg g p /\
  pixel lab'' (fst (place s g p)) (snd (place s g p)) <> pixel lab' (fst p) (snd p).
Proof.
  exists 12%nat, Four, LeftRight, line3, line3, lab0. eexists _, _, _, _, (0, 0).
  do 2 (split; [apply (args_pict 3 1); try lia; try reflexivity; apply wf_new; lia|]). split; [split; reflexivity|]. split.
  { intros (x, y). unfold place; cbn [fst snd]. change (g_width line3) with 3. assert (C : forall u v, fg line3 (u, v) <-> v = 0 /\ (u = 0 \/ u = 2)).
    { intros u v. split.
      - intros F. pose proof (pixel_Some _ _ _ _ F) as N. unfold inside in N. cbn in N. assert (v = 0) as -> by lia. split; auto.
        assert (u = 0 \/ u = 1 \/ u = 2) as [->|[->| ->]] by lia; auto. vm_compute in F. congruence.
      - intros (-> & [->| ->]); reflexivity. }
    rewrite !C. lia. }
  do 2 (split; [vm_compute; reflexivity|]). split; [reflexivity|]. vm_compute. congruence.
Qed.
Lemma wide_reflected : label_args 24 wide lab0 /\ label_args 24 wide' lab0 /\ reflected_size LeftRight wide wide' /\ reflected LeftRight wide wide'.
Proof.
  do 2 (split; [apply (args_pict 3 2); try lia; try reflexivity; apply wf_new; lia|]). split; [split; reflexivity|].
  intros (x, y). unfold place; cbn [fst snd]. change (g_width wide) with 3.
  assert (C : forall u v, fg wide (u, v) <-> u = 0 /\ (v = 0 \/ v = 1) \/ u = 1 /\ v = 1).
  { intros u v. split.
    - intros F. pose proof (pixel_Some _ _ _ _ F) as N. unfold inside in N. cbn in N.
      assert (u = 0 \/ u = 1 \/ u = 2) as [->|[->| ->]] by lia; assert (v = 0 \/ v = 1) as [->| ->] by lia; auto; vm_compute in F; congruence.
    - intros [(-> & [->| ->])|(-> & ->)]; reflexivity. }
  assert (C' : forall u v, fg wide' (u, v) <-> u = 2 /\ (v = 0 \/ v = 1) \/ u = 1 /\ v = 1).
  { intros u v. split.
    - intros F. pose proof (pixel_Some _ _ _ _ F) as N. unfold inside in N. cbn in N.
      assert (u = 0 \/ u = 1 \/ u = 2) as [->|[->| ->]] by lia; assert (v = 0 \/ v = 1) as [->| ->] by lia; auto; vm_compute in F; congruence.
    - intros [(-> & [->| ->])|(-> & ->)]; reflexivity. }
  rewrite C, C'. lia.
Qed.

(** Loops that fill parts of an image window. *)
From Verif Require Import BaseFacts M_Image S_Image L_Image.

Section W.
Context {A : Type}.
Variable o : gray A.
Variable F : Z -> Z -> option A.
Hypothesis Ho : wf o.

(** Writes of [F] at the pixels selected by [P]. *)
Definition win (P : Z -> Z -> Prop) : Z -> A -> Prop :=
  fun j v => exists x y, inside o x y /\ P x y /\ j = pos o x y /\ F x y = Some v.

Lemma win_put d x y v d' : F x y = Some v -> inside o x y ->
  bset d (pos o x y) v = Ok d' -> writes d (win (fun x' y' => x' = x /\ y' = y)) d'.
Proof.
  intros E Hi H. apply writes_single in H. eapply writes_iff; [|exact H]. intros j w; split.
  - intros [-> ->]. exists x, y. auto.
  - intros (x' & y' & _ & [-> ->] & -> & E'). split; congruence.
Qed.
Lemma win_iff d d' (P Q : Z -> Z -> Prop) : (forall x y, inside o x y -> P x y <-> Q x y) ->
  writes d (win P) d' -> writes d (win Q) d'.
Proof.
  intros E. apply writes_iff. intros j v; split; intros (x & y & Hi & Hp & R); exists x, y; split; auto; split; auto;
    now apply E.
Qed.
Lemma win_seq d d1 d2 P Q : writes d (win P) d1 -> writes d1 (win Q) d2 ->
  writes d (win (fun x y => P x y \/ Q x y)) d2.
Proof.
  intros H1 H2. eapply writes_iff; [|eapply writes_compose; eauto]. intros j v; split.
  - intros [(x & y & Hi & Hp & R)|(x & y & Hi & Hp & R)]; exists x, y; split; auto.
  - intros (x & y & Hi & [Hp|Hp] & R); [left|right]; exists x, y; auto.
Qed.
Lemma win_loop (P : Z -> Z -> Z -> Prop) lo hi body d :
  zlen d = zlen (g_data o) ->
  (forall i d, lo <= i < hi -> zlen d = zlen (g_data o) -> exists d', body i d = Ok d' /\ writes d (win (P i)) d') ->
  exists d', for_range lo hi body d = Ok d' /\ zlen d' = zlen (g_data o) /\
             writes d (win (fun x y => exists i, lo <= i < hi /\ P i x y)) d'.
Proof.
  intros L H. destruct (for_range_writes (zlen (g_data o)) (fun i => win (P i)) lo hi body d) as (d' & E & W); auto.
  exists d'. split; auto. split; [destruct W; lia|]. eapply writes_iff; [|exact W]. intros j v; split.
  - intros (i & Hi & x & y & Hin & Hp & R). exists x, y; split; auto. split; eauto.
  - intros (x & y & Hin & (i & Hi & Hp) & R). exists i; split; auto. exists x, y; auto.
Qed.
(** One row, columns [lo,hi). *)
Lemma win_row y lo hi body d :
  zlen d = zlen (g_data o) ->
  (forall x d, lo <= x < hi -> zlen d = zlen (g_data o) ->
     inside o x y /\ exists v, F x y = Some v /\ body x d = bset d (pos o x y) v) ->
  exists d', for_range lo hi body d = Ok d' /\ zlen d' = zlen (g_data o) /\
             writes d (win (fun x' y' => y' = y /\ lo <= x' < hi)) d'.
Proof.
  intros L H. destruct (win_loop (fun x x' y' => x' = x /\ y' = y) lo hi body d) as (d' & E & L' & W); auto.
  - intros x d0 Hx L0. destruct (H x d0 Hx L0) as (Hi & v & Fv & E). rewrite E.
    destruct (bset_exists d0 (pos o x y) v) as (d1 & E1 & L1 & _).
    { rewrite L0. apply wf_pos; auto. }
    exists d1; split; auto. eapply win_put; eauto.
  - exists d'. split; auto. split; auto. eapply win_iff; [|exact W]. intros x' y' _; split.
    + intros (i & Hi & -> & ->); auto.
    + intros [-> Hx]. exists x'; auto.
Qed.
(** One column, rows [lo,hi). *)
Lemma win_col x lo hi body d :
  zlen d = zlen (g_data o) ->
  (forall y d, lo <= y < hi -> zlen d = zlen (g_data o) ->
     inside o x y /\ exists v, F x y = Some v /\ body y d = bset d (pos o x y) v) ->
  exists d', for_range lo hi body d = Ok d' /\ zlen d' = zlen (g_data o) /\
             writes d (win (fun x' y' => x' = x /\ lo <= y' < hi)) d'.
Proof.
  intros L H. destruct (win_loop (fun y x' y' => x' = x /\ y' = y) lo hi body d) as (d' & E & L' & W); auto.
  - intros y d0 Hx L0. destruct (H y d0 Hx L0) as (Hi & v & Fv & E). rewrite E.
    destruct (bset_exists d0 (pos o x y) v) as (d1 & E1 & L1 & _).
    { rewrite L0. apply wf_pos; auto. }
    exists d1; split; auto. eapply win_put; eauto.
  - exists d'. split; auto. split; auto. eapply win_iff; [|exact W]. intros x' y' _; split.
    + intros (i & Hi & -> & ->); auto.
    + intros [-> Hx]. exists y'; auto.
Qed.

Lemma win_pixel d d' P x y : writes d (win P) d' -> inside o x y -> P x y -> (exists v, F x y = Some v) ->
  pixel (with_data o d') x y = F x y.
Proof.
  intros [L Hw] Hi HP (v & Fv). rewrite pixel_inside by auto. change (pos (with_data o d') x y) with (pos o x y).
  change (g_data (with_data o d')) with d'.
  destruct (Hw (pos o x y)) as [(w & (x' & y' & Hi' & HP' & Ep & E') & E)|(N & _)].
  - destruct (pos_inj o x y x' y') as [-> ->]; auto. congruence.
  - exfalso. apply (N v). exists x, y; auto.
Qed.
Lemma win_keep d d' P x y : writes d (win P) d' -> inside o x y -> ~ P x y ->
  pixel (with_data o d') x y = pixel (with_data o d) x y.
Proof.
  intros [L Hw] Hi HP. rewrite !pixel_inside by auto. change (pos (with_data o d') x y) with (pos o x y).
  change (pos (with_data o d) x y) with (pos o x y).
  change (g_data (with_data o d')) with d'. change (g_data (with_data o d)) with d.
  destruct (Hw (pos o x y)) as [(w & (x' & y' & Hi' & HP' & Ep & E') & E)|(N & E)]; auto.
  destruct (pos_inj o x y x' y') as [-> ->]; auto. contradiction.
Qed.
Lemma win_frame d d' P j : writes d (win P) d' -> outside_window o j -> znth d' j = znth d j.
Proof.
  intros [L Hw] Hj. destruct (Hw j) as [(v & (x & y & Hi & _ & Ep & _) & _)|(_ & E)]; auto.
  exfalso. now apply (Hj x y).
Qed.
End W.

(** Loops that also carry a state. *)
Section WS.
Context {A T : Type}.
Variable o : gray A.
Variable F : Z -> Z -> option A.
Hypothesis Ho : wf o.

Lemma win_state_loop (P : Z -> Z -> Z -> Prop) (Inv : Z -> T -> Prop) lo hi body s d :
  lo <= hi -> zlen d = zlen (g_data o) -> Inv lo s ->
  (forall i s d, lo <= i < hi -> Inv i s -> zlen d = zlen (g_data o) ->
     exists s' d', body i (s, d) = Ok (s', d') /\ Inv (i + 1) s' /\ writes d (win o F (P i)) d') ->
  exists s' d', for_range lo hi body (s, d) = Ok (s', d') /\ Inv hi s' /\ zlen d' = zlen (g_data o) /\
             writes d (win o F (fun x y => exists i, lo <= i < hi /\ P i x y)) d'.
Proof.
  intros Hle L I0 H.
  destruct (for_range_inv (fun i sd => Inv i (fst sd) /\ zlen (snd sd) = zlen (g_data o) /\
     writes d (win o F (fun x y => exists k, lo <= k < i /\ P k x y)) (snd sd)) lo hi body (s, d))
    as ((s' & d') & E & I' & L' & W); auto.
  - cbn. do 2 (split; auto). apply writes_none. intros j v (x & y & _ & (k & Hk & _) & _). lia.
  - intros i (s0 & d0) Hi (I1 & L1 & W1). cbn [fst snd] in *.
    destruct (H i s0 d0 Hi I1 L1) as (s2 & d2 & E2 & I2 & W2). exists (s2, d2). cbn [fst snd]. split; auto. split; auto.
    split; [destruct W2; lia|]. eapply win_iff; [|eapply win_seq; [exact W1|exact W2]].
    intros x y _; split.
    + intros [(k & Hk & X)|X]; [exists k|exists i]; split; auto; lia.
    + intros (k & Hk & X). destruct (Z.eq_dec k i) as [->|]; auto. left; exists k; split; auto; lia.
  - exists s', d'. auto.
Qed.
Lemma win_state_row (Inv : Z -> T -> Prop) y lo hi body s d :
  lo <= hi -> zlen d = zlen (g_data o) -> Inv lo s ->
  (forall x s d, lo <= x < hi -> Inv x s -> zlen d = zlen (g_data o) ->
     inside o x y /\ exists v s', F x y = Some v /\ Inv (x + 1) s' /\
       body x (s, d) = let* d' := bset d (pos o x y) v in Ok (s', d')) ->
  exists s' d', for_range lo hi body (s, d) = Ok (s', d') /\ Inv hi s' /\ zlen d' = zlen (g_data o) /\
             writes d (win o F (fun x' y' => y' = y /\ lo <= x' < hi)) d'.
Proof.
  intros Hle L I0 H.
  destruct (win_state_loop (fun x x' y' => x' = x /\ y' = y) Inv lo hi body s d) as (s' & d' & E & I' & L' & W); auto.
  - intros x s0 d0 Hx I1 L0. destruct (H x s0 d0 Hx I1 L0) as (Hi & v & s1 & Fv & I2 & E). rewrite E.
    destruct (bset_exists d0 (pos o x y) v) as (d1 & E1 & L1 & _).
    { rewrite L0. apply wf_pos; auto. }
    exists s1, d1. rewrite E1. split; auto. split; auto. eapply win_put; eauto.
  - exists s', d'. do 3 (split; auto). eapply win_iff; [|exact W]. intros x' y' _; split.
    + intros (i & Hi & -> & ->); auto.
    + intros [-> Hx]. exists x'; auto.
Qed.
End WS.

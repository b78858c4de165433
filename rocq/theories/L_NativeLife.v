(** Lemmas about settings of the contour finder and about the life of the objects behind Java's. *)
From Verif Require Import BaseFacts M_Image M_PackedSet M_Contour M_Jni M_Native S_Native L_Native.
Open Scope Z_scope.

(** ** Settings *)
Lemma set_other_rule lb o : o <> 0 -> o <> 1 -> nc_set lb (SetRule o) = Undef.
Proof. intros H0 H1. cbn. replace (o =? 0) with false by lia. now replace (o =? 1) with false by lia. Qed.
Lemma set_steps l : forall lb, Forall nc_valid l -> exists lb', nc_sets lb l = Ok lb' /\ settings lb' = fold_left set_step l (settings lb) /\
  lb_contours lb' = lb_contours lb /\ lb_pts lb' = lb_pts lb.
Proof.
  induction l as [|s l IH]; intros lb V; cbn [nc_sets fold_left].
  - exists lb. auto.
  - apply Forall_cons_iff in V as [Vs V].
    assert (exists lb1, nc_set lb s = Ok lb1 /\ settings lb1 = set_step (settings lb) s /\ lb_contours lb1 = lb_contours lb /\ lb_pts lb1 = lb_pts lb)
      as (lb1 & E1 & S1 & C1 & P1).
    { assert (X : forall n, -2147483648 <= n <= 2147483647 -> s32 (u32 n) = n) by (intros n Hn; rewrite s32_u32 by lia; reflexivity).
      destruct s as [b|n|n|o]; cbn in *; try (eexists; split; [reflexivity|]; cbn; unfold settings, nc_get_min, nc_get_max; cbn; rewrite ?X by auto; auto).
      destruct Vs as [-> | ->]; cbn; eexists; (split; [reflexivity|]); auto. }
    rewrite E1. cbn [bind]. destruct (IH lb1 V) as (lb' & E & S & C & P). exists lb'. split; auto. split; [congruence|]. split; congruence.
Qed.

Lemma process_settings fuel st g lab st' lab' : process fuel st g lab = Ok (st', lab') -> settings st' = settings st.
Proof.
  intros H. unfold process in H. repeat (apply bind_Ok in H as (? & _ & H)). now injection H as <- _.
Qed.
Lemma nc_settings grow q fuel F J b l F' J' l' : nc_process grow q fuel F J b l = Ok (F', J', l') -> settings (nc_lb F') = settings (nc_lb F).
Proof.
  intros H. unfold nc_process in H. apply bind_Ok in H as ([J1 l1] & _ & H). unfold uncaught in H. destruct (bind _ _) eqn:E in H; try discriminate.
  injection H as ->.
  apply bind_Ok in E as (? & _ & E). apply bind_Ok in E as (? & _ & E). apply bind_Ok in E as ([? ?] & _ & E). apply bind_Ok in E as ([? ?] & _ & E).
  apply bind_Ok in E as ([lb ?] & Ep & E). apply process_settings in Ep.
  repeat (apply bind_Ok in E as (? & _ & E)). injection E as <- _ _. exact Ep.
Qed.

(** ** Objects *)
Lemma nth_upd {A} (l : list A) : forall i j a, (i < length l)%nat -> nth_error (upd l i a) j = if Nat.eqb j i then Some a else nth_error l j.
Proof.
  induction l as [|x l IH]; cbn; intros i j a H; [lia|]. destruct i, j; cbn; auto. apply IH. lia.
Qed.
Section Life.
  Context (zeroes : bool).
  Definition ptr_of (gone : bool) (i : nat) : Z := if gone && zeroes then 0 else Z.of_nat i + 1.
  Definition linv (n : nat) (del : list nat) (N : natives) : Prop :=
    length (nt_cpp N) = n /\ length (nt_java N) = n /\ forall i, (i < n)%nat -> exists ty,
      (In i del /\ nth_error (nt_cpp N) i = Some None /\ nth_error (nt_java N) i = Some (ptr_of true i, ty)) \/
      (~ In i del /\ nth_error (nt_cpp N) i = Some (Some ty) /\ nth_error (nt_java N) i = Some (ptr_of false i, ty)).

  Lemma znth_nat {A} (l : list A) i : znth l (Z.of_nat i) = nth_error l i.
  Proof. unfold znth. replace (Z.of_nat i <? 0) with false by lia. now rewrite Nat2Z.id. Qed.

  Lemma life_new n del N b : linv n del N -> (forall i, In i del -> (i < n)%nat) -> exists N', nt_step zeroes N (JNew b) = Ok N' /\ linv (S n) del N'.
  Proof.
    intros (L1 & L2 & H) D. eexists. split; [reflexivity|]. split; [cbn; rewrite app_length; cbn; lia|]. split; [cbn; rewrite app_length; cbn; lia|].
    cbn. intros i Hi. destruct (Nat.eq_dec i n) as [->|Ne].
    - exists b. right. rewrite !nth_error_app2, L1, L2, Nat.sub_diag by lia. split; [intros X; apply D in X; lia|]. split; [reflexivity|].
      cbn. unfold zlen. rewrite L1. reflexivity.
    - rewrite !nth_error_app1 by lia. apply H. lia.
  Qed.
  Lemma life_use n del N i : linv n del N -> (i < n)%nat -> ~ In i del -> nt_step zeroes N (JUse i) = Ok N.
  Proof.
    intros (L1 & L2 & H) Hi Hd. destruct (H i Hi) as (ty & [(C & _)|(_ & E1 & E2)]); [contradiction|]. cbn. rewrite E2.
    cbn. replace (Z.of_nat i + 1 - 1) with (Z.of_nat i) by lia. unfold bget. rewrite znth_nat, E1. cbn. now rewrite Bool.eqb_reflx.
  Qed.
  Lemma life_delete n del N i : linv n del N -> (i < n)%nat -> (In i del -> zeroes = true) -> exists N', nt_destroy zeroes N i = Ok N' /\ linv n (i :: del) N'.
  Proof.
    intros (L1 & L2 & H) Hi Hd. unfold nt_destroy. destruct (H i Hi) as (ty & [(C & E1 & E2)|(C & E1 & E2)]).
    - rewrite E2, (Hd C). cbn. unfold ptr_of. cbn. eexists. split; [rewrite (Hd C); reflexivity|]. split; auto. split; [cbn; now rewrite upd_length|].
      intros j Hj. cbn [nt_cpp nt_java]. rewrite nth_upd by lia. destruct (Nat.eqb_spec j i) as [->|Ne].
      + exists ty. left. split; [now left|]. split; auto. unfold ptr_of. now rewrite (Hd C).
      + destruct (H j Hj) as (ty' & [(C' & X)|(C' & X)]); exists ty'; [left|right]; (split; [|exact X]); cbn; [tauto|]. intros [->|]; tauto.
    - rewrite E2. unfold cpp_delete, ptr_of. cbn [andb]. replace (Z.of_nat i + 1 =? 0) with false by lia.
      replace (Z.of_nat i + 1 - 1) with (Z.of_nat i) by lia. unfold bget. rewrite znth_nat, E1. cbn [bind]. rewrite Bool.eqb_reflx. cbn [bind].
      rewrite Nat2Z.id. eexists. split; [reflexivity|]. split; [cbn; now rewrite upd_length|]. split.
      { destruct zeroes; cbn; [now rewrite upd_length|auto]. }
      intros j Hj. cbn [nt_cpp nt_java]. rewrite nth_upd by lia. destruct (Nat.eqb_spec j i) as [->|Ne].
      + exists ty. left. split; [now left|]. split; auto. unfold ptr_of. cbn [andb]. destruct zeroes; [|exact E2]. rewrite nth_upd by lia. now rewrite Nat.eqb_refl.
      + assert (X : nth_error (if zeroes then upd (nt_java N) i (0, ty) else nt_java N) j = nth_error (nt_java N) j).
        { destruct zeroes; auto. rewrite nth_upd by lia. now destruct (Nat.eqb_spec j i). }
        rewrite X. destruct (H j Hj) as (ty' & [(C' & Y)|(C' & Y)]); exists ty'; [left|right]; (split; [|exact Y]); cbn; [tauto|]. intros [->|]; tauto.
  Qed.

  Definition news (l : list jop) : nat := length (filter (fun o => match o with JNew _ => true | _ => false end) l).

  Lemma life_run l : forall N n dead gone del, linv n del N -> (forall i, In i del -> (i < n)%nat) ->
    (forall i, In i del <-> In i dead \/ In i gone) -> java_order n dead l -> no_retype l ->
    (zeroes = true /\ unused_after_destroy gone l) \/ (zeroes = false /\ no_destroy l /\ gone = []) ->
    exists N', nt_run zeroes N l = Ok N' /\ length (nt_cpp N') = (n + news l)%nat /\ length (nt_java N') = (n + news l)%nat /\
      forall i, (i < n + news l)%nat -> (nth_error (nt_cpp N') i = Some None <-> In i del \/ In (JFinalize i) l \/ In (JDestroy i) l).
  Proof.
    induction l as [|o l IH]; intros N n dead gone del Iv Dn Dd Ord Ty Z; cbn [nt_run].
    { exists N. split; auto. destruct Iv as (L1 & L2 & H). cbn. rewrite Nat.add_0_r. split; auto. split; auto. intros i Hi.
      destruct (H i Hi) as (ty & [(C & E & _)|(C & E & _)]); rewrite E; split; intros X; try tauto; try discriminate. }
    assert (Ty' : no_retype l) by (intros i b X; apply (Ty i b); now right).
    destruct o as [b|i|i|i|i b].
    - destruct (life_new n del N b Iv Dn) as (N1 & E & I1). rewrite E. cbn [bind]. cbn in Ord.
      destruct (IH N1 (S n) dead gone del I1) as (N' & E' & L1 & L2 & H); auto.
      { intros i X. apply Dn in X. lia. }
      { destruct Z as [(Z1 & Z2)|(Z1 & Z2 & Z3)]; [left|right]; auto. split; auto. split; auto. intros i X. apply (Z2 i). now right. }
      exists N'. split; auto. unfold news in *. cbn. split; [lia|]. split; [lia|]. intros i Hi. rewrite H by lia.
      split; intros [X|[X|X]]; auto; destruct X as [X|X]; auto; discriminate.
    - cbn in Ord. destruct Ord as (Hi & Nd & Ord).
      assert (Ng : ~ In i del).
      { rewrite Dd. destruct Z as [(_ & Z2)|(_ & _ & ->)]; cbn in *; tauto. }
      rewrite (life_use n del N i Iv Hi Ng). cbn [bind].
      destruct (IH N n dead gone del Iv) as (N' & E' & L1 & L2 & H); auto.
      { destruct Z as [(Z1 & Z2)|(Z1 & Z2 & Z3)]; [left|right]; auto; [cbn in Z2; tauto|]. split; auto. split; auto. intros k X. apply (Z2 k). now right. }
      exists N'. split; auto. unfold news in *. cbn. split; [lia|]. split; [lia|]. intros k Hk. rewrite H by lia.
      split; intros [X|[X|X]]; auto; destruct X as [X|X]; auto; discriminate.
    - cbn in Ord. destruct Ord as (Hi & Nd & Ord). destruct Z as [(Z1 & Z2)|(Z1 & Z2 & Z3)]; [|exfalso; apply (Z2 i); now left].
      destruct (life_delete n del N i Iv Hi (fun _ => Z1)) as (N1 & E & I1). cbn [nt_step]. rewrite E. cbn [bind].
      destruct (IH N1 n dead (i :: gone) (i :: del) I1) as (N' & E' & L1 & L2 & H); auto.
      { intros k [<-|X]; auto. } { intros k. cbn. rewrite Dd. tauto. }
      exists N'. split; auto. unfold news in *. cbn. split; [lia|]. split; [lia|]. intros k Hk. rewrite H by lia. cbn.
      assert (JDestroy i = JDestroy k <-> i = k) by (split; [now intros [= ->]|now intros ->]).
      split; [intros [[X|X]|[X|X]]; auto; right; right; left; tauto|intros [X|[[X|X]|[X|X]]]; auto; [discriminate|tauto]].
    - cbn in Ord. destruct Ord as (Hi & Nd & Ord).
      destruct (life_delete n del N i Iv Hi) as (N1 & E & I1).
      { rewrite Dd. destruct Z as [(Z1 & _)|(_ & _ & ->)]; auto. cbn. tauto. }
      cbn [nt_step]. rewrite E. cbn [bind].
      destruct (IH N1 n (i :: dead) gone (i :: del) I1) as (N' & E' & L1 & L2 & H); auto.
      { intros k [<-|X]; auto. } { intros k. cbn. rewrite Dd. tauto. }
      { destruct Z as [(Z1 & Z2)|(Z1 & Z2 & Z3)]; [left|right]; auto. split; auto. split; auto. intros k X. apply (Z2 k). now right. }
      exists N'. split; auto. unfold news in *. cbn. split; [lia|]. split; [lia|]. intros k Hk. rewrite H by lia. cbn.
      assert (JFinalize i = JFinalize k <-> i = k) by (split; [now intros [= ->]|now intros ->]).
      split; [intros [[X|X]|[X|X]]; auto; right; left; left; tauto|intros [X|[[X|X]|[X|X]]]; auto; [tauto|discriminate]].
    - exfalso. apply (Ty i b). now left.
  Qed.
End Life.

Lemma life_start z : linv z 0 [] (mkNat [] []).
Proof. split; auto. split; auto. intros i Hi. lia. Qed.
Lemma finder_life l : java_order 0 [] l -> no_retype l -> unused_after_destroy [] l -> exists N, nt_run true (mkNat [] []) l = Ok N /\
  length (nt_cpp N) = objects l /\ forall i, (i < objects l)%nat -> (nth_error (nt_cpp N) i = Some None <-> In (JFinalize i) l \/ In (JDestroy i) l).
Proof.
  intros O T U. destruct (life_run true l (mkNat [] []) 0 [] [] [] (life_start true)) as (N & E & L & _ & H); auto; try easy; try (intros i; cbn; tauto).
  exists N. split; auto. split; [exact L|]. intros i Hi. rewrite H by exact Hi. cbn. tauto.
Qed.
Lemma filter_life l : java_order 0 [] l -> no_retype l -> no_destroy l -> exists N, nt_run false (mkNat [] []) l = Ok N /\
  length (nt_cpp N) = objects l /\ forall i, (i < objects l)%nat -> (nth_error (nt_cpp N) i = Some None <-> In (JFinalize i) l).
Proof.
  intros O T U. destruct (life_run false l (mkNat [] []) 0 [] [] [] (life_start false)) as (N & E & L & _ & H); auto; try easy; try (intros i; cbn; tauto).
  exists N. split; auto. split; [exact L|]. intros i Hi. rewrite H by exact Hi. cbn. specialize (U i). tauto.
Qed.

(** Lemmas about M_Loader.v. *)
From Coq Require Import String Ascii.
From Verif Require Import Base BaseFacts M_Loader S_Loader.
From Coq Require Import Lia.
Open Scope string_scope.

Lemma look_drop f p q : look (drop f p) q = if String.eqb q p then None else look f q.
Proof.
  unfold drop. induction f as [|[k e] f IH]; cbn; [now destruct (String.eqb q p)|].
  destruct (String.eqb_spec p k) as [->|N]; cbn.
  - rewrite IH. now destruct (String.eqb q k).
  - rewrite IH. destruct (String.eqb_spec q k) as [->|]; [|reflexivity].
    destruct (String.eqb_spec k p); congruence.
Qed.
Lemma look_put f p e q : look (put f p e) q = if String.eqb q p then Some e else look f q.
Proof. unfold put; cbn. rewrite look_drop. now destruct (String.eqb q p). Qed.
Lemma look_put_same f p e : look (put f p e) p = Some e.
Proof. now rewrite look_put, String.eqb_refl. Qed.
Lemma look_put_other f p e q : q <> p -> look (put f p e) q = look f q.
Proof. intros N. rewrite look_put. now destruct (String.eqb_spec q p). Qed.
Lemma look_drop_same f p : look (drop f p) p = None.
Proof. now rewrite look_drop, String.eqb_refl. Qed.
Lemma look_drop_other f p q : q <> p -> look (drop f p) q = look f q.
Proof. intros N. rewrite look_drop. now destruct (String.eqb_spec q p). Qed.

Lemma append_length a b : String.length (a ++ b) = (String.length a + String.length b)%nat.
Proof. induction a; cbn; auto. Qed.
Lemma below_not d q : below d q <> d.
Proof. intros E. apply (f_equal String.length) in E. unfold below in E. rewrite append_length in E. cbn in E. lia. Qed.
Lemma append_assoc a b c : (a ++ b) ++ c = a ++ (b ++ c).
Proof. induction a; cbn; congruence. Qed.
Lemma prefix_split a b : String.prefix a b = true -> exists c, b = a ++ c.
Proof.
  revert b. induction a as [|x a IH]; intros b H; [now exists b|]. destruct b as [|y b]; [discriminate|].
  cbn in H. destruct (ascii_dec x y) as [->|]; [|discriminate]. destruct (IH b H) as [c ->]. now exists c.
Qed.
Lemma prefix_below d q : String.prefix (below d "") q = true -> exists f, q = below d f.
Proof.
  intros H. apply prefix_split in H as [c ->]. exists c. unfold below. cbn [String.append]. now rewrite append_assoc.
Qed.
Lemma look_in f p e : In (p, e) f -> look f p <> None.
Proof.
  induction f as [|[k x] f IH]; cbn; [easy|]. intros [[= -> ->]|H].
  - now rewrite String.eqb_refl.
  - destruct (String.eqb p k); [easy|auto].
Qed.
Lemma hollow_ok f d : (forall q, look f (below d q) = None) -> hollow f d = true.
Proof.
  intros H. apply forallb_forall. intros [p e] I. cbn. destruct (String.prefix _ p) eqn:P; [|reflexivity].
  apply prefix_below in P as [q ->]. apply look_in in I. now rewrite H in I.
Qed.

Lemma look_delete s p q : look (s_files s) p <> Some Dir ->
  look (s_files (delete p s)) q = if String.eqb q p then None else look (s_files s) q.
Proof.
  intros D. unfold delete. destruct (look (s_files s) p) as [[b|]|] eqn:L; [|easy|].
  - cbn. apply look_drop.
  - destruct (String.eqb_spec q p) as [->|]; auto.
Qed.
Lemma delete_rest p s :
  s_exit (delete p s) = s_exit s /\ s_dir (delete p s) = s_dir s /\ s_name (delete p s) = s_name s /\
  s_loaded (delete p s) = s_loaded s /\ s_open (delete p s) = s_open s /\ s_err (delete p s) = s_err s /\
  s_clock (delete p s) = s_clock s.
Proof. unfold delete. destruct (look (s_files s) p) as [[b|]|]; try destruct (hollow _ _); cbn; auto 10. Qed.

(** Everything but the file [p] and the clock is as before. *)
Definition others (p : string) (s s' : st) : Prop :=
  s_exit s' = s_exit s /\ s_dir s' = s_dir s /\ s_name s' = s_name s /\ s_loaded s' = s_loaded s /\ s_err s' = s_err s /\
  (forall q, q <> p -> look (s_files s') q = look (s_files s) q).

Lemma pump_ok E p : forall fuel b s a, look (s_files s) p = Some (File a) -> (length b < fuel)%nat ->
  exists r s', pump E fuel p b s = (r, s') /\ others p s s' /\ s_open s' = s_open s /\
    (r = Val tt /\ look (s_files s') p = Some (File (a ++ b)%list) \/
     r = Raise IOException /\ (exists a', look (s_files s') p = Some (File a')) /\ ~ works E).
Proof.
  induction fuel as [|fuel IH]; intros b s a L F; [lia|].
  cbn [pump]. unfold jbind at 1, tick.
  destruct (e_read E (s_clock s)) as [want|] eqn:R.
  2:{ eexists _, _. split; [reflexivity|]. split; [unfold others; cbn; auto 10|]. split; [reflexivity|]. right.
      split; [reflexivity|]. split; [now exists a|]. intros W. destruct (W (s_clock s)) as (_ & _ & N & _). congruence. }
  destruct b as [|x b].
  { eexists _, _. split; [reflexivity|]. split; [unfold others; cbn; auto 10|]. split; [reflexivity|]. left.
    split; [reflexivity|]. cbn. now rewrite app_nil_r. }
  set (n := Z.to_nat _). unfold jbind at 1, tick. cbn [with_clock s_clock].
  destruct (e_write E (S (s_clock s))) eqn:W.
  2:{ eexists _, _. split; [reflexivity|]. split; [unfold others; cbn; auto 10|]. split; [reflexivity|]. right.
      split; [reflexivity|]. split; [now exists a|]. intros K. destruct (K (S (s_clock s))) as (_ & _ & _ & N). congruence. }
  unfold jbind, jdo. set (s1 := append p _ _).
  assert (L1 : look (s_files s1) p = Some (File (a ++ firstn n (x :: b))%list)).
  { unfold s1, append. cbn [with_files s_files with_clock]. rewrite look_put_same, L. reflexivity. }
  assert (n1 : (1 <= n)%nat) by (unfold n; lia).
  destruct (IH (skipn n (x :: b)) s1 _ L1) as (r & s' & P & O & OP & Q).
  { rewrite skipn_length. cbn [length] in *. lia. }
  exists r, s'. split; [exact P|]. split.
  { unfold others in *. destruct O as (-> & -> & -> & -> & -> & O). cbn. repeat split; auto.
    intros q N. rewrite O by exact N. unfold s1, append. cbn. now apply (look_put_other _ p _ q N). }
  split; [rewrite OP; reflexivity|].
  rewrite <- app_assoc, firstn_skipn in Q. exact Q.
Qed.

(** What [copy] does, after the resource was opened: [i] is null or a stream that is the only open one. *)
Lemma copy_ok E i p s : look (s_files s) p <> Some Dir ->
  match i with None => s_open s = [] | Some (k, _) => s_open s = [k] /\ (k < s_clock s)%nat end ->
  exists r s', copy E i p s = (r, s') /\ others p s s' /\ s_open s' = [] /\ look (s_files s') p <> Some Dir /\
    match i with
    | None => r = Raise NullPointer
    | Some (_, b) => r = Val tt /\ look (s_files s') p = Some (File b) \/ r = Raise IOException /\ ~ works E
    end.
Proof.
  intros D O. unfold copy, jfinally at 1, jbind at 1, open_file, jbind at 1, tick, jbind at 1, jget.
  set (t := s_clock s) in *. set (s1 := with_clock (S t) s). change (s_files s1) with (s_files s).
  assert (Fail : exists r s',
      match (@Raise unit IOException, s1) with
      | (r, s2) => match (match i with None => jraise NullPointer | Some (k, _) => close_id k end) s2 with
                   | (Val _, s3) => (r, s3) | (Raise e, s3) => (Raise e, s3) end
      end = (r, s') /\ others p s s' /\ s_open s' = [] /\ look (s_files s') p <> Some Dir /\
      match i with
      | None => r = Raise NullPointer
      | Some (_, b) => r = Raise IOException
      end).
  { destruct i as [[k b]|].
    - eexists _, _. split; [reflexivity|]. destruct O as [O K]. unfold others; cbn. rewrite O. cbn.
      rewrite Nat.eqb_refl. cbn. auto 15.
    - eexists _, _. split; [reflexivity|]. unfold others; cbn. auto 15. }
  assert (FailW : ~ works E -> exists r s',
      match (@Raise unit IOException, s1) with
      | (r, s2) => match (match i with None => jraise NullPointer | Some (k, _) => close_id k end) s2 with
                   | (Val _, s3) => (r, s3) | (Raise e, s3) => (Raise e, s3) end
      end = (r, s') /\ others p s s' /\ s_open s' = [] /\ look (s_files s') p <> Some Dir /\
      match i with
      | None => r = Raise NullPointer
      | Some (_, b) => r = Val tt /\ look (s_files s') p = Some (File b) \/ r = Raise IOException /\ ~ works E
      end).
  { intros W. destruct Fail as (r & s' & X1 & X2 & X3 & X4 & X5). exists r, s'. repeat (split; [assumption|]).
    destruct i as [[k b]|]; auto. }
  assert (NW : e_create E t = false -> ~ works E) by (intros C W; destruct (W t) as (_ & N & _); congruence).
  cbv beta iota.
  assert (Go : e_create E t = true -> exists r s',
     (let '(r, s2) := jfinally match i with None => jraise NullPointer | Some (_, b) => pump E (S (length b)) p b end (close_id t)
        (with_open (t :: s_open s1) (with_files (put (s_files s1) p (File [])) s1)) in
      match (match i with None => jraise NullPointer | Some (k, _) => close_id k end) s2 with
                   | (Val _, s3) => (r, s3) | (Raise e, s3) => (Raise e, s3) end) = (r, s') /\
      others p s s' /\ s_open s' = [] /\ look (s_files s') p <> Some Dir /\
      match i with
      | None => r = Raise NullPointer
      | Some (_, b) => r = Val tt /\ look (s_files s') p = Some (File b) \/ r = Raise IOException /\ ~ works E
      end).
  { intros _. set (s2 := with_open _ _).
    assert (L2 : look (s_files s2) p = Some (File [])) by (unfold s2; cbn [s_files with_open with_files]; apply look_put_same).
    assert (X2 : others p s s2).
    { unfold others; cbn. repeat split; auto. intros q N. now apply (look_put_other _ p _ q). }
    destruct i as [[k b]|].
    - destruct O as [O K]. destruct (pump_ok E p (S (length b)) b s2 [] L2) as (r & s3 & P & X3 & OP & Q); [lia|].
      unfold jfinally. rewrite P. cbn [close_id jdo]. unfold close_id, jdo.
      eexists _, _. split; [reflexivity|].
      assert (OO : s_open s3 = [t; k]) by (rewrite OP; cbn; now rewrite O).
      split; [|split; [|split]].
      + unfold others in *. cbn [with_open s_exit s_dir s_name s_loaded s_err s_files].
        destruct X2 as (A1 & A2 & A3 & A4 & A5 & A6), X3 as (B1 & B2 & B3 & B4 & B5 & B6).
        repeat split; try congruence. intros q N. rewrite B6, A6; auto.
      + cbn [with_open s_open]. rewrite OO. cbn. rewrite Nat.eqb_refl. cbn.
        destruct (Nat.eqb_spec t k); [lia|]. cbn. now rewrite Nat.eqb_refl.
      + cbn [with_open s_files]. destruct Q as [[_ ->]|(_ & (a' & ->) & _)]; easy.
      + cbn [with_open s_files]. destruct Q as [[-> ->]|(-> & _ & W)]; auto.
    - eexists _, _. split; [reflexivity|]. split; [|split; [|split]].
      + unfold others in *. cbn. exact X2.
      + cbn. rewrite O, Nat.eqb_refl. reflexivity.
      + cbn [with_open s_files]. rewrite L2. easy.
      + reflexivity. }
  destruct (look (s_files s) p) as [[b0|]|] eqn:LP; [|easy|].
  - destruct (e_create E t) eqn:C; [apply Go; reflexivity|apply FailW, NW; reflexivity].
  - destruct (e_create E t) eqn:C; [apply Go; reflexivity|apply FailW, NW; reflexivity].
Qed.

(** The process after any calls so far: what it made is in its directory and registered. *)
Definition inv (E : env) (s0 s : st) : Prop :=
  s_open s = [] /\
  match s_dir s with
  | None => s_exit s = [] /\ forall p, look (s_files s) p = look (s_files s0) p
  | Some d => exists r, s_exit s = d :: r /\ look (s_files s0) d = None /\ look (s_files s) d = Some Dir /\
      (exists n, d = below (e_tmp E) ("boofcpplibs" ++ e_nano E n)) /\ (e_posix E = true -> r = []) /\
      (forall x, In x r -> (exists f, x = below d f) /\ look (s_files s) x <> Some Dir) /\
      (forall p, p <> d -> ~ In p r -> look (s_files s) p = look (s_files s0) p)
  end.

Lemma existsb_in p l : existsb (String.eqb p) l = true <-> In p l.
Proof.
  rewrite existsb_exists. split; [intros (x & I & E); apply String.eqb_eq in E; now subst|].
  intros I. exists p. now rewrite String.eqb_refl.
Qed.

Lemma leave_ok E s0 s : rooted s0 -> inv E s0 s -> forall p, look (s_files (leave s)) p = look (s_files s0) p.
Proof.
  intros R [_ I] p. unfold leave. cbn [with_exit s_files]. destruct (s_dir s) as [d|].
  2:{ destruct I as [-> H]. apply H. }
  destruct I as (r & -> & N & D & _ & _ & F & S). cbn [fold_right].
  assert (G : forall l, incl l r -> forall q, look (s_files (fold_right delete s l)) q =
            if existsb (String.eqb q) l then None else look (s_files s) q).
  { induction l as [|x l IH]; intros L q; [reflexivity|]. cbn [fold_right existsb].
    assert (Lx : incl l r) by (intros y Y; apply L; now right). rewrite look_delete.
    - rewrite IH by exact Lx. destruct (String.eqb q x); reflexivity.
    - rewrite IH by exact Lx. destruct (existsb _ l); [easy|]. apply F, L. now left. }
  specialize (G r (incl_refl r)).
  assert (Dr : ~ In d r) by (intros X; destruct (F d X) as [[f Q] _]; symmetry in Q; now apply below_not in Q).
  assert (Gn : forall q, ~ In q r -> look (s_files (fold_right delete s r)) q = look (s_files s) q).
  { intros q X. rewrite G. destruct (existsb _ r) eqn:Q; [|reflexivity]. now apply existsb_in in Q. }
  assert (Gi : forall q, In q r -> look (s_files (fold_right delete s r)) q = None).
  { intros q X. rewrite G. apply existsb_in in X. now rewrite X. }
  unfold delete at 1. rewrite (Gn d Dr), D.
  rewrite hollow_ok.
  2:{ intros q. destruct (in_dec string_dec (below d q) r) as [X|X]; [now apply Gi|]. rewrite Gn, S; auto using below_not. }
  cbn [with_files s_files]. rewrite look_drop. destruct (String.eqb_spec p d) as [->|Np]; [congruence|].
  destruct (in_dec string_dec p r) as [X|X]; [|rewrite Gn, S; auto].
  rewrite Gi by exact X. destruct (F p X) as [[f ->] _]. now rewrite R.
Qed.

(** The path of a resource that [load_from_jar] looks at. *)
Definition proper (path : string) : bool :=
  String.prefix "/" path && Nat.ltb 1 (length (split_slash path)) &&
  negb (Nat.ltb (String.length (last (split_slash path) "")) 3).

(** What a call may do: [inv] goes on, and at most one library is linked. *)
Definition silent (s s' : st) : Prop := s_name s' = s_name s /\ s_err s' = s_err s.

(** Only the file [p] may have changed. *)
Definition moved (p : string) (s s' : st) : Prop :=
  s_exit s' = s_exit s /\ s_dir s' = s_dir s /\ (forall q, q <> p -> look (s_files s') q = look (s_files s) q).
Lemma moved_delete p s s' : moved p s s' -> look (s_files s') p <> Some Dir -> moved p s (delete p s').
Proof.
  intros (A & B & C) D. destruct (delete_rest p s') as (Z1 & Z2 & _). unfold moved. rewrite Z1, Z2. split; [exact A|].
  split; [exact B|]. intros q N. rewrite look_delete by exact D. destruct (String.eqb_spec q p); [contradiction|auto].
Qed.

Lemma inv_others E s0 s s' d f : rooted s0 -> inv E s0 s -> s_dir s = Some d -> moved (below d f) s s' -> s_open s' = [] ->
  look (s_files s') (below d f) = None -> inv E s0 s'.
Proof.
  intros R [_ I] D (E1 & E2 & O) OP L. split; [exact OP|]. rewrite E2, D in *.
  destruct I as (r & X1 & X2 & X3 & XN & XP & X4 & X5). exists r. rewrite E1. split; [exact X1|]. split; [exact X2|].
  split; [|split; [exact XN|split; [exact XP|split]]].
  - rewrite O; [exact X3|]. intros Q. symmetry in Q. now apply below_not in Q.
  - intros x I. destruct (X4 x I) as [F Nx]. split; [exact F|].
    destruct (string_dec x (below d f)) as [->|N]; [now rewrite L|now rewrite O].
  - intros p Np Nr. destruct (string_dec p (below d f)) as [->|N].
    + rewrite L. symmetry. now apply R.
    + rewrite O by exact N. now apply X5.
Qed.

Lemma inv_registered E s0 s s' d f : e_posix E = false -> inv E s0 s -> s_dir s = Some d -> moved (below d f) s s' -> s_open s' = [] ->
  look (s_files s') (below d f) <> Some Dir -> inv E s0 (delete_on_exit (below d f) s').
Proof.
  intros PX [_ I] D (E1 & E2 & O) OP L. unfold delete_on_exit.
  assert (G : forall l, incl (s_exit s') l -> In (below d f) l -> incl l (below d f :: s_exit s') ->
     (exists r, l = d :: r /\ incl r (below d f :: match s_exit s' with [] => [] | _ :: r => r end)) ->
     inv E s0 (with_exit l s')).
  { intros l I1 I2 I3 (r & -> & I4). split; [exact OP|]. cbn [with_exit s_dir s_exit s_files].
    rewrite E2, D in *. destruct I as (r0 & X1 & X2 & X3 & XN & _ & X4 & X5). rewrite E1, X1 in *. exists r.
    split; [reflexivity|]. split; [exact X2|]. split; [|split; [exact XN|split; [congruence|split]]].
    - rewrite O; [exact X3|]. intros Q. symmetry in Q. now apply below_not in Q.
    - intros x Ix. destruct (I4 x Ix) as [<-|Ir].
      + split; [now exists f|exact L].
      + destruct (X4 x Ir) as [F Nx]. split; [exact F|].
        destruct (string_dec x (below d f)) as [->|N]; [exact L|now rewrite O].
    - intros p Np Nr. destruct (string_dec p (below d f)) as [->|N].
      + destruct I2 as [Q|I2]; [symmetry in Q; now apply below_not in Q|contradiction].
      + rewrite O by exact N. apply X5; [exact Np|]. intros Ir. apply Nr.
        assert (In p (d :: r)) as [Q|?] by (apply I1; now right); [congruence|assumption]. }
  destruct (s_dir s) as [d'|] eqn:D'; [|discriminate]. injection D as ->.
  destruct I as (r0 & X1 & I).
  assert (E0 : s_exit s' = d :: r0) by congruence.
  destruct (existsb _ _) eqn:Q.
  - apply existsb_in in Q.
    replace s' with (with_exit (s_exit s') s') by (destruct s'; reflexivity).
    apply G; auto using incl_refl, incl_tl.
    exists r0. split; [exact E0|]. rewrite E0. apply incl_tl, incl_refl.
  - apply G.
    + apply incl_appl, incl_refl.
    + apply in_or_app. right. now left.
    + intros x Ix. apply in_app_or in Ix as [?|[<-|[]]]; [now right|now left].
    + exists (r0 ++ [below d f])%list. rewrite E0. split; [reflexivity|].
      intros x Ix. apply in_app_or in Ix as [?|[<-|[]]]; [now right|now left].
Qed.

Lemma load_from_jar_ok E s0 s path : rooted s0 -> inv E s0 s ->
  exists r s', load_from_jar E path s = (r, s') /\ inv E s0 s' /\ silent s s' /\
    if proper path then
      (r = Raise IOException /\ s_loaded s' = s_loaded s /\ (works E -> free_names E s0 -> e_jar E path = None)) \/
      (exists b, e_jar E path = Some b /\
         if e_links E b then r = Val tt /\ s_loaded s' = (s_loaded s ++ [b])%list
         else r = Raise LinkError /\ s_loaded s' = s_loaded s)
    else r = Raise IllegalArgument /\ s_loaded s' = s_loaded s.
Proof.
  intros R I. unfold load_from_jar, proper.
  destruct (String.prefix "/" path); cbn [negb andb].
  2:{ eexists _, _. split; [reflexivity|]. unfold silent; auto. }
  destruct (Nat.ltb 1 _); cbn [negb andb].
  2:{ eexists _, _. split; [reflexivity|]. unfold silent; auto. }
  set (f := last _ _). destruct (Nat.ltb (String.length f) 3); cbn [negb].
  { eexists _, _. split; [reflexivity|]. unfold silent; auto. }
  (* the directory *)
  unfold jbind at 1, jget at 1. unfold jbind at 1. cbv beta iota.
  set (mk := match s_dir s with Some d => jret d | None => _ end s).
  assert (M : (exists d s1, mk = (Val d, s1) /\ inv E s0 s1 /\ s_dir s1 = Some d /\ silent s s1 /\ s_loaded s1 = s_loaded s) \/
    (exists s1, mk = (Raise IOException, s1) /\ inv E s0 s1 /\ silent s s1 /\ s_loaded s1 = s_loaded s /\
       (works E -> free_names E s0 -> False))).
  { subst mk. destruct (s_dir s) as [d|] eqn:D.
    { left. exists d, s. unfold silent, jret. auto 10. }
    destruct I as [OP I]. rewrite D in I. destruct I as [X LK].
    unfold jbind, create_temp_directory, jbind, tick, jget. cbn [with_clock s_files].
    set (d := below _ _). destruct (look (s_files s) d) as [e|] eqn:L.
    - right. eexists. split; [reflexivity|]. unfold inv, silent; cbn. rewrite D. split; [auto|]. split; [auto|]. split; [auto|].
      intros _ Fr. specialize (Fr (s_clock s)). fold d in Fr. rewrite <- LK, L in Fr. discriminate.
    - destruct (e_mkdir E (s_clock s)) eqn:K.
      + left. eexists _, _. split; [reflexivity|]. unfold jdo, delete_on_exit, inv, silent; cbn. rewrite X. cbn.
        split; [|auto]. split; [exact OP|]. exists []. rewrite String.eqb_refl. split; [reflexivity|].
        split; [now rewrite <- LK|]. split; [reflexivity|]. split; [now exists (s_clock s)|]. split; [auto|]. split; [easy|]. intros p Np _.
        rewrite look_drop. destruct (String.eqb_spec p d); [congruence|]. apply LK.
      + right. eexists. split; [reflexivity|]. unfold inv, silent; cbn. rewrite D. split; [auto|]. split; [auto|].
        split; [auto|]. intros W _. destruct (W (s_clock s)) as [N _]. congruence. }
  destruct M as [(d & s1 & -> & I1 & D1 & [N1 R1] & L1)|(s1 & -> & I1 & S1 & L1 & W)].
  2:{ eexists _, _. split; [reflexivity|]. split; [exact I1|]. split; [exact S1|]. left. split; [reflexivity|].
      split; [exact L1|]. intros A B. destruct (W A B). }
  assert (ND : look (s_files s1) (below d f) <> Some Dir).
  { destruct I1 as [_ I1]. rewrite D1 in I1. destruct I1 as (r & X1 & X2 & X3 & _ & _ & X4 & X5).
    destruct (in_dec string_dec (below d f) r) as [Ir|Ir]; [now apply X4|].
    rewrite X5 by auto using below_not. rewrite R by exact X2. easy. }
  assert (OP1 : s_open s1 = []) by apply I1.
  (* the copy *)
  unfold jbind at 1, jtry, jbind at 1, open_resource.
  destruct (e_jar E path) as [b|] eqn:JR.
  - unfold jbind at 1, tick, jbind at 1, jdo at 1, jret at 1. cbv beta iota.
    set (s2 := with_open _ _). set (t := s_clock s1) in *.
    destruct (copy_ok E (Some (t, b)) (below d f) s2) as (r & s3 & C & O & OP & Nd & Q).
    { exact ND. }
    { unfold s2; cbn. rewrite OP1. split; [reflexivity|]. unfold t. lia. }
    unfold jfinally at 1. rewrite C. unfold close_id at 1, jdo at 1.
    set (s4 := with_open _ s3).
    assert (O4 : others (below d f) s1 s4) by exact O.
    assert (OP4 : s_open s4 = []) by (unfold s4; cbn; now rewrite OP).
    destruct Q as [[-> L3]|[-> W]].
    + (* loading *)
      unfold jfinally, system_load. change (s_files s4) with (s_files s3). rewrite L3.
      destruct O4 as (A1 & A2 & A3 & A4 & A5 & A6).
      set (s5 := if e_links E b then with_loaded (s_loaded s4 ++ [b])%list s4 else s4).
      assert (F5 : s_files s5 = s_files s3 /\ s_exit s5 = s_exit s4 /\ s_dir s5 = s_dir s4 /\ s_name s5 = s_name s4 /\
                   s_err s5 = s_err s4 /\ s_open s5 = []).
      { unfold s5. destruct (e_links E b); auto 10. }
      destruct F5 as (F5 & F6 & F7 & F8 & F9 & F10).
      assert (M5 : moved (below d f) s1 s5).
      { unfold moved. rewrite F5, F6, F7, A1, A2. auto. }
      assert (Fin : exists s6, (if e_posix E then jdo (delete (below d f)) else jdo (delete_on_exit (below d f))) s5 = (Val tt, s6) /\
                inv E s0 s6 /\ silent s s6 /\ s_loaded s6 = s_loaded s5).
      { destruct (e_posix E) eqn:PX.
        - eexists. split; [reflexivity|]. destruct (delete_rest (below d f) s5) as (Z1 & Z2 & Z3 & Z4 & Z5 & Z6 & _).
          assert (K : look (s_files s5) (below d f) <> Some Dir) by now rewrite F5, L3.
          split; [|split; [|exact Z4]].
          + apply (inv_others E s0 s1 _ d f R I1 D1).
            * now apply moved_delete.
            * congruence.
            * rewrite look_delete by exact K. now rewrite String.eqb_refl.
          + unfold silent. rewrite Z3, Z6. split; congruence.
        - eexists. split; [reflexivity|].
          assert (K : look (s_files s5) (below d f) <> Some Dir) by now rewrite F5, L3.
          split; [now apply (inv_registered E s0 s1 _ d f PX I1 D1)|].
          unfold delete_on_exit, silent. destruct (existsb _ _); cbn; split; try reflexivity; split; congruence. }
      destruct Fin as (s6 & Fin & I6 & S6 & L6).
      exists (if e_links E b then Val tt else Raise LinkError), s6. split.
      { unfold s5 in Fin. destruct (e_links E b); rewrite Fin; reflexivity. }
      split; [exact I6|]. split; [exact S6|]. right. exists b. split; [reflexivity|].
      rewrite L6. unfold s5. destruct (e_links E b); (split; [reflexivity|]).
      * rewrite <- L1, <- A4. reflexivity.
      * rewrite A4, L1. reflexivity.
    + unfold jbind, jdo, jraise. destruct O4 as (A1 & A2 & A3 & A4 & A5 & A6).
      destruct (delete_rest (below d f) s4) as (Z1 & Z2 & Z3 & Z4 & Z5 & Z6 & _).
      eexists _, _. split; [reflexivity|]. split; [|split; [|left; split; [reflexivity|split]]].
      * apply (inv_others E s0 s1 _ d f R I1 D1).
        -- apply moved_delete; [unfold moved; auto|exact Nd].
        -- congruence.
        -- rewrite look_delete by exact Nd. now rewrite String.eqb_refl.
      * unfold silent. rewrite Z3, Z6. split; congruence.
      * congruence.
      * intros X. contradiction.
  - unfold jret. cbv beta iota. unfold jfinally at 1.
    destruct (copy_ok E (@None stream) (below d f) s1 ND OP1) as (r & s4 & C & O & OP & Nd & ->).
    rewrite C. unfold jbind, jdo, jraise. destruct O as (A1 & A2 & A3 & A4 & A5 & A6).
    destruct (delete_rest (below d f) s4) as (Z1 & Z2 & Z3 & Z4 & Z5 & Z6 & _).
    eexists _, _. split; [reflexivity|]. split; [|split; [|left; split; [reflexivity|split]]].
    + apply (inv_others E s0 s1 _ d f R I1 D1).
      * apply moved_delete; [unfold moved; auto|exact Nd].
      * congruence.
      * rewrite look_delete by exact Nd. now rewrite String.eqb_refl.
    + unfold silent. rewrite Z3, Z6. split; congruence.
    + congruence.
    + reflexivity.
Qed.

(** The result of trying places in their order from [s]; [sp] has the files that count. *)
Definition found (E : env) (s0 sp s : st) (pl : list place) (r : res bool) (s' : st) : Prop :=
  inv E s0 s' /\ silent s s' /\
  ((r = Val false /\ s_loaded s' = s_loaded s /\
    (works E -> free_names E s0 -> forall q, In q pl -> at_place E sp q = None)) \/
   (exists l1 p l2 e, pl = (l1 ++ p :: l2)%list /\ at_place E sp p = Some e /\
      (works E -> free_names E s0 -> forall q, In q l1 -> at_place E sp q = None) /\
      if accepted E p e then r = Val true /\ exists b, e = File b /\ s_loaded s' = (s_loaded s ++ [b])%list
      else r = Raise LinkError /\ s_loaded s' = s_loaded s)).

Lemma found_or E s0 sp s pl ok s1 pl2 m :
  found E s0 sp s pl (Val ok) s1 ->
  (ok = false -> exists r s2, m s1 = (r, s2) /\ found E s0 sp s1 pl2 r s2) ->
  exists r s2, or_else ok m s1 = (r, s2) /\ found E s0 sp s (pl ++ pl2)%list r s2.
Proof.
  intros (I & [Sn Se] & F) M. destruct ok.
  - eexists _, _. split; [reflexivity|]. split; [exact I|]. split; [split; assumption|].
    destruct F as [(? & _)|(l1 & p & l2 & e & -> & P)]; [discriminate|]. right.
    exists l1, p, (l2 ++ pl2)%list, e. split; [now rewrite <- app_assoc|exact P].
  - unfold or_else. destruct (M eq_refl) as (r & s2 & -> & I2 & [Sn2 Se2] & F2). exists r, s2. split; [reflexivity|].
    split; [exact I2|]. split; [split; congruence|].
    destruct F as [(_ & L & A)|(l1 & p & l2 & e & _ & _ & _ & F)].
    2:{ destruct (accepted E p e); destruct F; discriminate. }
    rewrite L in F2. destruct F2 as [(-> & L2 & A2)|(l1 & p & l2 & e & -> & P1 & P2 & P3)].
    + left. split; [reflexivity|]. split; [exact L2|]. intros W Fr q Q. apply in_app_or in Q as [Q|Q]; auto.
    + right. exists (pl ++ l1)%list, p, l2, e. split; [now rewrite <- app_assoc|]. split; [exact P1|]. split; [|exact P3].
      intros W Fr q Q. apply in_app_or in Q as [Q|Q]; auto.
Qed.

Lemma found_res E s0 sp s pl r s' : found E s0 sp s pl r s' -> r = Raise LinkError \/ exists ok, r = Val ok.
Proof.
  intros (_ & _ & [(-> & _)|(l1 & p & l2 & e & _ & _ & _ & F)]); [eauto|].
  destruct (accepted E p e); destruct F as [-> _]; eauto.
Qed.

Lemma found_cons E s0 sp s q pl r s' : (works E -> free_names E s0 -> at_place E sp q = None) ->
  found E s0 sp s pl r s' -> found E s0 sp s (q :: pl) r s'.
Proof.
  intros N (I & S & F). split; [exact I|]. split; [exact S|].
  destruct F as [(-> & L2 & A2)|(l1 & p & l2 & e & -> & P1 & P2 & P3)].
  - left. split; [reflexivity|]. split; [exact L2|]. intros W Fr x [<-|X]; auto.
  - right. exists (q :: l1), p, l2, e. split; [reflexivity|]. split; [exact P1|]. split; [|exact P3].
    intros W Fr x [<-|X]; auto.
Qed.

Lemma local_ok E s0 sp path l : forall s, inv E s0 s -> s_files s = s_files sp ->
  exists r s', local_names E path l s = (r, s') /\ found E s0 sp s (map (fun n => OnDisk (below path n)) l) r s' /\
    s_files s' = s_files sp /\ (r = Val false -> s' = s).
Proof.
  induction l as [|n l IH]; intros s I FS.
  - exists (Val false), s. split; [reflexivity|]. split; [|auto]. split; [exact I|]. split; [split; reflexivity|]. left.
    split; [reflexivity|]. split; [reflexivity|]. intros _ _ q [].
  - cbn [local_names map]. unfold jbind at 1, jget. cbv beta iota.
    destruct (look (s_files s) (below path n)) as [e|] eqn:L.
    2:{ destruct (IH s I FS) as (r & s' & -> & F & X). exists r, s'. split; [reflexivity|]. split; [|exact X].
        apply found_cons; [|exact F]. intros _ _. cbn. now rewrite <- FS. }
    unfold jbind, system_load. rewrite L.
    assert (B : forall s', inv E s0 s' -> silent s s' ->
       (if accepted E (OnDisk (below path n)) e then exists b, e = File b /\ s_loaded s' = (s_loaded s ++ [b])%list
        else s_loaded s' = s_loaded s) ->
       found E s0 sp s (OnDisk (below path n) :: map (fun n => OnDisk (below path n)) l)
         (if accepted E (OnDisk (below path n)) e then Val true else Raise LinkError) s').
    { intros s' I' S' F. split; [exact I'|]. split; [exact S'|]. right.
      exists [], (OnDisk (below path n)), (map (fun n => OnDisk (below path n)) l), e. split; [reflexivity|].
      split; [cbn; now rewrite <- FS|]. split; [intros _ _ q []|]. destruct (accepted _ _ e); auto. }
    destruct e as [b|]; cbn [accepted] in B.
    + destruct (e_links E b); eexists _, _; (split; [reflexivity|]); (split; [apply B|]).
      * exact I.
      * split; reflexivity.
      * cbn. eauto.
      * split; [exact FS|easy].
      * exact I.
      * split; reflexivity.
      * reflexivity.
      * split; [exact FS|easy].
    + eexists _, _. split; [reflexivity|]. split; [apply B|split; [exact FS|easy]]; [exact I|split; reflexivity|reflexivity].
Qed.

Lemma jar_ok E s0 sp path l : rooted s0 -> (forall n, In n l -> proper (path ++ n) = true) -> forall s, inv E s0 s ->
  exists r s', jar_names E path l s = (r, s') /\ found E s0 sp s (map (fun n => InJar (path ++ n)) l) r s'.
Proof.
  intros R. induction l as [|n l IH]; intros P s I.
  - exists (Val false), s. split; [reflexivity|]. split; [exact I|]. split; [split; reflexivity|]. left.
    split; [reflexivity|]. split; [reflexivity|]. intros _ _ q [].
  - cbn [jar_names map]. unfold jtry, jbind.
    destruct (load_from_jar_ok E s0 s (path ++ n) R I) as (r & s1 & -> & I1 & [Sn Se] & Q).
    rewrite P in Q by now left. destruct Q as [(-> & L & A)|(b & A & Q)].
    + destruct (IH (fun m M => P m (or_intror M)) s1 I1) as (r & s' & -> & I' & [Sn' Se'] & F). exists r, s'.
      split; [reflexivity|]. apply found_cons; [intros W Fr; cbn; now rewrite A|].
      split; [exact I'|]. split; [split; congruence|]. now rewrite L in F.
    + exists (if e_links E b then Val true else Raise LinkError), s1.
      destruct (e_links E b) eqn:K; destruct Q as [-> L]; (split; [reflexivity|]);
        (split; [exact I1|]); (split; [split; assumption|]); right;
        exists [], (InJar (path ++ n)), (map (fun n => InJar (path ++ n)) l), (File b); (split; [reflexivity|]);
        (split; [cbn; now rewrite A|]); (split; [intros _ _ q []|]); cbn; rewrite K; eauto.
Qed.

Lemma jar_any E s0 path l : rooted s0 -> forall s, inv E s0 s ->
  exists r s', jar_names E path l s = (r, s') /\ inv E s0 s' /\ silent s s' /\ r <> Raise Stuck /\
    (s_loaded s' = s_loaded s /\ r <> Val true \/
     exists n b, In n l /\ e_jar E (path ++ n) = Some b /\ e_links E b = true /\ r = Val true /\ s_loaded s' = (s_loaded s ++ [b])%list).
Proof.
  intros R. induction l as [|n l IH]; intros s I.
  - exists (Val false), s. split; [reflexivity|]. split; [exact I|]. split; [split; reflexivity|]. split; [easy|]. now left.
  - cbn [jar_names]. unfold jtry, jbind.
    destruct (load_from_jar_ok E s0 s (path ++ n) R I) as (r & s1 & -> & I1 & [Sn Se] & Q).
    destruct (proper (path ++ n)).
    + destruct Q as [(-> & L & _)|(b & A & Q)].
      * destruct (IH s1 I1) as (r & s' & EQ & I' & [Sn' Se'] & NS & F). exists r, s'. split; [exact EQ|]. split; [exact I'|].
        split; [split; congruence|]. split; [exact NS|]. rewrite L in F.
        destruct F as [F|(m & b & M & F)]; [now left|]. right. exists m, b. split; [now right|exact F].
      * destruct (e_links E b) eqn:K; destruct Q as [-> L]; eexists _, _; (split; [reflexivity|]); (split; [exact I1|]);
          (split; [split; assumption|]); (split; [easy|]).
        -- right. exists n, b. split; [now left|]. auto.
        -- left. split; [exact L|easy].
    + destruct Q as [-> L]. eexists _, _. split; [reflexivity|]. split; [exact I1|]. split; [split; assumption|].
      split; [easy|]. left. split; [exact L|easy].
Qed.

Lemma class_ok E s0 s : rooted s0 -> inv E s0 s ->
  exists r s' r', load_class E s = (r, s') /\ inv E s0 s' /\
    found E s0 s (with_name (s_name s') s) order r' (with_err (s_err s) s') /\
    match r' with
    | Val true => r = Val tt /\ s_err s' = s_err s
    | Val false => r = Val tt /\ s_err s' = (s_err s ++ ["Failed to load native library"])%list
    | Raise e => r = Raise e /\ s_err s' = s_err s
    end.
Proof.
  intros R I. unfold load_class, jbind at 1.
  set (s1 := match e_library E with Some b => with_loaded (s_loaded s ++ [b])%list s | None => s end).
  assert (L : system_library E s = (Val (match e_library E with Some _ => true | None => false end), s1)).
  { unfold system_library, s1. now destruct (e_library E). }
  rewrite L. clear L. set (ok := match e_library E with Some _ => true | None => false end).
  unfold jtry, jbind at 1, set_library_name, jdo at 1.
  set (s2 := with_name (Some "JNIBoofCPP") s1). set (sn := with_name (Some "JNIBoofCPP") s).
  assert (F2 : s_files s2 = s_files s) by (unfold s2, s1; now destruct (e_library E)).
  assert (I2 : inv E s0 s2).
  { unfold s2, s1. destruct (e_library E); exact I. }
  assert (X : found E s0 s sn [Installed] (Val ok) s2).
  { split; [exact I2|]. unfold s2, s1, ok, sn. destruct (e_library E) as [b|] eqn:B.
    - split; [split; reflexivity|]. right. exists [], Installed, [], (File b). cbn. rewrite B.
      repeat split; eauto. intros _ _ q [].
    - split; [split; reflexivity|]. left. repeat split. intros _ _ q [<-|[]]. cbn. now rewrite B. }
  assert (N2 : s_name s2 = Some "JNIBoofCPP") by reflexivity.
  assert (NX : forall pl r sx, found E s0 s sn pl r sx -> s_name sx = Some "JNIBoofCPP").
  { intros pl r sx (_ & [-> _] & _). reflexivity. }
  assert (End : forall pl r sx, found E s0 s sn pl r sx -> pl = order -> r = Raise LinkError ->
    exists r0 s' r', (@Raise unit LinkError, sx) = (r0, s') /\ inv E s0 s' /\
    found E s0 s (with_name (s_name s') s) order r' (with_err (s_err s) s') /\
    match r' with
    | Val true => r0 = Val tt /\ s_err s' = s_err s
    | Val false => r0 = Val tt /\ s_err s' = (s_err s ++ ["Failed to load native library"])%list
    | Raise e => r0 = Raise e /\ s_err s' = s_err s
    end).
  { intros pl r sx F -> ->. eexists _, _, (Raise LinkError). split; [reflexivity|]. split; [apply F|].
    rewrite (NX _ _ _ F). fold sn. destruct F as (A & [B C] & D). split; [|split; [reflexivity|exact C]].
    split; [exact A|]. split; [split; [exact B|reflexivity]|exact D]. }
  assert (More : forall pl sx pl2, found E s0 s sn pl (Raise LinkError) sx ->
     found E s0 s sn (pl ++ pl2)%list (Raise LinkError) sx).
  { intros pl sx pl2 (A & B & D). split; [exact A|]. split; [exact B|].
    destruct D as [(D & _)|(l1 & p & l2 & e & -> & D)]; [discriminate|]. right.
    exists l1, p, (l2 ++ pl2)%list, e. split; [now rewrite <- app_assoc|exact D]. }
  (* a directory on disk *)
  assert (Disk : forall pl ok sx path, found E s0 s sn pl (Val ok) sx -> (ok = false -> s_files sx = s_files s) ->
     exists r s3, or_else ok (load_local_path E path) sx = (r, s3) /\
       found E s0 s sn (pl ++ map (fun n => OnDisk (below path n))
          ["libJNIBoofCPP.so"; "libJNIBoofCPP.dll"; "libJNIBoofCPP.dylib"])%list r s3 /\
       (r = Val false -> s_files s3 = s_files s)).
  { intros pl ok0 sx path F FS. destruct ok0.
    - destruct (found_or E s0 s sn pl true sx
        (map (fun n => OnDisk (below path n)) ["libJNIBoofCPP.so"; "libJNIBoofCPP.dll"; "libJNIBoofCPP.dylib"])
        (load_local_path E path) F) as (r & s3 & A & B); [discriminate|].
      exists r, s3. split; [exact A|]. split; [exact B|]. intros ->. cbn in A. discriminate.
    - pose proof (NX _ _ _ F) as Nx.
      assert (G : exists r s3, load_local_path E path sx = (r, s3) /\
         found E s0 s sx (map (fun n => OnDisk (below path n)) ["libJNIBoofCPP.so"; "libJNIBoofCPP.dll"; "libJNIBoofCPP.dylib"]) r s3 /\
         s_files s3 = s_files s).
      { unfold load_local_path, jbind, get_full_names, jget. rewrite Nx. cbn [String.append].
        destruct (local_ok E s0 s path ["libJNIBoofCPP.so"; "libJNIBoofCPP.dll"; "libJNIBoofCPP.dylib"] sx)
          as (r & s3 & A & B & C & _); [apply F|auto|]. eauto. }
      destruct G as (r & s3 & A & B & C).
      destruct (found_or E s0 s sn pl false sx _ (load_local_path E path) F (fun _ => ex_intro _ r (ex_intro _ s3 (conj A B))))
        as (r' & s4 & A' & B'). unfold or_else in *. rewrite A in A'. injection A' as <- <-. exists r, s3. auto. }
  (* a directory in the jar *)
  assert (Jar : forall pl ok sx path path', found E s0 s sn pl (Val ok) sx ->
     (forall t, load_library_from_jar E path t = (jlet names := get_full_names in jar_names E path' names) t) ->
     (forall n, In n ["libJNIBoofCPP.so"; "libJNIBoofCPP.dll"; "libJNIBoofCPP.dylib"] -> proper (path' ++ n) = true) ->
     exists r s3, or_else ok (load_library_from_jar E path) sx = (r, s3) /\
       found E s0 s sn (pl ++ map (fun n => InJar (path' ++ n))
          ["libJNIBoofCPP.so"; "libJNIBoofCPP.dll"; "libJNIBoofCPP.dylib"])%list r s3).
  { intros pl ok0 sx path path' F EQ PR. apply (found_or E s0 s sn pl ok0 sx _ _ F). intros _.
    rewrite EQ. unfold jbind, get_full_names, jget. rewrite (NX _ _ _ F). cbn [String.append].
    apply jar_ok; [exact R|exact PR|apply F]. }
  Ltac proper_tac := intros n [<-|[<-|[<-|[]]]]; reflexivity.
  unfold jbind at 1. destruct (Disk _ _ _ "build/boofcpp-jni" X (fun _ => F2)) as (r3 & s3 & E3 & X3 & F3). rewrite E3.
  destruct (found_res _ _ _ _ _ _ _ X3) as [->|[ok3 ->]].
  { apply (End order (Raise LinkError)); try reflexivity.
    apply (More _ _ (skipn 4 order)) in X3. exact X3. }
  unfold jbind at 1. destruct (Disk _ _ _ "../build/boofcpp-jni" X3) as (r4 & s4 & E4 & X4 & F4).
  { intros ->. now apply F3. }
  rewrite E4. destruct (found_res _ _ _ _ _ _ _ X4) as [->|[ok4 ->]].
  { apply (End order (Raise LinkError)); try reflexivity. apply (More _ _ (skipn 7 order)) in X4. exact X4. }
  unfold jbind at 1. destruct (Jar _ _ _ "/" "/" X4) as (r5 & s5 & E5 & X5); [reflexivity|proper_tac|].
  rewrite E5. destruct (found_res _ _ _ _ _ _ _ X5) as [->|[ok5 ->]].
  { apply (End order (Raise LinkError)); try reflexivity. apply (More _ _ (skipn 10 order)) in X5. exact X5. }
  unfold jbind at 1. destruct (Jar _ _ _ "/arm64-v8a" "/arm64-v8a/" X5) as (r6 & s6 & E6 & X6); [reflexivity|proper_tac|].
  rewrite E6. destruct (found_res _ _ _ _ _ _ _ X6) as [->|[ok6 ->]].
  { apply (End order (Raise LinkError)); try reflexivity. apply (More _ _ (skipn 13 order)) in X6. exact X6. }
  unfold jbind at 1. destruct (Jar _ _ _ "/armeabi-v7a" "/armeabi-v7a/" X6) as (r7 & s7 & E7 & X7); [reflexivity|proper_tac|].
  rewrite E7. destruct (found_res _ _ _ _ _ _ _ X7) as [->|[ok7 ->]].
  { apply (End order (Raise LinkError)); try reflexivity. exact X7. }
  pose proof (NX _ _ _ X7) as N7. destruct X7 as (A & [B C] & D). destruct ok7.
  - eexists _, _, (Val true). split; [reflexivity|]. split; [exact A|]. split; [|split; [reflexivity|exact C]].
    rewrite N7. fold sn. split; [exact A|]. split; [split; [exact B|reflexivity]|exact D].
  - eexists _, _, (Val false). split; [reflexivity|]. split; [exact A|]. split; [|split; [reflexivity|]].
    + cbn [with_err s_name]. rewrite N7. fold sn. split; [exact A|]. split; [split; [exact B|reflexivity]|exact D].
    + cbn [with_err s_err]. now rewrite C.
Qed.

Lemma inv_start E s : untouched s -> inv E s s.
Proof. intros (D & X & O). split; [exact O|]. rewrite D. auto. Qed.

Lemma call_ok E s0 s c : rooted s0 -> inv E s0 s ->
  inv E s0 (snd (run_call E c s)) /\ fst (run_call E c s) <> Raise Stuck.
Proof.
  intros R I. destruct c as [n|p|p|]; cbn [run_call].
  - split; [exact I|discriminate].
  - unfold jbind, load_local_path, jbind, get_full_names, jget.
    set (l := [_; _; _]). destruct (local_ok E s0 s p l s I eq_refl) as (r & s' & -> & F & _).
    destruct (found_res _ _ _ _ _ _ _ F) as [->|[ok ->]]; (split; [apply F|discriminate]).
  - unfold jbind, load_library_from_jar. destruct (String.get _ p) as [a|].
    2:{ split; [exact I|discriminate]. }
    unfold jbind, get_full_names, jget. set (l := [_; _; _]). set (p' := if Ascii.eqb a "/" then p else p ++ "/").
    destruct (jar_any E s0 p' l R s I) as (r & s' & -> & I' & _ & NS & _).
    destruct r; (split; [exact I'|]); cbn; congruence.
  - destruct (class_ok E s0 s R I) as (r & s' & r' & -> & I' & F & Q). split; [exact I'|]. cbn.
    destruct (found_res _ _ _ _ _ _ _ F) as [->|[[] ->]]; destruct Q as [-> _]; discriminate.
Qed.

Lemma calls_ok E s0 l : rooted s0 -> forall s, inv E s0 s -> inv E s0 (run_calls E l s).
Proof.
  intros R. induction l as [|c l IH]; intros s I; [exact I|]. cbn. apply IH. now apply call_ok.
Qed.

Lemma clean E s l p : rooted s -> untouched s -> look (s_files (leave (run_calls E l s))) p = look (s_files s) p.
Proof. intros R U. apply (leave_ok E s); [exact R|]. apply calls_ok; [exact R|]. now apply inv_start. Qed.

Lemma ends E s l c : rooted s -> untouched s -> fst (run_call E c (run_calls E l s)) <> Raise Stuck.
Proof. intros R U. apply (call_ok E s); [exact R|]. apply calls_ok; [exact R|]. now apply inv_start. Qed.

Lemma closed_all E s l : rooted s -> untouched s -> s_open (run_calls E l s) = [].
Proof. intros R U. apply (calls_ok E s l R s (inv_start E s U)). Qed.

Lemma meanwhile E s l : rooted s -> untouched s ->
  exists n, forall p, let d := below (e_tmp E) ("boofcpplibs" ++ e_nano E n) in
    p <> d -> (forall f, p <> below d f) -> look (s_files (run_calls E l s)) p = look (s_files s) p.
Proof.
  intros R U. destruct (calls_ok E s l R s (inv_start E s U)) as [_ I].
  destruct (s_dir (run_calls E l s)) as [d|].
  - destruct I as (r & _ & _ & _ & (n & ->) & _ & A & B). exists n. intros p d Np Nf. apply B; [exact Np|].
    intros Ir. destruct (A p Ir) as [[f ->] _]. now apply (Nf f).
  - exists 0%nat. intros p d _ _. apply I.
Qed.

Lemma meanwhile_posix E s l : e_posix E = true -> rooted s -> untouched s ->
  exists n, forall p, p <> below (e_tmp E) ("boofcpplibs" ++ e_nano E n) ->
    look (s_files (run_calls E l s)) p = look (s_files s) p.
Proof.
  intros PX R U. destruct (calls_ok E s l R s (inv_start E s U)) as [_ I].
  destruct (s_dir (run_calls E l s)) as [d|].
  - destruct I as (r & _ & _ & _ & (n & ->) & P & A & B). exists n. intros p Np. apply B; [exact Np|]. now rewrite (P PX).
  - exists 0%nat. intros p _. apply I.
Qed.

(** The first place where something is, is one. *)
Lemma first_unique {A} (P : A -> option entry) (l l1 l' l2 : list A) p p1 e e1 : (l ++ p :: l')%list = (l1 ++ p1 :: l2)%list ->
  (forall q, In q l -> P q = None) -> P p = Some e -> (forall q, In q l1 -> P q = None) -> P p1 = Some e1 -> p = p1.
Proof.
  revert l1. induction l as [|x l IH]; intros [|y l1] E N Hp N1 H1; injection E as E1 E2; subst.
  - reflexivity.
  - specialize (N1 y (or_introl eq_refl)). congruence.
  - specialize (N p1 (or_introl eq_refl)). congruence.
  - apply (IH l1); auto; intros q Q; [apply N|apply N1]; now right.
Qed.

Lemma first E s l p l' e : rooted s -> untouched s -> works E -> free_names E s ->
  order = (l ++ p :: l')%list -> (forall q, In q l -> at_place E s q = None) -> at_place E s p = Some e ->
  exists s', s_err s' = s_err s /\
    if accepted E p e then load_class E s = (Val tt, s') /\ exists b, e = File b /\ s_loaded s' = (s_loaded s ++ [b])%list
    else load_class E s = (Raise LinkError, s') /\ s_loaded s' = s_loaded s.
Proof.
  intros R U W Fr O N P.
  destruct (class_ok E s s R (inv_start E s U)) as (r & s' & r' & C & _ & (_ & _ & F) & Q).
  destruct F as [(-> & _ & A)|(l1 & p1 & l2 & e1 & O1 & P1 & N1 & F)].
  { rewrite (A W Fr p) in P; [discriminate|]. rewrite O. apply in_or_app. right. now left. }
  specialize (N1 W Fr). rewrite O1 in O. symmetry in O.
  assert (p = p1) as <- by (apply (first_unique (at_place E s) l l1 l' l2 p p1 e e1); auto).
  assert (e = e1) as <- by congruence. exists s'. rewrite C.
  destruct (accepted E p e); destruct F as [-> F]; destruct Q as [-> Q]; auto.
Qed.

Lemma nowhere E s : rooted s -> untouched s -> works E -> free_names E s -> (forall q, In q order -> at_place E s q = None) ->
  exists s', load_class E s = (Val tt, s') /\ s_loaded s' = s_loaded s /\
    s_err s' = (s_err s ++ ["Failed to load native library"])%list.
Proof.
  intros R U W Fr N.
  destruct (class_ok E s s R (inv_start E s U)) as (r & s' & r' & C & _ & (_ & _ & F) & Q).
  destruct F as [(-> & L & A)|(l1 & p1 & l2 & e1 & O1 & P1 & N1 & F)].
  - exists s'. rewrite C. destruct Q as [-> Q]. auto.
  - rewrite N in P1; [discriminate|]. rewrite O1. apply in_or_app. right. now left.
Qed.

Lemma once E s : rooted s -> untouched s ->
  exists r s', load_class E s = (r, s') /\
    (r = Val tt /\ s_loaded s' = s_loaded s /\ s_err s' = (s_err s ++ ["Failed to load native library"])%list \/
     (exists p b, In p order /\ at_place E s p = Some (File b) /\ accepted E p (File b) = true /\
        r = Val tt /\ s_loaded s' = (s_loaded s ++ [b])%list /\ s_err s' = s_err s) \/
     (exists p e, In p order /\ at_place E s p = Some e /\ accepted E p e = false /\
        r = Raise LinkError /\ s_loaded s' = s_loaded s /\ s_err s' = s_err s)).
Proof.
  intros R U.
  destruct (class_ok E s s R (inv_start E s U)) as (r & s' & r' & C & _ & (_ & _ & F) & Q). exists r, s'. split; [exact C|].
  destruct F as [(-> & L & A)|(l1 & p1 & l2 & e1 & O1 & P1 & N1 & F)].
  - left. destruct Q as [-> Q]. auto.
  - right. assert (I : In p1 order) by (rewrite O1; apply in_or_app; right; now left).
    destruct (accepted E p1 e1) eqn:AC.
    + left. destruct F as [-> (b & -> & L)]. destruct Q as [-> Q]. exists p1, b. auto 10.
    + right. destruct F as [-> L]. destruct Q as [-> Q]. exists p1, e1. auto 10.
Qed.

Lemma exact_bytes E s l path : rooted s -> untouched s ->
  let s1 := run_calls E l s in
  exists r s2, load_library_from_jar E path s1 = (r, s2) /\
    (s_loaded s2 = s_loaded s1 /\ r <> Val true \/
     exists name suffix d b, s_name s1 = name /\ In suffix [".so"; ".dll"; ".dylib"] /\ (d = path \/ d = path ++ "/") /\
       e_jar E (d ++ "lib" ++ (match name with Some n => n | None => "null" end) ++ suffix) = Some b /\
       e_links E b = true /\ r = Val true /\ s_loaded s2 = (s_loaded s1 ++ [b])%list).
Proof.
  intros R U s1. assert (I : inv E s s1) by (apply calls_ok; [exact R|now apply inv_start]).
  unfold load_library_from_jar. destruct (String.get _ path) as [a|].
  2:{ eexists _, _. split; [reflexivity|]. left. split; [reflexivity|discriminate]. }
  unfold jbind, get_full_names, jget.
  set (p' := if Ascii.eqb a "/" then path else path ++ "/"). set (nm := match s_name s1 with Some n => n | None => "null" end).
  destruct (jar_any E s p' ["lib" ++ nm ++ ".so"; "lib" ++ nm ++ ".dll"; "lib" ++ nm ++ ".dylib"] R s1 I)
    as (r & s2 & C & _ & _ & _ & F).
  exists r, s2. split; [exact C|]. destruct F as [F|(n & b & N & Jn & K & -> & L)]; [now left|]. right.
  assert (P : p' = path \/ p' = path ++ "/") by (unfold p'; destruct (Ascii.eqb a "/"); auto).
  destruct N as [<-|[<-|[<-|[]]]].
  - exists (s_name s1), ".so", p', b. split; [reflexivity|]. split; [cbn; auto|]. auto 10.
  - exists (s_name s1), ".dll", p', b. split; [reflexivity|]. split; [cbn; auto|]. auto 10.
  - exists (s_name s1), ".dylib", p', b. split; [reflexivity|]. split; [cbn; auto|]. auto 10.
Qed.

Lemma copy_all E k b p s : look (s_files s) p <> Some Dir -> s_open s = [k] -> (k < s_clock s)%nat ->
  exists r s', copy E (Some (k, b)) p s = (r, s') /\ s_open s' = [] /\
    (forall q, q <> p -> look (s_files s') q = look (s_files s) q) /\
    (r = Val tt /\ look (s_files s') p = Some (File b) \/ r = Raise IOException /\ ~ works E).
Proof.
  intros D O K. destruct (copy_ok E (Some (k, b)) p s D (conj O K)) as (r & s' & C & (_ & _ & _ & _ & _ & X) & Y & _ & Z).
  exists r, s'. auto.
Qed.

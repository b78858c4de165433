(** Lemmas about kernel containers. *)
From Verif Require Import Base BaseFacts M_GrowArray S_GrowArray L_GrowArray M_Convolve M_Kernel M_KernelObj S_KernelObj S_Blur L_Blur.
From Coq Require Import Lia.

Lemma cells_count two w : kwidth_ok two w -> ko_cells two w = kcount two w /\ 0 <= kcount two w < 4294967296.
Proof. unfold kwidth_ok, ko_cells, kcount. destruct two; intros H; [rewrite u32_id by nia; split; [auto|nia]|split; [auto|lia]]. Qed.

Lemma some_repeat {A} (a : A) n : map Some (repeat a n) = repeat (Some a) n.
Proof. induction n; cbn; congruence. Qed.

Section K.
Context {E : Type} (m : memtype E).
Hypothesis Hsize : 1 <= mt_size m.
Hypothesis Hzero : mt_set m (mt_zero m) = mt_zero m.
Implicit Type k : kobj E.

Definition kinv k : Prop := ga_inv (ko_data k) /\ kcomplete k.

Lemma default_inv : ga_inv (ga_new_default m).
Proof. apply ga_new_inv. lia. Qed.

Lemma kinv_make two w off d : ga_inv d -> kwidth_ok two w -> ga_size d = kcount two w -> kinv (mkKobj two w off d).
Proof.
  intros I W S. split; [exact I|]. unfold kcomplete, kcoefs. cbn. rewrite (ga_seq_zlen d I). auto.
Qed.

(** ** construction *)
Lemma fresh_zero n : 0 <= n < 4294967296 ->
  exists d, ga_resize m (ga_new_default m) n = Ok d /\ ga_inv d /\ ga_size d = n /\ ga_seq d = repeat (Some (mt_zero m)) (Z.to_nat n).
Proof.
  intros Hn. destruct (ga_resize_ok m _ n default_inv Hn) as (d & Ed & I & S & _ & K1 & K2 & K3). exists d. repeat (split; auto).
  apply znth_ext. intros i. destruct (Z.ltb_spec i 0) as [Hi|Hi]; [rewrite !(proj2 (znth_None _ _)); auto; lia|].
  destruct (Z.ltb_spec i n) as [Hj|Hj].
  2:{ rewrite !(proj2 (znth_None _ _)); auto; [rewrite zlen_repeat; lia|rewrite (ga_seq_zlen d I); lia]. }
  rewrite znth_repeat by lia. unfold ga_seq. rewrite znth_firstn by lia. change (ga_len (ga_new_default m)) with 10 in *.
  assert (D : forall j, 0 <= j < 10 -> znth (ga_data (ga_new_default m)) j = Some (Some (mt_zero m))).
  { intros j Hj'. cbn [ga_new_default ga_new ga_data]. rewrite Hzero. now rewrite znth_repeat by lia. }
  destruct (Z.ltb_spec i 10).
  - rewrite K1 by (cbn; lia). apply D. lia.
  - rewrite K2 by (cbn; lia). cbn. now rewrite Hzero.
Qed.

Lemma put_row_ok (r : list E) : forall (d : list (option E)) p, 0 <= p -> p + zlen r <= zlen d ->
  exists d', ko_put_row d p r = Ok d' /\ zlen d' = zlen d /\
    forall j, znth d' j = if (p <=? j) && (j <? p + zlen r) then option_map Some (znth r (j - p)) else znth d j.
Proof.
  induction r as [|y r IH]; intros d p Hp L; cbn [ko_put_row].
  - exists d. repeat split; auto. intros j. zlen_nil. replace (_ && _) with false by lia. reflexivity.
  - rewrite zlen_cons in L. pose proof (zlen_nonneg r). destruct (bset_exists d p (Some y)) as (d1 & E1 & L1 & H1); [lia|]. rewrite E1. cbn [bind].
    destruct (IH d1 (p + 1)) as (d' & E' & L' & H'); [lia|lia|]. exists d'. split; [auto|]. split; [lia|]. intros j. rewrite H', H1, zlen_cons.
    destruct (Z.eqb_spec j p) as [->|N].
    + replace (p + 1 <=? p) with false by lia. cbn [andb]. replace (_ && _) with true by lia. replace (p - p) with 0 by lia. reflexivity.
    + destruct (Z.leb_spec (p + 1) j); cbn [andb].
      * replace (p <=? j) with true by lia. cbn [andb]. replace (j <? p + 1 + zlen r) with (j <? p + (1 + zlen r)) by (f_equal; lia).
        destruct (j <? _); auto. rewrite (znth_cons_S y r) by lia. do 2 f_equal. lia.
      * replace (p <=? j) with false by lia. reflexivity.
Qed.

Lemma put_rows_ok w (l : list (list E)) : forall (d : list (option E)) p, 0 <= p -> 0 <= w -> p + w * zlen l <= zlen d ->
  ((exists r, In r l /\ zlen r <> w) /\ ko_put_rows w d p l = Throw) \/
  ((forall r, In r l -> zlen r = w) /\ zlen (concat l) = w * zlen l /\
   exists d', ko_put_rows w d p l = Ok d' /\ zlen d' = zlen d /\
    forall j, znth d' j = if (p <=? j) && (j <? p + w * zlen l) then option_map Some (znth (concat l) (j - p)) else znth d j).
Proof.
  induction l as [|r l IH]; intros d p Hp Hw L; cbn [ko_put_rows].
  - right. split; [intros r []|]. split; [cbn; zlen_nil; lia|]. exists d. repeat split; auto. intros j. zlen_nil.
    replace (_ && _) with false by lia. reflexivity.
  - rewrite zlen_cons in L. pose proof (zlen_nonneg l). destruct (Z.eqb_spec (zlen r) w) as [Er|Nr].
    2:{ left. split; auto. exists r. split; [now left|auto]. }
    destruct (put_row_ok r d p) as (d1 & E1 & L1 & H1); [auto|nia|]. rewrite E1. cbn [bind].
    destruct (IH d1 (p + zlen r)) as [[(r' & I' & N') T]|(R & C & d' & E' & L' & H')]; [lia|auto|nia| |].
    + left. split; auto. exists r'. split; [now right|auto].
    + right. split; [intros r' [<-|I']; auto|]. cbn [concat]. rewrite zlen_app, zlen_cons, C. split; [nia|]. exists d'. split; auto. split; [lia|].
      intros j. rewrite H', H1, Er.
      destruct (Z.leb_spec (p + w) j); cbn [andb].
      * replace (p <=? j) with true by lia. cbn [andb]. replace (j <? p + w) with false by lia.
        replace (j <? p + w + w * zlen l) with (j <? p + w * (1 + zlen l)) by (f_equal; lia).
        destruct (j <? _); auto. rewrite (znth_app_r r) by lia. do 2 f_equal. lia.
      * destruct (Z.leb_spec p j); cbn [andb]; auto. replace (j <? p + w) with true by lia.
        replace (j <? p + w * (1 + zlen l)) with true by (symmetry; apply Z.ltb_lt; nia). now rewrite (znth_app_l r) by lia.
Qed.

Lemma kstart_ok (i : kinit E) : kinit_ok i ->
  (kstart m i = Throw <-> kinit_fails i) /\
  (~ kinit_fails i -> exists k, kstart m i = Ok k /\ kinv k /\ ko_two k = kinit_two i /\ ko_width k = kinit_width i /\ ko_offset k = kinit_offset i /\
     kcoefs k = map Some (kinit_coefs (mt_zero m) i)).
Proof.
  assert (NEW : forall two w off, kwidth_ok two w -> (ko_new m two w off = Throw <-> w <= off) /\
    (off < w -> exists k, ko_new m two w off = Ok k /\ kinv k /\ ko_two k = two /\ ko_width k = w /\ ko_offset k = off /\
       kcoefs k = map Some (repeat (mt_zero m) (Z.to_nat (kcount two w))))).
  { intros two w off W. destruct (cells_count two w W) as (C & B). unfold ko_new. rewrite C.
    destruct (fresh_zero _ B) as (d & Ed & I & S & F). rewrite Ed. cbn [bind].
    destruct (Z.leb_spec w off); (split; [split; intros; auto; try discriminate; lia|intros Ho; try lia]).
    eexists. split; [reflexivity|]. split; [apply kinv_make; auto|]. cbn. repeat (split; auto).
    rewrite some_repeat. exact F. }
  destruct i as [two w off|two w|off l|off l]; cbn [kinit_ok kstart kinit_fails kinit_two kinit_width kinit_offset kinit_coefs].
  - intros (W & O). destruct (NEW two w off W) as (T & K). split; [exact T|]. intros N. apply K. lia.
  - intros W. destruct (NEW two w (w / 2) W) as (T & K). unfold ko_new_width.
    assert (0 <= w) by (unfold kwidth_ok in W; lia).
    assert (w / 2 < w <-> w <> 0) by (split; [intros X ->; cbn in X; lia|intros; apply Z.div_lt; lia]).
    split; [rewrite T; lia|]. intros N. apply K. lia.
  - intros (W & O). unfold ko_list. unfold kwidth_ok in W. rewrite u32_id by lia.
    destruct (ga_exec_ok m Hsize (ga_new_default m) (Op_setTo l) default_inv) as [(F & _)|(_ & d & Ed & I & S)]; [cbn; lia|destruct F|].
    cbn [ga_exec seq_step] in Ed, S. rewrite Ed. cbn [bind].
    destruct (Z.leb_spec (zlen l) off); (split; [split; intros; auto; try discriminate; lia|intros Ho; try lia]).
    eexists. split; [reflexivity|]. split; [|repeat (split; auto)]. apply kinv_make; auto.
    rewrite <- (ga_seq_zlen d I), S. unfold zlen. rewrite map_length. reflexivity.
  - intros (W & O). unfold ko_lists. unfold kwidth_ok in W. assert (WW : 0 <= zlen l * zlen l < 4294967296) by nia.
    rewrite (u32_id (zlen l)) by lia. rewrite (u32_id (zlen l * zlen l)) by lia. destruct (fresh_zero _ WW) as (d & Ed & I & S & F). rewrite Ed. cbn [bind].
    pose proof I as (O1 & S1 & L1 & B1).
    destruct (put_rows_ok (zlen l) l (ga_data d) 0) as [(X & T)|(R & C & d' & E' & L' & H')]; [lia|lia|lia| |].
    + rewrite T. cbn [bind]. split; [tauto|]. tauto.
    + rewrite E'. cbn [bind]. split; [split; [discriminate|intros (r & Ir & Nr); exfalso; auto]|]. intros _.
      eexists. split; [reflexivity|].
      assert (I' : ga_inv (mkGA d' (ga_size d) (ga_len d) (ga_default d) (ga_own d))) by (unfold ga_inv; cbn; repeat split; auto; lia).
      split; [apply kinv_make; auto|]. cbn. repeat (split; auto). unfold kcoefs. cbn [ko_data]. apply znth_ext. intros j.
      unfold ga_seq. cbn [ga_size ga_data]. rewrite S. destruct (Z.ltb_spec j (zlen l * zlen l)) as [Hj|Hj].
      * rewrite znth_firstn by lia. rewrite H'. rewrite znth_map. destruct (Z.leb_spec 0 j); cbn [andb].
        -- replace (j <? 0 + zlen l * zlen l) with true by lia. do 2 f_equal. lia.
        -- rewrite !(proj2 (znth_None _ _)); auto; lia.
      * rewrite !(proj2 (znth_None _ _)); auto; [rewrite (zlen_map Some); lia|rewrite firstn_zlen; lia].
Qed.

(** ** calls *)
Lemma raw_put_ok k i v : kinv k -> 0 <= i < zlen (kcoefs k) ->
  exists k', ko_raw_put k i v = Ok k' /\ kinv k' /\ ko_two k' = ko_two k /\ ko_width k' = ko_width k /\ ko_offset k' = ko_offset k /\
    zlen (kcoefs k') = zlen (kcoefs k) /\ forall j, znth (kcoefs k') j = if j =? i then Some (Some v) else znth (kcoefs k) j.
Proof.
  intros (I & W & C & Z) Hi. pose proof I as (O & S & L & B). unfold ko_raw_put.
  destruct (bset_exists (ga_data (ko_data k)) i (Some v)) as (d & Ed & Ld & Hd); [lia|]. rewrite Ed. cbn [bind].
  eexists. split; [reflexivity|].
  assert (I' : ga_inv (mkGA d (ga_size (ko_data k)) (ga_len (ko_data k)) (ga_default (ko_data k)) (ga_own (ko_data k)))) by (unfold ga_inv; cbn; repeat split; auto; lia).
  split; [apply kinv_make; auto; cbn; lia|]. cbn [ko_two ko_width ko_offset]. repeat (split; auto).
  - unfold kcoefs in *. cbn [ko_data]. rewrite (ga_seq_zlen _ I'). cbn. lia.
  - intros j. unfold kcoefs in *. cbn [ko_data]. unfold ga_seq at 1. cbn [ga_size ga_data]. destruct (Z.ltb_spec j (ga_size (ko_data k))).
    + rewrite znth_firstn by lia. rewrite Hd. destruct (j =? i); auto. unfold ga_seq. now rewrite znth_firstn by lia.
    + replace (j =? i) with false by lia. rewrite !(proj2 (znth_None _ _)); auto; [|rewrite firstn_zlen]; lia.
Qed.

Lemma kput_ok k i v : kinv k -> 0 <= i -> (ko_put k i v = Throw <-> zlen (kcoefs k) <= i) /\
  (i < zlen (kcoefs k) -> ko_put k i v = ko_raw_put k i v).
Proof.
  intros (I & W & C & Z) Hi. unfold ko_put, ga_at_set. rewrite Z. pose proof I as (O & S & L & B). destruct (Z.leb_spec (zlen (kcoefs k)) i); cbn [bind].
  - split; [split; auto|lia].
  - destruct (bset_exists (ga_data (ko_data k)) i (Some v)) as (d & Ed & Ld & Hd); [lia|]. unfold ko_raw_put. rewrite Ed. cbn [bind].
    split; [split; [discriminate|lia]|]. intros _. congruence.
Qed.

Lemma pos2 w x y : 0 <= w < 65536 -> 0 <= x < w -> 0 <= y < w -> u32 (y * w + x) = y * w + x /\ 0 <= y * w + x < w * w.
Proof. intros. assert (0 <= y * w + x < w * w) by nia. split; auto. apply u32_id. nia. Qed.

Lemma kexec_ok k (o : kop E) : kinv k -> kop_ok (ko_two k) o ->
  (kexec m k o = Throw <-> kthrows k o) /\ (~ kthrows k o -> exists k', kexec m k o = Ok k' /\ kinv k' /\ kstep k o k').
Proof.
  intros K Ho. pose proof K as (I & W & C & Z). unfold kstep. destruct o as [w off|i v|x y v|other|rng]; cbn [kop_ok kexec kthrows] in *.
  - destruct Ho as (Hw & Hoff). destruct (cells_count _ _ Hw) as (Cw & B). unfold ko_reshape. rewrite Cw.
    destruct (ga_exec_ok m Hsize (ko_data k) (Op_resize (kcount (ko_two k) w)) I) as [(F & _)|(_ & d & Ed & I' & S1 & S2)]; [cbn; lia|destruct F|].
    cbn [ga_exec] in Ed. rewrite Ed. cbn [bind]. split; [split; [discriminate|tauto]|]. intros _. eexists. split; [reflexivity|].
    split; [apply kinv_make; auto; rewrite <- (ga_seq_zlen d I'); auto|]. cbn. repeat (split; auto).
  - destruct Ho as (D & Hi). rewrite D in C. cbn in C. destruct (kput_ok k i v K ltac:(lia)) as (T & P). split; [rewrite T, C; tauto|].
    intros N. destruct (raw_put_ok k i v K) as (k' & E' & K' & A1 & A2 & A3 & A4 & A5); [lia|]. exists k'. rewrite P by lia. repeat (split; auto).
  - destruct Ho as (D & Hx & Hy). rewrite D in C, W. unfold kwidth_ok in W. cbn in C. unfold ko_put2.
    destruct (Z.leb_spec (ko_width k) x); cbn [orb]; [split; [split; auto|lia]|].
    destruct (Z.leb_spec (ko_width k) y); [split; [split; auto|lia]|].
    destruct (pos2 (ko_width k) x y) as (U & B); try lia. rewrite U.
    destruct (kput_ok k (y * ko_width k + x) v K ltac:(lia)) as (T & P). split; [rewrite T; lia|].
    intros _. destruct (raw_put_ok k (y * ko_width k + x) v K) as (k' & E' & K' & A1 & A2 & A3 & A4 & A5); [lia|].
    exists k'. rewrite P by lia. repeat (split; auto).
  - destruct Ho as (D & (W' & C' & Z') & G). unfold ko_assign.
    destruct (ga_exec_ok m Hsize (ko_data k) (Op_assign (ko_data other)) I G) as [(F & _)|(_ & d & Ed & I' & S)]; [destruct F|].
    cbn [ga_exec seq_step] in Ed, S. rewrite Ed. cbn [bind]. split; [split; [discriminate|tauto]|]. intros _. eexists. split; [reflexivity|].
    rewrite D in *. split; [apply kinv_make; auto|cbn; repeat (split; auto)]. rewrite <- (ga_seq_zlen d I'), S. exact C'.
  - unfold ko_fill_uniform. destruct (cells_count _ _ W) as (Cw & B). rewrite Cw.
    destruct (for_range_inv (fun n k' => kinv k' /\ ko_two k' = ko_two k /\ ko_width k' = ko_width k /\ ko_offset k' = ko_offset k /\
        zlen (kcoefs k') = zlen (kcoefs k) /\ forall j, 0 <= j < n -> znth (kcoefs k') j = Some (Some (rng j)))
        0 (kcount (ko_two k) (ko_width k)) (fun i k => ko_raw_put k i (rng i)) k) as (k' & E' & K' & A1 & A2 & A3 & A4 & A5).
    + lia.
    + repeat (split; auto). lia.
    + intros i s Hi (K' & A1 & A2 & A3 & A4 & A5). destruct (raw_put_ok s i (rng i) K') as (s' & E' & K2 & B1 & B2 & B3 & B4 & B5); [lia|].
      exists s'. split; auto. split; auto. split; [congruence|]. split; [congruence|]. split; [congruence|]. split; [congruence|].
      intros j Hj. rewrite B5. destruct (Z.eqb_spec j i) as [->|]; auto. apply A5. lia.
    + rewrite E'. split; [split; [discriminate|tauto]|]. intros _. exists k'. repeat (split; auto). intros j Hj. apply A5. lia.
Qed.

Lemma kexec_two k o k' : kexec m k o = Ok k' -> ko_two k' = ko_two k.
Proof.
  destruct o; cbn [kexec]; unfold ko_reshape, ko_put2, ko_put, ko_assign.
  - destruct (ga_resize _ _ _); cbn; intros X; inversion X; subst; auto.
  - destruct (ga_at_set _ _ _); cbn; intros X; inversion X; subst; auto.
  - destruct (_ || _); [discriminate|]. destruct (ga_at_set _ _ _); cbn; intros X; inversion X; subst; auto.
  - destruct (ga_assign _ _ _); cbn; intros X; inversion X; subst; auto.
  - unfold ko_fill_uniform. destruct (Z.leb_spec 0 (ko_cells (ko_two k) (ko_width k))).
    + apply (for_range_Ok_inv (fun _ s => ko_two s = ko_two k)); auto. intros i s s' _ <-. unfold ko_raw_put.
      destruct (bset _ _ _); cbn; intros X; inversion X; subst; auto.
    + rewrite for_range_nil by lia. intros X; inversion X; auto.
Qed.

Lemma krun_ok h : forall k, kinv k -> Forall (kop_ok (ko_two k)) h -> exists k', krun m k h = Ok k' /\ kinv k' /\ ko_two k' = ko_two k.
Proof.
  induction h as [|o h IH]; intros k K F; cbn [krun]; eauto. inversion F as [|? ? Ho F']; subst.
  destruct (kexec_ok k o K Ho) as (T & S). destruct (kexec m k o) as [k1| | |] eqn:X.
  - assert (kinv k1) as K1.
    { destruct S as (k2 & E2 & K2 & _); [rewrite <- T; discriminate|]. congruence. }
    pose proof (kexec_two k o k1 X) as D. rewrite <- D in F'. destruct (IH k1 K1 F') as (k' & E' & K' & D'). exists k'. rewrite D', D. auto.
  - auto.
  - destruct S as (k2 & E2 & _); [rewrite <- T; discriminate|discriminate].
  - destruct S as (k2 & E2 & _); [rewrite <- T; discriminate|discriminate].
Qed.

Lemma kat_ok k i : kinv k -> 0 <= i -> (ko_at k i = Throw <-> zlen (kcoefs k) <= i) /\ forall v, ko_at k i = Ok v <-> znth (kcoefs k) i = Some (Some v).
Proof.
  intros (I & W & C & Z) Hi. unfold ko_at. destruct (ga_at_ok (ko_data k) i I Hi) as (A & B). unfold kcoefs in *.
  destruct (Z.ltb_spec i (ga_size (ko_data k))) as [L|L].
  - destruct (B L) as (c & Ec & _ & R). rewrite R, Ec. split; [destruct c; (split; [discriminate|lia])|]. intros v. destruct c; (split; congruence).
  - rewrite A by lia. split; [split; [lia|auto]|]. intros v. split; [discriminate|]. intros X. apply znth_Some_range in X. lia.
Qed.

Lemma container (i : kinit E) (h : list (kop E)) : kinit_ok i -> Forall (kop_ok (kinit_two i)) h ->
  (kstart m i = Throw <-> kinit_fails i) /\
  (~ kinit_fails i -> exists k0 k, kstart m i = Ok k0 /\
     ko_two k0 = kinit_two i /\ ko_width k0 = kinit_width i /\ ko_offset k0 = kinit_offset i /\ kcoefs k0 = map Some (kinit_coefs (mt_zero m) i) /\
     krun m k0 h = Ok k /\ ko_two k = kinit_two i /\ kcomplete k /\
     (forall x, ko_two k = false -> 0 <= x < 4294967296 ->
        (ko_at k x = Throw <-> ko_width k <= x) /\ forall v, ko_at k x = Ok v <-> znth (kcoefs k) x = Some (Some v)) /\
     (forall x y, ko_two k = true -> 0 <= x < 4294967296 -> 0 <= y < 4294967296 ->
        (ko_at2 k x y = Throw <-> ko_width k <= x \/ ko_width k <= y) /\
        forall v, ko_at2 k x y = Ok v <-> x < ko_width k /\ y < ko_width k /\ znth (kcoefs k) (y * ko_width k + x) = Some (Some v)) /\
     forall o, kop_ok (ko_two k) o -> (kexec m k o = Throw <-> kthrows k o) /\
       (~ kthrows k o -> exists k', kexec m k o = Ok k' /\ kstep k o k')).
Proof.
  intros Hi Hh. destruct (kstart_ok i Hi) as (T & S). split; [exact T|]. intros N.
  destruct (S N) as (k0 & E0 & K0 & A1 & A2 & A3 & A4). rewrite <- A1 in Hh. destruct (krun_ok h k0 K0 Hh) as (k & Ek & K & D).
  exists k0, k. do 5 (split; [assumption|]). split; [exact Ek|]. split; [congruence|]. split; [exact (proj2 K)|]. split; [|split].
  - intros x D1 Hx. pose proof K as (_ & _ & C & _). rewrite D1 in C. cbn in C. rewrite <- C. apply kat_ok; auto. lia.
  - intros x y D1 Hx Hy. pose proof K as (_ & W & C & _). rewrite D1 in C, W. unfold kwidth_ok in W. cbn in C. unfold ko_at2.
    destruct (Z.leb_spec (ko_width k) x); cbn [orb]; [split; [split; auto|intros v; split; [discriminate|lia]]|].
    destruct (Z.leb_spec (ko_width k) y); [split; [split; auto|intros v; split; [discriminate|lia]]|].
    destruct (pos2 (ko_width k) x y) as (U & B); try lia. rewrite U. destruct (kat_ok k (y * ko_width k + x) K ltac:(lia)) as (P & Q).
    unfold ko_at in P, Q. split; [rewrite P; lia|]. intros v. rewrite Q. tauto.
  - intros o Ho. destruct (kexec_ok k o K Ho) as (P & Q). split; [exact P|]. intros X. destruct (Q X) as (k' & E' & _ & S'). eauto.
Qed.
End K.

(** ** the kernels of the theorems about convolution *)
Lemma kernels_agree {E} (m : memtype E) (i : kinit E) k : 1 <= mt_size m -> mt_set m (mt_zero m) = mt_zero m -> kinit_ok i -> kstart m i = Ok k ->
  exists K, match i with
            | KI_new two w off => (if two then kernel2_new (mt_zero m) w off else kernel1_new (mt_zero m) w off)
            | KI_width two w => (if two then kernel2_width (mt_zero m) w else kernel1_width (mt_zero m) w)
            | KI_list off l => kernel1_of_list off l
            | KI_lists off l => kernel2_of_lists off l
            end = Ok K /\ is_kernel k K.
Proof.
  intros Hs Hz Hi Ek. destruct (kstart_ok m Hs Hz i Hi) as (T & S).
  assert (N : ~ kinit_fails i) by (rewrite <- T; congruence).
  destruct (S N) as (k' & E' & _ & _ & A2 & A3 & A4). replace k' with k in * by congruence. clear E' S T.
  exists (mkKernel (kinit_width i) (kinit_offset i) (kinit_coefs (mt_zero m) i)). split; [|split; [exact A2|split; [exact A3|exact A4]]].
  destruct i as [two w off|two w|off l|off l]; cbn [kinit_ok kinit_fails kinit_width kinit_offset kinit_coefs] in *.
  - destruct two; unfold kernel2_new, kernel1_new; replace (w <=? off) with false by lia; auto.
    destruct (cells_count true w (proj1 Hi)) as (C & _). cbn in C. rewrite C. reflexivity.
  - assert (0 <= w) by (unfold kwidth_ok in Hi; lia). assert (w / 2 < w) by (apply Z.div_lt; lia).
    destruct two; unfold kernel2_width, kernel1_width, kernel2_new, kernel1_new; replace (w <=? w / 2) with false by lia; auto.
    destruct (cells_count true w Hi) as (C & _). cbn in C. rewrite C. reflexivity.
  - destruct Hi as (W & _). unfold kwidth_ok in W. unfold kernel1_of_list. rewrite u32_id by lia. replace (_ <=? _) with false by lia. reflexivity.
  - unfold kernel2_of_lists. replace (forallb _ l) with true; auto. symmetry. apply forallb_forall. intros r Hr.
    destruct (Z.eqb_spec (zlen r) (zlen l)); auto. exfalso. apply N. eauto.
Qed.

Lemma kernel_access {E} (K : kernel E) x y v : kwidth_ok true (k_width K) -> zlen (k_data K) = k_width K * k_width K ->
  0 <= x < 4294967296 -> 0 <= y < 4294967296 ->
  (k2_at K x y = Throw <-> k_width K <= x \/ k_width K <= y) /\ (k2_put K x y v = Throw <-> k_width K <= x \/ k_width K <= y) /\
  (x < k_width K -> y < k_width K ->
     (exists c, k2_at K x y = Ok c /\ znth (k_data K) (y * k_width K + x) = Some c) /\
     exists K', k2_put K x y v = Ok K' /\ k_width K' = k_width K /\ k_offset K' = k_offset K /\ zlen (k_data K') = zlen (k_data K) /\
       forall j, znth (k_data K') j = if j =? y * k_width K + x then Some v else znth (k_data K) j).
Proof.
  intros W L Hx Hy. unfold kwidth_ok in W.
  destruct (Z_lt_dec x (k_width K)) as [X|X]; [destruct (Z_lt_dec y (k_width K)) as [Y|Y]|].
  - assert (B : 0 <= y * k_width K + x < k_width K * k_width K) by nia.
    destruct (znth_in_range (k_data K) (y * k_width K + x)) as (c & Ec); [lia|].
    destruct (bset_exists (k_data K) (y * k_width K + x) v) as (d & Ed & Ld & Nd); [lia|].
    assert (A : k2_at K x y = Ok c).
    { unfold k2_at. replace (_ || _) with false by lia. rewrite u32_id by nia. replace (_ <=? _) with false by lia. now apply bget_Ok. }
    assert (P : k2_put K x y v = Ok (mkKernel (k_width K) (k_offset K) d)).
    { unfold k2_put, k_put. replace (_ || _) with false by lia. rewrite u32_id by nia. replace (_ <=? _) with false by lia. now rewrite Ed. }
    rewrite A, P. split; [split; [discriminate|lia]|]. split; [split; [discriminate|lia]|]. intros _ _. split; [eauto|].
    eexists. split; [reflexivity|]. cbn. auto.
  - unfold k2_at, k2_put. replace (_ || _) with true by lia. repeat split; auto; lia.
  - unfold k2_at, k2_put. replace (_ || _) with true by lia. repeat split; auto; lia.
Qed.

(** ** sums and extrema *)
Lemma kidx k l i : kholds k l -> 0 <= i < zlen l -> exists v, znth l i = Some v /\ ga_idx (ko_data k) i = Ok v.
Proof.
  intros (S & C) Hi. destruct (znth_in_range l i Hi) as (v & Ev). exists v. split; auto. unfold ga_idx.
  assert (X : znth (kcoefs k) i = Some (Some v)) by (rewrite C, znth_map, Ev; reflexivity).
  unfold kcoefs, ga_seq in X. rewrite znth_firstn in X by lia. now rewrite X.
Qed.

Lemma firstn_next {A} (l : list A) i v : znth l i = Some v -> firstn (Z.to_nat (i + 1)) l = firstn (Z.to_nat i) l ++ [v].
Proof.
  intros E. pose proof (znth_Some_range _ _ _ E) as R. unfold znth in E. replace (i <? 0) with false in E by lia.
  replace (Z.to_nat (i + 1)) with (S (Z.to_nat i)) by lia. clear R. revert l E. induction (Z.to_nat i) as [|n IH]; intros [|a l] E; try discriminate; cbn in *.
  - now injection E as ->.
  - f_equal. now apply IH.
Qed.

Lemma firstn_sum_bound l : forall n, - zsum (map Z.abs l) <= zsum (firstn n l) <= zsum (map Z.abs l).
Proof.
  induction l as [|v l IH]; intros [|n]; try (cbn; lia).
  - cbn [firstn map]. rewrite zsum_cons. specialize (IH 0%nat). cbn [firstn] in IH. change (zsum []) with 0 in *. lia.
  - cbn [firstn map]. rewrite !zsum_cons. specialize (IH n). lia.
Qed.
Lemma firstn_sum_pos l : (forall v, In v l -> 0 <= v) -> forall n, 0 <= zsum (firstn n l).
Proof.
  induction l as [|v l IH]; intros H [|n]; try (cbn; lia). cbn [firstn]. rewrite zsum_cons. pose proof (H v (or_introl eq_refl)).
  specialize (IH (fun u Hu => H u (or_intror Hu)) n). lia.
Qed.

Lemma kernel_sum t k l : kholds k l -> (forall v, In v l -> ity_min t <= v <= ity_max t) -> zsum (map Z.abs l) <= ity_max (sum_type t) ->
  ko_sum t k = Ok (zsum l).
Proof.
  intros K R B. unfold ko_sum. rewrite (proj1 K). pose proof (zlen_nonneg l).
  destruct (for_range_inv (fun i s => s = zsum (firstn (Z.to_nat i) l)) 0 (zlen l)
    (fun i s => let* c := ga_idx (ko_data k) i in arith_result (sum_type t) (s + c)) 0) as (s & Es & ->); auto.
  - intros i s Hi ->. destruct (kidx k l i K Hi) as (v & Ev & Ei). rewrite Ei. cbn [bind]. eexists. split; [|reflexivity].
    rewrite (firstn_next l i v Ev), zsum_app, zsum_cons. change (zsum []) with 0. rewrite Z.add_0_r. apply arith_result_in.
    pose proof (firstn_sum_bound l (Z.to_nat (i + 1))) as FB. rewrite (firstn_next l i v Ev), zsum_app, zsum_cons in FB. change (zsum []) with 0 in FB.
    assert (P : ity_min t = 0 -> 0 <= zsum (firstn (Z.to_nat (i + 1)) l)).
    { intros Z0. apply firstn_sum_pos. intros u Hu. specialize (R u Hu). lia. }
    rewrite (firstn_next l i v Ev), zsum_app, zsum_cons in P. change (zsum []) with 0 in P. destruct t; cbn in *; lia.
  - rewrite Es. f_equal. unfold zlen. now rewrite Nat2Z.id, firstn_all.
Qed.

Lemma kernel_best better f g k l : kholds k l -> l <> [] -> (forall v, In v l -> f v = Ok (g v)) ->
  (forall a b c, better b a = true -> better c a = false -> better c b = false) -> (forall a, better a a = false) ->
  exists b, ko_best better f k = Ok b /\ In b (map g l) /\ forall u, In u l -> better (g u) b = false.
Proof.
  intros K N F Tr Ir. unfold ko_best. rewrite (proj1 K). pose proof (zlen_nonneg l).
  assert (L : 0 < zlen l) by (destruct l; [congruence|rewrite zlen_cons; pose proof (zlen_nonneg l); lia]).
  destruct (kidx k l 0 K ltac:(lia)) as (x & Ex & Ix). assert (A : ga_at (ko_data k) 0 = Ok x).
  { unfold ga_at. rewrite (proj1 K). replace (zlen l <=? 0) with false by lia. exact Ix. }
  rewrite A. cbn [bind]. rewrite F by (eapply znth_In; eauto). cbn [bind].
  destruct (for_range_inv (fun i b => In b (map g (firstn (Z.to_nat i) l)) /\ forall u, In u (firstn (Z.to_nat i) l) -> better (g u) b = false) 1 (zlen l)
    (fun i b => let* c := ga_idx (ko_data k) i in let* a := f c in Ok (if better a b then a else b)) (g x)) as (b & Eb & Ib & Bb); auto.
  - lia.
  - change 1 with (0 + 1). rewrite (firstn_next l 0 x Ex). change (firstn (Z.to_nat 0) l) with (@nil Z). split; [left; reflexivity|]. intros u [<-|[]]. apply Ir.
  - intros i b Hi (Ib & Bb). destruct (kidx k l i K ltac:(lia)) as (v & Ev & Ei). rewrite Ei. cbn [bind]. rewrite F by (eapply znth_In; eauto). cbn [bind].
    eexists. split; [reflexivity|]. rewrite (firstn_next l i v Ev), map_app. destruct (better (g v) b) eqn:Be; (split; [apply in_or_app|intros u Hu; apply in_app_or in Hu as [Hu|[<-|[]]]]).
    + right. now left.
    + eapply Tr; eauto.
    + apply Ir.
    + now left.
    + auto.
    + auto.
  - exists b. rewrite Eb. unfold zlen in Ib, Bb. rewrite Nat2Z.id, firstn_all in Ib, Bb. auto.
Qed.

Lemma kernel_best_empty better f k : kholds k [] -> ko_best better f k = Throw.
Proof. intros (S & _). unfold ko_best, ga_at. rewrite S. reflexivity. Qed.

Lemma gt_trans a b c : (a <? b) = true -> (a <? c) = false -> (b <? c) = false. Proof. lia. Qed.
Lemma lt_trans' a b c : (b <? a) = true -> (c <? a) = false -> (c <? b) = false. Proof. lia. Qed.

Lemma kernel_extrema k l : kholds k l -> l <> [] ->
  (exists v, ko_max k = Ok v /\ In v l /\ forall u, In u l -> u <= v) /\ (exists v, ko_min k = Ok v /\ In v l /\ forall u, In u l -> v <= u).
Proof.
  intros K N. split.
  - destruct (kernel_best (fun a b => b <? a) (fun v => Ok v) (fun v => v) k l K N) as (b & Eb & Ib & Bb); auto.
    + intros a b c. apply gt_trans.
    + intros; lia.
    + rewrite map_id in Ib. exists b. repeat split; auto. intros u Hu. specialize (Bb u Hu). lia.
  - destruct (kernel_best (fun a b => a <? b) (fun v => Ok v) (fun v => v) k l K N) as (b & Eb & Ib & Bb); auto.
    + intros a b c. apply lt_trans'.
    + intros; lia.
    + rewrite map_id in Ib. exists b. repeat split; auto. intros u Hu. specialize (Bb u Hu). lia.
Qed.

Lemma ko_abs_ok t v : ity_min t <= v <= ity_max t -> v <> ity_min t \/ ity_min t = 0 -> Z.abs v <= ity_max S64 -> t <> U32 -> ko_abs t v = Ok (Z.abs v).
Proof.
  intros R N B U. unfold ko_abs. rewrite arith_result_in by (destruct t; cbn in *; try congruence; lia). cbn [bind].
  rewrite cast_id by (destruct t; cbn in *; try congruence; lia). reflexivity.
Qed.

Lemma kernel_abs t k l : kholds k l -> l <> [] -> t <> U32 -> (forall v, In v l -> ity_min t <= v <= ity_max t /\ (ity_min t < v \/ ity_min t = 0)) ->
  (exists v, ko_abs_max t k = Ok v /\ In v (map Z.abs l) /\ forall u, In u l -> Z.abs u <= v) /\
  (exists v, ko_abs_min t k = Ok v /\ In v (map Z.abs l) /\ forall u, In u l -> v <= Z.abs u).
Proof.
  intros K N U R.
  assert (F : forall v, In v l -> ko_abs t v = Ok (Z.abs v)).
  { intros v Hv. destruct (R v Hv) as (R1 & R2). apply ko_abs_ok; auto; [lia|]. destruct t; cbn in *; lia. }
  split.
  - destruct (kernel_best (fun a b => b <? a) (ko_abs t) Z.abs k l K N F) as (b & Eb & Ib & Bb); auto.
    + intros a b c. apply gt_trans.
    + intros; lia.
    + exists b. repeat split; auto. intros u Hu. specialize (Bb u Hu). lia.
  - destruct (kernel_best (fun a b => a <? b) (ko_abs t) Z.abs k l K N F) as (b & Eb & Ib & Bb); auto.
    + intros a b c. apply lt_trans'.
    + intros; lia.
    + exists b. repeat split; auto. intros u Hu. specialize (Bb u Hu). lia.
Qed.

Lemma kernel_stats t k l : t <> U32 -> kholds k l -> (forall v, In v l -> ity_min t <= v <= ity_max t) ->
  (zsum (map Z.abs l) <= ity_max (sum_type t) -> ko_sum t k = Ok (zsum l)) /\
  (l = [] -> ko_max k = Throw /\ ko_min k = Throw /\ ko_abs_max t k = Throw /\ ko_abs_min t k = Throw) /\
  (l <> [] -> (exists v, ko_max k = Ok v /\ In v l /\ forall u, In u l -> u <= v) /\ (exists v, ko_min k = Ok v /\ In v l /\ forall u, In u l -> v <= u)) /\
  (l <> [] -> (ity_signed t = true -> ~ In (ity_min t) l) ->
     (exists v, ko_abs_max t k = Ok v /\ In v (map Z.abs l) /\ forall u, In u l -> Z.abs u <= v) /\
     (exists v, ko_abs_min t k = Ok v /\ In v (map Z.abs l) /\ forall u, In u l -> v <= Z.abs u)).
Proof.
  intros U K R. split; [apply kernel_sum; auto|]. split.
  { intros ->. repeat split; now apply kernel_best_empty. }
  split; [now apply kernel_extrema|]. intros N M. apply kernel_abs; auto. intros v Hv. split; auto.
  destruct (ity_signed t) eqn:S; [|right; destruct t; cbn in *; congruence]. left. specialize (R v Hv).
  assert (v <> ity_min t) by (intros ->; now apply M). lia.
Qed.

(** ** random kernels *)
Lemma uniform_range t lo hi : t <> U32 -> ity_min t <= lo -> hi <= ity_max t -> lo < hi -> ko_uniform_range t lo hi = Ok (lo, hi - 1).
Proof.
  intros U A B C. unfold ko_uniform_range. rewrite arith_result_in by (destruct t; cbn in *; try congruence; lia). cbn [bind].
  rewrite cast_id by lia. now replace (lo <=? hi - 1) with true by lia.
Qed.

Lemma random_kernel {E} (m : memtype E) (i : kinit E) (h : list (kop E)) k0 k rng (P : E -> Prop) : 1 <= mt_size m -> mt_set m (mt_zero m) = mt_zero m ->
  kinit_ok i -> Forall (kop_ok (kinit_two i)) h -> kstart m i = Ok k0 -> krun m k0 h = Ok k -> (forall n, P (rng n)) ->
  exists k', ko_fill_uniform k rng = Ok k' /\ ko_width k' = ko_width k /\ ko_offset k' = ko_offset k /\
    kcoefs k' = map Some (map rng (map Z.of_nat (seq 0 (Z.to_nat (kcount (ko_two k) (ko_width k)))))) /\
    (forall x v, ko_at k' x = Ok v -> 0 <= x -> P v) /\ forall x y v, ko_two k = true -> 0 <= x -> 0 <= y -> ko_at2 k' x y = Ok v -> P v.
Proof.
  intros Hs Hz Hi Hh E0 Er HP. destruct (kstart_ok m Hs Hz i Hi) as (T & S).
  destruct S as (k0' & E0' & K0 & D & _). { rewrite <- T. congruence. } replace k0' with k0 in * by congruence.
  rewrite <- D in Hh. destruct (krun_ok m Hs h k0 K0 Hh) as (k' & Ek & K & D'). replace k' with k in * by congruence. clear k' Ek.
  destruct (kexec_ok m Hs k (KFill rng) K Logic.I) as (_ & X). destruct (X (fun f => f)) as (k' & Ek & K' & D2 & A1 & A2 & A3 & A4).
  cbn [kexec] in Ek. exists k'. do 3 (split; auto). pose proof K as (_ & W & C & _). destruct (cells_count _ _ W) as (_ & B).
  assert (V : kcoefs k' = map Some (map rng (map Z.of_nat (seq 0 (Z.to_nat (kcount (ko_two k) (ko_width k))))))).
  { apply znth_ext. intros j. destruct (Z.ltb_spec j 0); [rewrite !(proj2 (znth_None _ _)); auto; lia|].
    destruct (Z.ltb_spec j (zlen (kcoefs k))) as [L|L].
    - rewrite A4 by lia. rewrite !znth_map. unfold znth. replace (j <? 0) with false by lia.
      rewrite (nth_error_nth' _ 0%nat) by (rewrite seq_length; lia). rewrite seq_nth by lia. cbn. do 3 f_equal. lia.
    - rewrite !(proj2 (znth_None _ _)); auto; [unfold zlen; rewrite !map_length, seq_length; lia|lia]. }
  split; auto.
  assert (Q : forall j v, znth (kcoefs k') j = Some (Some v) -> P v).
  { intros j v Hj. rewrite V in Hj. apply znth_In in Hj. rewrite in_map_iff in Hj. destruct Hj as (w & [= ->] & Hw).
    rewrite in_map_iff in Hw. destruct Hw as (n & <- & _). auto. }
  split.
  - intros x v Hx H0. apply (Q x). now apply (kat_ok k' x K' H0).
  - intros x y v D3 Hx Hy. unfold ko_at2. pose proof K' as (_ & W' & C' & _). rewrite D2, D3 in W'. unfold kwidth_ok in W'.
    destruct (Z.leb_spec (ko_width k') x); cbn [orb]; [discriminate|]. destruct (Z.leb_spec (ko_width k') y); [discriminate|].
    destruct (pos2 (ko_width k') x y) as (U & BB); try lia. rewrite U. intros Hv. apply (Q (y * ko_width k' + x)). apply (kat_ok k' _ K'); auto. lia.
Qed.

(** ** witnesses *)
Lemma kernel_default : exists k v, k = ko_default (int_mem S32) false /\ ko_width k = 0 /\ ko_at k 9 = Ok v /\ ko_max k = Ok 0.
Proof. do 2 eexists. split; [reflexivity|]. vm_compute. auto. Qed.
Lemma kernel_offset : exists k k', ko_new (int_mem S32) false 3 1 = Ok k /\ ko_reshape (int_mem S32) k 2 5 = Ok k' /\ ko_width k' <= ko_offset k'.
Proof. do 2 eexists. split; [vm_compute; reflexivity|]. split; [vm_compute; reflexivity|]. vm_compute. discriminate. Qed.
Lemma kernel_large : exists k, ko_new (int_mem S32) true 65536 0 = Ok k /\ ko_at2 k 0 0 = Throw /\ ko_fill_uniform k (fun _ => 7) = Ok k.
Proof. eexists. split; [vm_compute; reflexivity|]. split; vm_compute; reflexivity. Qed.
Lemma kernel_rows : exists k k', ko_lists (int_mem S32) 0 [[1; 2]; [3; 4]] = Ok k /\ ko_at2 k 0 1 = Ok 3 /\
  ko_reshape (int_mem S32) k 3 0 = Ok k' /\ ko_at2 k' 0 1 = Ok 4.
Proof. do 2 eexists. split; [vm_compute; reflexivity|]. split; [reflexivity|]. split; [vm_compute; reflexivity|]. reflexivity. Qed.
Lemma kernel_abs_short : exists k l v, ko_list (int_mem S16) 0 l = Ok k /\ l = [-32768; 1] /\ ko_abs_max S16 k = Ok v /\ exists u, In u l /\ v < Z.abs u.
Proof.
  eexists. exists [-32768; 1]. eexists. split; [vm_compute; reflexivity|]. split; [reflexivity|]. split; [vm_compute; reflexivity|].
  exists (-32768). split; [now left|reflexivity].
Qed.
Lemma kernel_abs_int : exists k l, ko_list (int_mem S32) 0 l = Ok k /\ l = [1; -2147483648] /\ ko_abs_max S32 k = Undef.
Proof. eexists. exists [1; -2147483648]. split; [vm_compute; reflexivity|]. split; vm_compute; reflexivity. Qed.
Lemma random_empty_range : exists lo hi, ity_min S32 <= lo <= ity_max S32 /\ ity_min S32 <= hi <= ity_max S32 /\ lo = hi /\ ko_uniform_range S32 lo hi = Undef.
Proof. exists 5, 5. vm_compute. intuition discriminate. Qed.

Lemma kernel_info {E} (k : kobj E) x : kcomplete k ->
  zlen (kcoefs k) = ko_width k ^ ko_dimension k /\
  (ko_width k mod 2 = 1 -> ko_width k = 2 * ko_radius k + 1) /\ (ko_width k mod 2 = 0 -> ko_width k = 2 * ko_radius k) /\
  (ko_two k = false -> 0 <= x < ko_width k -> ko_idx k x = ko_at k x).
Proof.
  intros (W & L & S). unfold ko_dimension, ko_radius. split; [|split; [|split]].
  - rewrite L. unfold kcount. destruct (ko_two k); [rewrite Z.pow_2_r|rewrite Z.pow_1_r]; auto.
  - intros. pose proof (Z.div_mod (ko_width k) 2). lia.
  - intros. pose proof (Z.div_mod (ko_width k) 2). lia.
  - intros T Hx. unfold ko_idx, ko_at, ga_idx, ga_at. rewrite T in L. cbn in L.
    now replace (_ <=? _) with false by lia.
Qed.

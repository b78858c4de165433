(** Lemmas about GrowArray. *)
From Verif Require Import Base BaseFacts M_GrowArray S_GrowArray.

Lemma firstn_zlen {A} (l : list A) n : 0 <= n <= zlen l -> zlen (firstn (Z.to_nat n) l) = n.
Proof. unfold zlen; intros H. rewrite firstn_length. lia. Qed.
Lemma skipn_zlen {A} (l : list A) n : 0 <= n <= zlen l -> zlen (skipn (Z.to_nat n) l) = zlen l - n.
Proof. unfold zlen; intros H. rewrite skipn_length. lia. Qed.
Lemma nth_error_firstn' {A} (l : list A) n i : (i < n)%nat -> nth_error (firstn n l) i = nth_error l i.
Proof. revert n i; induction l; intros [|n] [|i] H; cbn; auto; try lia. apply IHl; lia. Qed.
Lemma znth_firstn {A} (l : list A) n i : i < n -> znth (firstn (Z.to_nat n) l) i = znth l i.
Proof.
  intros H. unfold znth. destruct (i <? 0) eqn:E; auto. apply nth_error_firstn'. lia.
Qed.
Lemma firstn_app_zlen {A} (l k : list A) n : zlen l = n -> firstn (Z.to_nat n) (l ++ k) = l.
Proof.
  intros <-. unfold zlen. rewrite Nat2Z.id, firstn_app, Nat.sub_diag, firstn_all. cbn. apply app_nil_r.
Qed.

(** The invariant of owning arrays. *)
Definition ga_inv {A} (g : growarr A) : Prop :=
  ga_own g = true /\ 0 <= ga_size g <= ga_len g /\ ga_len g = zlen (ga_data g) /\ ga_len g < 4294967296.

Section GA.
Context {A : Type} (m : memtype A).
Hypothesis Hsize : 1 <= mt_size m.
Implicit Type g : growarr A.

Lemma ga_new_inv n : 0 <= n < 4294967296 -> ga_inv (ga_new m n).
Proof. intros H. unfold ga_inv, ga_new; cbn. rewrite zlen_repeat. lia. Qed.
Lemma ga_of_list_inv l : zlen l < 4294967296 -> ga_inv (ga_of_list m l).
Proof.
  intros H. pose proof (zlen_nonneg l). unfold ga_inv, ga_of_list; cbn. rewrite u32_id by lia.
  unfold zlen in *. rewrite map_length. lia.
Qed.

Lemma ga_seq_zlen g : ga_inv g -> zlen (ga_seq g) = ga_size g.
Proof. intros (_ & H & E & _). unfold ga_seq. apply firstn_zlen. lia. Qed.

Lemma ga_grow_ok g n : ga_inv g -> 0 <= n < 4294967296 ->
  exists g', ga_grow m g n = Ok g' /\ ga_inv g' /\ ga_size g' = 0 /\ ga_default g' = ga_default g /\ n <= ga_len g'.
Proof.
  intros (O & S & E & L) H. unfold ga_grow. rewrite O. destruct (ga_len g <? n) eqn:El.
  - eexists; split; [reflexivity|]. unfold ga_inv; cbn. rewrite zlen_app, !zlen_repeat.
    assert (0 <= n / mt_size m) by (apply Z.div_pos; lia).
    assert (n / mt_size m <= n) by (apply Z.div_le_upper_bound; nia).
    set (q := n / mt_size m) in *. clearbody q. repeat split; auto; lia.
  - eexists; split; [reflexivity|]. unfold ga_inv; cbn. repeat split; auto; lia.
Qed.

Lemma move_elems_ok (dst src : list (option A)) n : 0 <= n -> n <= zlen dst -> n <= zlen src ->
  exists d, move_elems dst src n = Ok d /\ zlen d = zlen dst /\ firstn (Z.to_nat n) d = firstn (Z.to_nat n) src.
Proof.
  intros H0 H1 H2. unfold move_elems. replace (_ && _) with true by lia. eexists; split; [reflexivity|].
  rewrite zlen_app, firstn_zlen, skipn_zlen by lia. split; [lia|].
  rewrite firstn_app_zlen; auto. apply firstn_zlen; lia.
Qed.

Lemma ga_resize_ok g n : ga_inv g -> 0 <= n < 4294967296 ->
  exists g', ga_resize m g n = Ok g' /\ ga_inv g' /\ ga_size g' = n /\ ga_default g' = ga_default g /\
    (forall i, i < ga_size g -> i < n -> znth (ga_data g') i = znth (ga_data g) i) /\
    (ga_len g < n -> forall i, ga_size g <= i < n -> znth (ga_data g') i = Some (Some (mt_set m (ga_default g)))) /\
    (n <= ga_len g -> ga_data g' = ga_data g).
Proof.
  intros (O & S & E & L) H. unfold ga_resize. rewrite O. destruct (ga_len g <? n) eqn:El.
  - destruct (move_elems_ok (repeat None (Z.to_nat n)) (ga_data g) (ga_size g)) as (d & Ed & Ld & Fd); try lia.
    { rewrite zlen_repeat; lia. }
    rewrite Ed. cbn [bind]. rewrite Fd. eexists; split; [reflexivity|].
    assert (Lf : zlen (firstn (Z.to_nat (ga_size g)) (ga_data g)) = ga_size g) by (apply firstn_zlen; lia).
    split; [unfold ga_inv; cbn; rewrite zlen_app, zlen_repeat, Lf; lia|]. cbn. split; auto. split; auto.
    split; [|split; [|lia]].
    + intros i Hi Hn. rewrite znth_app_l by lia. now apply znth_firstn.
    + intros _ i Hi. rewrite znth_app_r by lia. apply znth_repeat. lia.
  - eexists; split; [reflexivity|]. unfold ga_inv; cbn. repeat split; auto; lia.
Qed.

Lemma ga_seq_of (d : list (option A)) n len dv o : ga_seq (mkGA d n len dv o) = firstn (Z.to_nat n) d.
Proof. reflexivity. Qed.

Lemma firstn_map_all (l : list A) : firstn (Z.to_nat (zlen l)) (map Some l) = map Some l.
Proof. unfold zlen. rewrite Nat2Z.id. rewrite <- (map_length Some l). apply firstn_all. Qed.
Lemma zlen_map {B} (f : A -> B) l : zlen (map f l) = zlen l.
Proof. unfold zlen. now rewrite map_length. Qed.

(** One call: no undefined behaviour, throws exactly when it should, has the specified effect on the sequence, and
    keeps the invariant. *)
Lemma ga_exec_ok g o : ga_inv g -> ga_op_ok o ->
  (seq_throws (ga_seq g) o /\ ga_exec m g o = Throw) \/
  (~ seq_throws (ga_seq g) o /\ exists g', ga_exec m g o = Ok g' /\ ga_inv g' /\ seq_step (ga_seq g) o (ga_seq g')).
Proof.
  intros I Ho. pose proof (ga_seq_zlen g I) as Ls. destruct o; cbn [ga_op_ok seq_throws ga_exec seq_step] in *.
  - right; split; auto. destruct (ga_grow_ok g n I Ho) as (g' & E & I' & S' & _). exists g'. split; auto. split; auto.
    unfold ga_seq. now rewrite S'.
  - right; split; auto. destruct (ga_resize_ok g n I Ho) as (g' & E & I' & S' & _ & K & _). exists g'.
    split; auto. split; auto. rewrite ga_seq_zlen by auto. split; auto. intros i Hi Hn. unfold ga_seq.
    rewrite !znth_firstn by lia. apply K; lia.
  - right; split; auto. unfold ga_fill. destruct I as (O & S & E & L). replace (_ <=? _) with true by lia.
    eexists; split; [reflexivity|].
    assert (I' : ga_inv (mkGA (repeat (Some (mt_set m v)) (Z.to_nat (ga_size g)) ++ skipn (Z.to_nat (ga_size g)) (ga_data g))
          (ga_size g) (ga_len g) (ga_default g) (ga_own g))).
    { unfold ga_inv; cbn. rewrite zlen_app, zlen_repeat, skipn_zlen by lia. repeat split; auto; lia. }
    split; auto. rewrite (ga_seq_zlen _ I'). cbn. now rewrite Ls.
  - destruct (Z.leb_spec (ga_size g) i) as [Hl|Hl].
    + left. split; [lia|]. unfold ga_at_set. now replace (_ <=? _) with true by lia.
    + right. split; [lia|]. unfold ga_at_set. replace (_ <=? _) with false by lia. destruct I as (O & S & E & L).
      destruct (bset_exists (ga_data g) i (Some v)) as (d & Ed & Ld & Hd); [lia|]. rewrite Ed. cbn [bind].
      eexists; split; [reflexivity|].
      assert (I' : ga_inv (mkGA d (ga_size g) (ga_len g) (ga_default g) (ga_own g))) by (unfold ga_inv; cbn; repeat split; auto; lia).
      split; auto. rewrite (ga_seq_zlen _ I'). split; [cbn; lia|]. intros j. unfold ga_seq; cbn.
      destruct (Z.ltb_spec j (ga_size g)).
      * rewrite !znth_firstn by lia. apply Hd.
      * replace (j =? i) with false by lia. rewrite !(proj2 (znth_None _ _)); auto; rewrite firstn_zlen; lia.
  - right; split; auto. eexists; split; [reflexivity|]. split; [exact I|reflexivity].
  - right; split; auto. unfold ga_assign.
    assert (I1 : ga_inv (ga_set_default g (ga_default other))) by exact I.
    destruct (ga_grow_ok _ (ga_size other) I1) as (g1 & E & I' & S' & D' & C'); [lia|]. rewrite E. cbn [bind].
    destruct I' as (O' & SS & EE & LL).
    destruct (move_elems_ok (ga_data g1) (ga_data other) (ga_size other)) as (d & Ed & Ld & Fd); try lia.
    rewrite Ed. cbn [bind]. eexists; split; [reflexivity|]. split; [unfold ga_inv; cbn; repeat split; auto; lia|].
    rewrite ga_seq_of. exact Fd.
  - right; split; auto. unfold ga_setTo. pose proof (zlen_nonneg l). rewrite u32_id by lia.
    destruct (ga_resize_ok g (zlen l) I ltac:(lia)) as (g1 & E & I' & S' & D' & _). rewrite E. cbn [bind].
    destruct I' as (O' & SS & EE & LL).
    destruct (move_elems_ok (ga_data g1) (map Some l) (zlen l)) as (d & Ed & Ld & Fd); try lia; [rewrite zlen_map; lia|].
    rewrite Ed. cbn [bind]. eexists; split; [reflexivity|]. split; [unfold ga_inv; cbn; repeat split; auto; lia|].
    rewrite ga_seq_of, S', Fd. apply firstn_map_all.
  - right; split; auto. unfold ga_set. pose proof (zlen_nonneg src).
    destruct (ga_grow_ok g (zlen src) I ltac:(lia)) as (g1 & E & I' & S' & D' & C'). rewrite E. cbn [bind].
    destruct I' as (O' & SS & EE & LL).
    destruct (move_elems_ok (ga_data g1) (map Some src) (zlen src)) as (d & Ed & Ld & Fd); try lia; [rewrite zlen_map; lia|].
    rewrite Ed. cbn [bind]. eexists; split; [reflexivity|]. split; [unfold ga_inv; cbn; repeat split; auto; lia|].
    rewrite ga_seq_of, Fd. apply firstn_map_all.
Qed.

Lemma ga_run_inv l : forall g, ga_inv g -> Forall ga_op_ok l -> exists g', ga_run m g l = Ok g' /\ ga_inv g'.
Proof.
  induction l as [|o l IH]; intros g I F; cbn [ga_run].
  - eauto.
  - inversion F; subst. destruct (ga_exec_ok g o I H1) as [(_ & E)|(_ & g' & E & I' & _)]; rewrite E; auto.
Qed.

Lemma ga_at_ok g i : ga_inv g -> 0 <= i ->
  (ga_size g <= i -> ga_at g i = Throw) /\
  (i < ga_size g -> exists c, znth (ga_seq g) i = Some c /\ znth (ga_data g) i = Some c /\
      ga_at g i = match c with Some v => Ok v | None => Undef end).
Proof.
  intros (O & S & E & L) H. unfold ga_at. split; intros Hi.
  - now replace (_ <=? _) with true by lia.
  - replace (_ <=? _) with false by lia. destruct (znth_in_range (ga_data g) i) as [c Ec]; [lia|]. exists c.
    unfold ga_seq. rewrite znth_firstn by lia. rewrite Ec. auto.
Qed.

Lemma ga_fill_elems g v g' : ga_inv g -> ga_fill m g v = Ok g' ->
  ga_size g' = ga_size g /\ forall i, 0 <= i < ga_size g -> ga_at g' i = Ok (mt_set m v).
Proof.
  intros (O & S & E & L) H. unfold ga_fill in H. replace (_ <=? _) with true in H by lia. injection H as <-. cbn.
  split; auto. intros i Hi. unfold ga_at; cbn. replace (_ <=? _) with false by lia.
  rewrite znth_app_l by (rewrite zlen_repeat; lia). now rewrite znth_repeat by lia.
Qed.
End GA.

(** ** histories from the constructors *)
Lemma ga_history_lemma (A : Type) (m : memtype A) (g0 : growarr A) (h : list (ga_op A)) (o : ga_op A) :
  1 <= mt_size m ->
  (exists n, 0 <= n < 4294967296 /\ g0 = ga_new m n) \/ (exists l, zlen l < 4294967296 /\ g0 = ga_of_list m l) ->
  Forall ga_op_ok h -> ga_op_ok o ->
  exists g, ga_run m g0 h = Ok g /\
    ga_size g <= ga_len g /\ zlen (ga_seq g) = ga_size g /\
    (forall i, 0 <= i < 4294967296 -> (ga_at g i = Throw <-> ga_size g <= i)) /\
    (forall i v, 0 <= i -> (ga_at g i = Ok v <-> znth (ga_seq g) i = Some (Some v))) /\
    (seq_throws (ga_seq g) o -> ga_exec m g o = Throw) /\
    (~ seq_throws (ga_seq g) o -> exists g', ga_exec m g o = Ok g' /\ seq_step (ga_seq g) o (ga_seq g')).
Proof.
  intros Hs H0 Hh Ho.
  assert (I0 : ga_inv g0).
  { destruct H0 as [(n & Hn & ->)|(l & Hl & ->)]; [now apply ga_new_inv|now apply ga_of_list_inv]. }
  destruct (ga_run_inv m Hs h g0 I0 Hh) as (g & E & I). exists g. split; auto.
  assert (Ls := ga_seq_zlen g I).
  split; [apply I|]. split; auto. split; [|split; [|split]].
  - intros i Hi. destruct (ga_at_ok g i I ltac:(lia)) as [T N]. split; auto. intros Ht.
    destruct (Z.leb_spec (ga_size g) i); auto. destruct N as (c & _ & _ & Ec); auto. rewrite Ec in Ht.
    destruct c; discriminate.
  - intros i v Hi. destruct (ga_at_ok g i I Hi) as [T N]. destruct (Z.leb_spec (ga_size g) i) as [Hl|Hl].
    + rewrite T by auto. split; [discriminate|]. intros X. apply znth_Some_range in X. lia.
    + destruct N as (c & Ec & _ & Ea); auto. rewrite Ec, Ea. destruct c; split; congruence.
  - intros T. destruct (ga_exec_ok m Hs g o I Ho) as [(_ & E')|(N & _)]; tauto.
  - intros N. destruct (ga_exec_ok m Hs g o I Ho) as [(T & _)|(_ & g' & E' & _ & S')]; [tauto|eauto].
Qed.

(** ** memset values *)
Fixpoint rep256 (n : nat) : Z := match n with O => 0 | S m => 1 + 256 * rep256 m end.

Lemma rep_bytes b : 0 <= b < 256 -> forall n k m, (k < n)%nat ->
  ((b * rep256 n + 256 ^ Z.of_nat n * m) / 256 ^ Z.of_nat k) mod 256 = b.
Proof.
  intros Hb. induction n as [|n IH]; intros k m Hk; [lia|].
  replace (256 ^ Z.of_nat (S n)) with (256 * 256 ^ Z.of_nat n) by (rewrite <- Z.pow_succ_r by lia; f_equal; lia).
  cbn [rep256]. set (P := 256 ^ Z.of_nat n) in *. set (R := rep256 n) in *.
  destruct k as [|k].
  - change (256 ^ Z.of_nat 0) with 1. rewrite Z.div_1_r.
    symmetry; apply (Z.mod_unique _ _ (b * R + P * m)); lia.
  - replace (256 ^ Z.of_nat (S k)) with (256 * 256 ^ Z.of_nat k) by (rewrite <- Z.pow_succ_r by lia; f_equal; lia).
    assert (0 < 256 ^ Z.of_nat k) by (apply Z.pow_pos_nonneg; lia).
    rewrite <- Z.div_div by lia.
    replace ((b * (1 + 256 * R) + 256 * P * m) / 256) with (b * R + P * m).
    2:{ apply (Z.div_unique _ _ _ b); lia. }
    apply IH. lia.
Qed.

Lemma bytes_rep : forall n v b, (forall k, (k < n)%nat -> (v / 256 ^ Z.of_nat k) mod 256 = b) ->
  exists m, v = b * rep256 n + 256 ^ Z.of_nat n * m.
Proof.
  induction n as [|n IH]; intros v b H.
  - exists v. cbn [rep256]. change (256 ^ Z.of_nat 0) with 1. lia.
  - destruct (IH (v / 256) b) as [m Em].
    + intros k Hk. specialize (H (S k) ltac:(lia)).
      replace (256 ^ Z.of_nat (S k)) with (256 * 256 ^ Z.of_nat k) in H
        by (rewrite <- Z.pow_succ_r by lia; f_equal; lia).
      assert (0 < 256 ^ Z.of_nat k) by (apply Z.pow_pos_nonneg; lia).
      now rewrite <- Z.div_div in H by lia.
    + exists m. replace (256 ^ Z.of_nat (S n)) with (256 * 256 ^ Z.of_nat n) by (rewrite <- Z.pow_succ_r by lia; f_equal; lia).
      cbn [rep256]. specialize (H 0%nat ltac:(lia)). change (256 ^ Z.of_nat 0) with 1 in H. rewrite Z.div_1_r in H.
      pose proof (Z.div_mod v 256 ltac:(lia)) as D. rewrite H, Em in D. rewrite D at 1. ring.
Qed.

Lemma cast_eq_iff t x v : ity_min t <= v <= ity_max t -> 0 <= x < 256 ^ ity_size t ->
  (cast t x = v <-> exists m, v = x + 256 ^ ity_size t * m).
Proof.
  intros R. destruct t; cbn [ity_size ity_min ity_max cast] in *; unfold u8, u16, u32, s16, s32, s64;
    match goal with |- context [256 ^ ?k] => let z := eval vm_compute in (256 ^ k) in change (256 ^ k) with z end;
    intros Hx; (split; [intros E|intros [m Em]; lia]).
  1-3: exists 0; rewrite Z.mod_small in E by lia; lia.
  - exists (- ((x + 32768) / 65536)). pose proof (Z.div_mod (x + 32768) 65536). lia.
  - exists (- ((x + 2147483648) / 4294967296)). pose proof (Z.div_mod (x + 2147483648) 4294967296). lia.
  - exists (- ((x + 9223372036854775808) / 18446744073709551616)).
    pose proof (Z.div_mod (x + 9223372036854775808) 18446744073709551616). lia.
Qed.

Lemma memset_elem_rep t v : memset_elem t v = cast t (v mod 256 * rep256 (Z.to_nat (ity_size t))).
Proof. unfold memset_elem, u8. destruct t; cbn [ity_size];
  match goal with |- context [rep256 ?k] => let z := eval vm_compute in (rep256 k) in change (rep256 k) with z end;
  f_equal; lia. Qed.

Lemma memset_elem_iff t v : ity_min t <= v <= ity_max t -> (memset_elem t v = v <-> bytes_equal t v).
Proof.
  intros R. rewrite memset_elem_rep. pose proof (Z.mod_pos_bound v 256 ltac:(lia)) as Hb.
  assert (Hs : 1 <= ity_size t) by (destruct t; cbn; lia).
  rewrite cast_eq_iff; auto.
  2:{ set (b := v mod 256) in *. clearbody b. destruct t; cbn [ity_size];
      match goal with |- context [256 ^ ?k] => let z := eval vm_compute in (256 ^ k) in change (256 ^ k) with z end;
      match goal with |- context [rep256 ?k] => let z := eval vm_compute in (rep256 k) in change (rep256 k) with z end; lia. }
  unfold bytes_equal. replace (256 ^ ity_size t) with (256 ^ Z.of_nat (Z.to_nat (ity_size t))) by (f_equal; lia).
  split.
  - intros [m Em] k Hk. rewrite Em at 1. replace k with (Z.of_nat (Z.to_nat k)) by lia. apply rep_bytes; lia.
  - intros H. apply bytes_rep. intros k Hk. apply H. lia.
Qed.

Lemma ity_size_pos t : 1 <= ity_size t.
Proof. destruct t; cbn; lia. Qed.

Lemma ga_fill_lemma t (g0 : growarr Z) h v :
  (exists n, 0 <= n < 4294967296 /\ g0 = ga_new (int_mem t) n) \/
  (exists l, zlen l < 4294967296 /\ g0 = ga_of_list (int_mem t) l) ->
  Forall ga_op_ok h -> ity_min t <= v <= ity_max t ->
  exists g g', ga_run (int_mem t) g0 h = Ok g /\ ga_fill (int_mem t) g v = Ok g' /\ ga_size g' = ga_size g /\
    (0 < ga_size g -> ((forall i, 0 <= i < ga_size g -> ga_at g' i = Ok v) <-> bytes_equal t v)).
Proof.
  intros H0 Hh Hv. assert (Hs : 1 <= mt_size (int_mem t)) by apply ity_size_pos.
  assert (I0 : ga_inv g0).
  { destruct H0 as [(n & Hn & ->)|(l & Hl & ->)]; [now apply ga_new_inv|now apply ga_of_list_inv]. }
  destruct (ga_run_inv _ Hs h g0 I0 Hh) as (g & E & I).
  destruct (ga_exec_ok _ Hs g (Op_fill v) I Logic.I) as [([] & _)|(_ & g' & E' & I' & _)].
  cbn in E'. exists g, g'. split; auto. split; auto.
  destruct (ga_fill_elems _ g v g' I E') as [Es Ee]. split; auto. intros Hp. rewrite <- memset_elem_iff by auto.
  split.
  - intros H. specialize (H 0 ltac:(lia)). rewrite Ee in H by lia. cbn in H. congruence.
  - intros H i Hi. rewrite Ee by auto. cbn. congruence.
Qed.

Lemma ga_resize_default_lemma t (g0 : growarr Z) h n :
  (exists n, 0 <= n < 4294967296 /\ g0 = ga_new (int_mem t) n) \/
  (exists l, zlen l < 4294967296 /\ g0 = ga_of_list (int_mem t) l) ->
  Forall ga_op_ok h -> 0 <= n < 4294967296 ->
  exists g g', ga_run (int_mem t) g0 h = Ok g /\ ga_resize (int_mem t) g n = Ok g' /\ ga_size g' = n /\
    (* fresh storage: the default value, provided its bytes are all equal *)
    (ga_len g < n -> ity_min t <= ga_default g <= ity_max t -> bytes_equal t (ga_default g) ->
       forall i, ga_size g <= i < n -> ga_at g' i = Ok (ga_default g)) /\
    (* storage at hand: whatever it contained *)
    (n <= ga_len g -> ga_data g' = ga_data g).
Proof.
  intros H0 Hh Hn. assert (Hs : 1 <= mt_size (int_mem t)) by apply ity_size_pos.
  assert (I0 : ga_inv g0).
  { destruct H0 as [(k & Hk & ->)|(l & Hl & ->)]; [now apply ga_new_inv|now apply ga_of_list_inv]. }
  destruct (ga_run_inv _ Hs h g0 I0 Hh) as (g & E & I).
  destruct (ga_resize_ok (int_mem t) g n I Hn) as (g' & E' & I' & S' & D' & _ & F & K).
  exists g, g'. split; auto. split; auto. split; auto. split; auto.
  intros Hl Hr Hb i Hi. unfold ga_at. rewrite S'. replace (_ <=? _) with false by lia. rewrite F by auto. cbn.
  f_equal. now apply memset_elem_iff.
Qed.

Lemma bytes_equal_0 t : bytes_equal t 0.
Proof. intros k Hk. rewrite Z.div_0_l; auto. apply Z.pow_nonzero; lia. Qed.
Lemma bytes_equal_one t v : ity_size t = 1 -> bytes_equal t v.
Proof. intros H k Hk. replace k with 0 by lia. change (256 ^ 0) with 1. now rewrite Z.div_1_r. Qed.

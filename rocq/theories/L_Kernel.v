(** Facts about the kernel factory. *)
From Coq Require Import Reals Lra.
From Flocq Require Import Core.
From Verif Require Import Base BaseFacts M_Image M_Convolve M_Otsu M_Config M_Kernel S_Stats S_Kernel.
Open Scope Z_scope.

(** ** Tables *)
Lemma zrange_length n : 0 <= n -> zlen (zrange n) = n.
Proof. intros H. unfold zlen, zrange. rewrite map_length, seq_length. lia. Qed.
Lemma table_zlen {A} n (f : Z -> A) : 0 <= n -> zlen (table n f) = n.
Proof. intros H. unfold zlen, table. rewrite map_length. now apply zrange_length. Qed.
Lemma table_znth {A} n (f : Z -> A) i : 0 <= i < n -> znth (table n f) i = Some (f i).
Proof.
  intros H. unfold znth. destruct (Z.ltb_spec i 0); try lia.
  unfold table, zrange. rewrite !nth_error_map.
  assert (X : nth_error (seq 0 (Z.to_nat n)) (Z.to_nat i) = Some (Z.to_nat i)).
  { assert (L : (Z.to_nat i < length (seq 0 (Z.to_nat n)))%nat) by (rewrite seq_length; lia).
    rewrite (nth_error_nth' _ O) by exact L. rewrite seq_nth by (rewrite seq_length in L; exact L). reflexivity. }
  rewrite X. cbn [option_map]. rewrite Z2Nat.id by lia. reflexivity.
Qed.
Lemma table_out {A} n (f : Z -> A) i : ~ 0 <= i < n -> znth (table n f) i = None.
Proof.
  intros H. unfold znth. destruct (Z.ltb_spec i 0); auto.
  apply nth_error_None. unfold table, zrange. rewrite !map_length, seq_length. lia.
Qed.
Lemma table_In {A} n (f : Z -> A) v : In v (table n f) <-> exists i, 0 <= i < n /\ f i = v.
Proof.
  unfold table, zrange. rewrite in_map_iff. split.
  - intros (i & E & I). apply in_map_iff in I as (k & <- & I). apply in_seq in I. exists (Z.of_nat k). split; auto; lia.
  - intros (i & Hi & E). exists i. split; auto. apply in_map_iff. exists (Z.to_nat i). split; [lia|]. apply in_seq; lia.
Qed.
Lemma table_ext {A} n (f g : Z -> A) : (forall i, 0 <= i < n -> f i = g i) -> table n f = table n g.
Proof.
  intros H. unfold table. apply map_ext_in. intros i I. apply in_map_iff in I as (k & <- & I). apply in_seq in I.
  apply H. lia.
Qed.
Lemma table_map {A B} n (f : Z -> A) (g : A -> B) : map g (table n f) = table n (fun i => g (f i)).
Proof. unfold table. apply map_map. Qed.
Lemma table_eq {A} (l : list A) n f : zlen l = n -> (forall i, 0 <= i < n -> znth l i = Some (f i)) -> l = table n f.
Proof.
  intros L H. apply znth_ext. intros i. destruct (Z_lt_le_dec i 0) as [N|N]; [|destruct (Z_lt_le_dec i n) as [M|M]].
  - unfold znth. destruct (Z.ltb_spec i 0); auto; lia.
  - rewrite H, table_znth by lia. reflexivity.
  - rewrite (table_out n f) by lia. unfold znth. destruct (Z.ltb_spec i 0); auto. apply nth_error_None. unfold zlen in L. lia.
Qed.
Lemma zrange_succ n : 0 <= n -> zrange (n + 1) = zrange n ++ [n].
Proof.
  intros H. unfold zrange. replace (Z.to_nat (n + 1)) with (Z.to_nat n + 1)%nat by lia.
  rewrite seq_app, map_app. cbn. repeat f_equal. lia.
Qed.
Lemma table_succ {A} n (f : Z -> A) : 0 <= n -> table (n + 1) f = table n f ++ [f n].
Proof. intros H. unfold table. rewrite zrange_succ by auto. apply map_app. Qed.
Lemma table_repeat {A} (a : A) n : repeat a (Z.to_nat n) = table n (fun _ => a).
Proof.
  unfold table, zrange. rewrite map_map. generalize (Z.to_nat n) as k. clear.
  intros k. generalize O. induction k; intros s; cbn; auto. f_equal. auto.
Qed.

(** ** Loops over a kernel *)
Lemma fill_loop {S} (body : Z -> kernel S -> outcome (kernel S)) (f : Z -> S) w off d n :
  0 <= n <= zlen d ->
  (forall i e, 0 <= i < n -> zlen e = zlen d -> znth e i = znth d i ->
     body i (mkKernel w off e) = Ok (mkKernel w off (upd e (Z.to_nat i) (f i)))) ->
  exists e, for_range 0 n body (mkKernel w off d) = Ok (mkKernel w off e) /\ zlen e = zlen d /\
    forall i, znth e i = if (0 <=? i) && (i <? n) then Some (f i) else znth d i.
Proof.
  intros Hn Hb.
  destruct (for_range_inv (fun k K => exists e, K = mkKernel w off e /\ zlen e = zlen d /\
     forall i, znth e i = if (0 <=? i) && (i <? k) then Some (f i) else znth d i) 0 n body (mkKernel w off d))
    as (K & E & e & -> & L & H).
  - lia.
  - exists d. split; [reflexivity|]. split; [reflexivity|]. intros i.
    destruct (Z.leb_spec 0 i); cbn; auto. destruct (Z.ltb_spec i 0); auto; lia.
  - intros i K Hi (e & -> & L & H).
    exists (mkKernel w off (upd e (Z.to_nat i) (f i))). split.
    + apply Hb; auto. rewrite H. destruct (Z.leb_spec 0 i); cbn; auto. destruct (Z.ltb_spec i i); auto; lia.
    + exists (upd e (Z.to_nat i) (f i)). split; auto. split; [unfold zlen in *; now rewrite upd_length|].
      assert (B : bset e i (f i) = Ok (upd e (Z.to_nat i) (f i))) by (apply bset_in; lia).
      apply bset_Ok in B as (_ & _ & B). intros j. rewrite B.
      destruct (Z.eqb_spec j i) as [->|N].
      * destruct (Z.leb_spec 0 i); try lia. destruct (Z.ltb_spec i (i + 1)); try lia. reflexivity.
      * rewrite H. destruct (Z.leb_spec 0 j); cbn; auto.
        destruct (Z.ltb_spec j i), (Z.ltb_spec j (i + 1)); auto; lia.
  - exists e. auto.
Qed.

Lemma fill_all {S} (body : Z -> kernel S -> outcome (kernel S)) (f : Z -> S) w off d n :
  zlen d = n ->
  (forall i e, 0 <= i < n -> zlen e = n -> znth e i = znth d i ->
     body i (mkKernel w off e) = Ok (mkKernel w off (upd e (Z.to_nat i) (f i)))) ->
  for_range 0 n body (mkKernel w off d) = Ok (mkKernel w off (table n f)).
Proof.
  intros L Hb. destruct (fill_loop body f w off d n) as (e & E & Le & He).
  - unfold zlen in *; lia.
  - intros; apply Hb; auto; lia.
  - rewrite E. do 2 f_equal. apply table_eq; [lia|]. intros i Hi. rewrite He.
    destruct (Z.leb_spec 0 i), (Z.ltb_spec i n); auto; lia.
Qed.

Lemma put_in {S} w off (e : list S) i v : 0 <= i < zlen e ->
  k_put (mkKernel w off e) i v = Ok (mkKernel w off (upd e (Z.to_nat i) v)).
Proof. intros H. unfold k_put. cbn [k_data k_width k_offset]. rewrite bset_in by auto. reflexivity. Qed.

Lemma list_loop {A B} (l : list A) (f : B -> A -> B) s :
  for_range 0 (zlen l) (fun i s => let* c := bget l i in Ok (f s c)) s = Ok (fold_left f l s).
Proof.
  destruct (for_range_inv (fun i s' => s' = fold_left f (firstn (Z.to_nat i) l) s) 0 (zlen l)
    (fun i s => let* c := bget l i in Ok (f s c)) s) as (s' & E & ->).
  - unfold zlen; lia.
  - reflexivity.
  - intros i s' Hi ->. unfold bget, znth. destruct (Z.ltb_spec i 0); try lia.
    destruct (nth_error l (Z.to_nat i)) as [a|] eqn:Ea.
    2:{ apply nth_error_None in Ea. unfold zlen in Hi; lia. }
    cbn. exists (f (fold_left f (firstn (Z.to_nat i) l) s) a). split; auto.
    replace (Z.to_nat (i + 1)) with (Datatypes.S (Z.to_nat i)) by lia.
    assert (F : firstn (Datatypes.S (Z.to_nat i)) l = firstn (Z.to_nat i) l ++ [a]).
    { clear -Ea. revert l Ea. induction (Z.to_nat i); intros [|b l] Ea; cbn in *; try congruence.
      f_equal. now apply IHn. }
    rewrite F, fold_left_app. reflexivity.
  - rewrite E. f_equal. f_equal. rewrite firstn_all2; auto. unfold zlen; lia.
Qed.

Lemma k_sum_fold {D} (O : dops D) K : k_sum O K = Ok (fold_left (d_add O) (k_data K) (d_of O 0)).
Proof. unfold k_sum. apply list_loop. Qed.

Lemma k_best_fold {S} better (f : S -> S) w off a l :
  k_best better f (mkKernel w off (a :: l)) = Ok (fold_left (fun m x => if better (f x) m then f x else m) l (f a)).
Proof.
  unfold k_best, k1_at. cbn [k_data].
  assert (E : (zlen (a :: l) <=? 0) = false) by (apply Z.leb_gt; unfold zlen; cbn; lia). rewrite E.
  change (bget (a :: l) 0) with (Ok a). cbn [bind].
  replace (zlen (a :: l)) with (zlen l + 1) by (unfold zlen; cbn [length]; lia).
  change 1 with (0 + 1) at 1. rewrite for_range_shift.
  rewrite <- (list_loop l (fun m x => if better (f x) m then f x else m)). apply for_range_ext.
  intros i s Hi. replace (bget (a :: l) (i + 1)) with (bget l i); auto.
  unfold bget, znth. destruct (Z.ltb_spec i 0), (Z.ltb_spec (i + 1) 0); try lia.
  replace (Z.to_nat (i + 1)) with (Datatypes.S (Z.to_nat i)) by lia. reflexivity.
Qed.
Lemma k_best_empty {S} better (f : S -> S) w off : k_best better f (mkKernel w off []) = Throw.
Proof. reflexivity. Qed.

(** ** Sums of reals *)
Lemma rsum_cons a l : rsum (a :: l) = (a + rsum l)%R.
Proof. reflexivity. Qed.
Lemma rsum_nil : rsum [] = 0%R.
Proof. reflexivity. Qed.
Lemma rsum_left l : forall s, fold_left Rplus l s = (s + rsum l)%R.
Proof.
  induction l as [|a l IH]; intros s; cbn [fold_left]; [rewrite rsum_nil; lra|]. rewrite IH, rsum_cons. lra.
Qed.
Lemma rsum_app l k : rsum (l ++ k) = (rsum l + rsum k)%R.
Proof. induction l; cbn [app]; [rewrite rsum_nil; lra|]. rewrite !rsum_cons, IHl. lra. Qed.
Lemma rsum_div l s : rsum (map (fun v => (v / s)%R) l) = (rsum l / s)%R.
Proof. induction l; cbn [map]; [rewrite rsum_nil; unfold Rdiv; lra|]. rewrite !rsum_cons, IHl. unfold Rdiv. lra. Qed.
Lemma rsum_scale l s : rsum (map (fun v => (s * v)%R) l) = (s * rsum l)%R.
Proof. induction l; cbn [map]; [rewrite rsum_nil; lra|]. rewrite !rsum_cons, IHl. lra. Qed.
Lemma rsum_pos l : l <> [] -> (forall v, In v l -> (0 < v)%R) -> (0 < rsum l)%R.
Proof.
  induction l as [|a l IH]; [congruence|]. intros _ H. rewrite rsum_cons.
  assert (0 < a)%R by (apply H; now left). destruct l as [|b l]; [rewrite rsum_nil; lra|].
  assert (0 < rsum (b :: l))%R by (apply IH; [congruence|]; intros; apply H; now right). lra.
Qed.
Lemma table_app {A} n m (f : Z -> A) : 0 <= n -> 0 <= m -> table (n + m) f = table n f ++ table m (fun i => f (n + i)).
Proof.
  intros Hn Hm. pattern m. apply natlike_ind; [| |exact Hm].
  - rewrite Z.add_0_r. cbn. now rewrite app_nil_r.
  - intros k Hk IH. replace (n + Z.succ k) with (n + k + 1) by lia. rewrite table_succ by lia. rewrite IH.
    replace (Z.succ k) with (k + 1) by lia. rewrite table_succ by lia. rewrite <- app_assoc. reflexivity.
Qed.
Lemma rsum_rows w f n : 0 <= w -> 0 <= n ->
  rsum (table (n * w) f) = rsum (table n (fun y => rsum (table w (fun x => f (y * w + x))))).
Proof.
  intros Hw Hn. pattern n. apply natlike_ind; [reflexivity| |exact Hn].
  intros k Hk IH. replace (Z.succ k * w) with (k * w + w) by lia. rewrite table_app by nia.
  replace (Z.succ k) with (k + 1) by lia. rewrite table_succ by lia. rewrite !rsum_app, IH, rsum_cons, rsum_nil. lra.
Qed.
Lemma rsum_square w f : 0 < w -> rsum (square_table w f) = (rsum (table w f) * rsum (table w f))%R.
Proof.
  intros Hw. unfold square_table. rewrite rsum_rows by lia.
  transitivity (rsum (table w (fun y => (rsum (table w f) * f y)%R))).
  - f_equal. apply table_ext. intros y Hy.
    rewrite <- (Rmult_comm (f y)). rewrite <- rsum_scale, table_map. f_equal. apply table_ext. intros x Hx.
    assert ((y * w + x) mod w = x /\ (y * w + x) / w = y) as [-> ->].
    { split; [rewrite Z.add_comm, Z.mod_add by lia; apply Z.mod_small; lia|
              rewrite Z.add_comm, Z.div_add by lia; rewrite Z.div_small; lia]. }
    lra.
  - rewrite <- (table_map w f (fun v => (rsum (table w f) * v)%R)). apply rsum_scale.
Qed.

(** ** normalize *)
Lemma normalize_loop {D} (O : dops D) w off d : zlen d = w ->
  normalize O (mkKernel w off d) =
    Ok (mkKernel w off (map (fun v => d_div O v (fold_left (d_add O) d (d_of O 0))) d)).
Proof.
  intros L. unfold normalize. rewrite k_sum_fold. cbn [bind k_data k_width].
  set (s := fold_left _ _ _).
  set (f := fun i => match znth d i with Some v => d_div O v s | None => s end).
  rewrite (fill_all _ f); auto.
  2:{ intros i e Hi Le He. unfold k_raw, bget, f. cbn [k_data]. rewrite He.
      destruct (znth_in_range d i) as (v & Hv); [lia|]. rewrite Hv. cbn [bind]. rewrite put_in by lia. reflexivity. }
  do 2 f_equal. symmetry. apply table_eq; [unfold zlen in *; now rewrite map_length|].
  intros i Hi. destruct (znth_in_range d i) as (v & Hv); [lia|]. unfold f. rewrite Hv.
  unfold znth in *. destruct (Z.ltb_spec i 0); try lia. rewrite nth_error_map, Hv. reflexivity.
Qed.
Lemma normalize_real w off d : zlen d = w ->
  normalize reals (mkKernel w off d) = Ok (mkKernel w off (map (fun v => (v / rsum d)%R) d)).
Proof.
  intros L. rewrite normalize_loop by auto. cbn [reals d_div d_add d_of].
  replace (fold_left Rplus d 0%R) with (rsum d); auto. rewrite rsum_left. lra.
Qed.
Lemma normalize_sum w off d : zlen d = w -> rsum d <> 0%R ->
  exists d', normalize reals (mkKernel w off d) = Ok (mkKernel w off d') /\ rsum d' = 1%R /\
    zlen d' = w /\ forall i v, znth d i = Some v -> znth d' i = Some (v / rsum d)%R.
Proof.
  intros L N. eexists. split; [apply normalize_real; auto|]. split; [rewrite rsum_div; field; auto|].
  split; [unfold zlen in *; now rewrite map_length|].
  intros i v. unfold znth. destruct (i <? 0); [discriminate|]. rewrite nth_error_map. intros ->. reflexivity.
Qed.

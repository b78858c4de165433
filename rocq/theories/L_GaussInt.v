(** Integer and two-dimensional Gaussian kernels; Gaussian blur. *)
From Coq Require Import Reals Lra.
From Flocq Require Import Core.
From Verif Require Import Base BaseFacts M_Image M_Convolve M_Otsu M_Config M_Kernel S_Stats S_Kernel L_Kernel L_Gauss.
Open Scope Z_scope.

(** ** Largest and smallest element *)
Lemma abs_real x : d_abs reals x = Rabs x.
Proof.
  unfold d_abs. cbn. destruct (Rle_dec x 0).
  - rewrite Rabs_left1 by auto. lra.
  - rewrite Rabs_right; lra.
Qed.
Lemma fold_max l : forall m,
  let r := fold_left (fun m x => if d_lt reals m (d_abs reals x) then d_abs reals x else m) l m in
  (m <= r)%R /\ (forall v, In v l -> (Rabs v <= r)%R) /\ (r = m \/ exists v, In v l /\ r = Rabs v).
Proof.
  induction l as [|a l IH]; intros m.
  - cbn. split; [lra|]. split; [intros v []|]. now left.
  - cbn [fold_left]. destruct (IH (if d_lt reals m (d_abs reals a) then d_abs reals a else m)) as (A & B & C).
    cbv zeta. set (r := fold_left _ _ _) in *. clearbody r. rewrite abs_real in *. cbn [d_lt reals] in *.
    destruct (Rlt_dec m (Rabs a)) as [L|L].
    + split; [lra|]. split.
      * intros v [<-|I]; auto.
      * right. destruct C as [->|(v & I & ->)]; [exists a; split; auto; now left|exists v; split; auto; now right].
    + split; [lra|]. split.
      * intros v [<-|I]; auto. lra.
      * destruct C as [->|(v & I & ->)]; [now left|right; exists v; split; auto; now right].
Qed.
Lemma fold_min l : forall m,
  let r := fold_left (fun m x => if d_lt reals (d_abs reals x) m then d_abs reals x else m) l m in
  (r <= m)%R /\ (forall v, In v l -> (r <= Rabs v)%R) /\ (r = m \/ exists v, In v l /\ r = Rabs v).
Proof.
  induction l as [|a l IH]; intros m.
  - cbn. split; [lra|]. split; [intros v []|]. now left.
  - cbn [fold_left]. destruct (IH (if d_lt reals (d_abs reals a) m then d_abs reals a else m)) as (A & B & C).
    cbv zeta. set (r := fold_left _ _ _) in *. clearbody r. rewrite abs_real in *. cbn [d_lt reals] in *.
    destruct (Rlt_dec (Rabs a) m) as [L|L].
    + split; [lra|]. split.
      * intros v [<-|I]; auto.
      * right. destruct C as [->|(v & I & ->)]; [exists a; split; auto; now left|exists v; split; auto; now right].
    + split; [lra|]. split.
      * intros v [<-|I]; auto. lra.
      * destruct C as [->|(v & I & ->)]; [now left|right; exists v; split; auto; now right].
Qed.

Lemma abs_max_real w off d : d <> [] -> exists m, element_abs_max reals (mkKernel w off d) = Ok m /\
  (forall v, In v d -> (Rabs v <= m)%R) /\ exists v, In v d /\ m = Rabs v.
Proof.
  destruct d as [|a l]; [congruence|]. intros _. unfold element_abs_max. rewrite k_best_fold.
  destruct (fold_max l (d_abs reals a)) as (A & B & C). eexists. split; [reflexivity|].
  cbv beta. set (r := fold_left _ _ _) in *. clearbody r. rewrite abs_real in *. split.
  - intros v [<-|I]; auto.
  - destruct C as [->|(v & I & ->)]; [exists a; split; auto; now left|exists v; split; auto; now right].
Qed.
Lemma abs_min_real w off d : d <> [] -> exists m, element_abs_min reals (mkKernel w off d) = Ok m /\
  (forall v, In v d -> (m <= Rabs v)%R) /\ exists v, In v d /\ m = Rabs v.
Proof.
  destruct d as [|a l]; [congruence|]. intros _. unfold element_abs_min. rewrite k_best_fold.
  destruct (fold_min l (d_abs reals a)) as (A & B & C). eexists. split; [reflexivity|].
  cbv beta. set (r := fold_left _ _ _) in *. clearbody r. rewrite abs_real in *. split.
  - intros v [<-|I]; auto.
  - destruct C as [->|(v & I & ->)]; [exists a; split; auto; now left|exists v; split; auto; now right].
Qed.

Lemma table_nonempty {A} w (f : Z -> A) : 0 < w -> table w f <> [].
Proof. intros H E. apply (f_equal zlen) in E. rewrite table_zlen in E by lia. change (zlen (@nil A)) with 0 in E. lia. Qed.

(** For positive functions that are largest at [c] and smallest at [e]. *)
Lemma table_abs_max w off n f c : 0 <= c < n -> (forall i, 0 <= i < n -> (0 < f i <= f c)%R) ->
  element_abs_max reals (mkKernel w off (table n f)) = Ok (f c).
Proof.
  intros Hc H. destruct (abs_max_real w off (table n f)) as (m & -> & A & v & I & E); [apply table_nonempty; lia|].
  f_equal. apply table_In in I as (i & Hi & <-). specialize (A (f c)).
  rewrite (Rabs_right (f c)) in A by (apply Rle_ge; specialize (H c Hc); lra).
  rewrite (Rabs_right (f i)) in E by (apply Rle_ge; specialize (H i Hi); lra).
  assert (f c <= m)%R by (apply A; apply table_In; eauto). specialize (H i Hi). lra.
Qed.
Lemma table_abs_min w off n f e : 0 <= e < n -> (forall i, 0 <= i < n -> (0 < f e <= f i)%R) ->
  element_abs_min reals (mkKernel w off (table n f)) = Ok (f e).
Proof.
  intros He H. destruct (abs_min_real w off (table n f)) as (m & -> & A & v & I & E); [apply table_nonempty; lia|].
  f_equal. apply table_In in I as (i & Hi & <-). specialize (A (f e)).
  rewrite (Rabs_right (f e)) in A by (apply Rle_ge; specialize (H e He); lra).
  rewrite (Rabs_right (f i)) in E by (apply Rle_ge; specialize (H i Hi); lra).
  assert (m <= f e)%R by (apply A; apply table_In; eauto). specialize (H i Hi). lra.
Qed.

Lemma stdmax_real a b : d_stdmax reals a b = Rmax a b.
Proof.
  unfold d_stdmax. cbn. destruct (Rlt_dec a b).
  - rewrite Rmax_right; lra.
  - rewrite Rmax_left; lra.
Qed.

Lemma d_to_real t x z : (0 <= x)%R -> Zfloor x = z -> z <= ity_max t -> d_to reals t x = Ok z.
Proof.
  intros P E L. unfold d_to. cbn [reals d_int]. rewrite Ztrunc_floor by auto. rewrite E.
  assert (0 <= z) by (subst z; apply Zfloor_lub; auto).
  destruct (Z.leb_spec (ity_min t) z) as [_|X]; [|destruct t; cbn in X; lia].
  destruct (Z.leb_spec z (ity_max t)); [reflexivity|lia].
Qed.

Lemma float_to_int1_table t w off f c e : 0 <= off < w -> 0 <= c < w -> 0 <= e < w ->
  (forall i, 0 <= i < w -> (0 < f e <= f i)%R /\ (f i <= f c)%R) -> 100 <= ity_max t ->
  float_to_int1 reals t (mkKernel w off (table w f)) (min_fraction reals) =
    Ok (mkKernel w off (table w (fun i => Zfloor (f i / Rmax (f e) (f c / 100))))).
Proof.
  intros Ho Hc He H Ht. unfold float_to_int1. unfold kernel1_new. cbn [k_width k_offset].
  destruct (Z.leb_spec w off); [lia|]. cbn [bind].
  rewrite (table_abs_max w off w f c) by (auto; intros i Hi; specialize (H i Hi); lra).
  rewrite (table_abs_min w off w f e) by (auto; intros i Hi; specialize (H i Hi); lra). cbn [bind].
  rewrite stdmax_real.
  replace (d_mul reals (f c) (min_fraction reals)) with (f c / 100)%R by (unfold min_fraction; cbn; lra).
  set (u := Rmax _ _).
  assert (Pc : (0 < f c)%R) by (specialize (H c Hc); lra).
  assert (Pu : (0 < u)%R) by (apply Rlt_le_trans with (f c / 100)%R; [lra|apply Rmax_r]).
  rewrite table_repeat. apply fill_all; [apply table_zlen; lia|].
  intros i d Hi Ld _. unfold k_raw, bget. cbn [k_data]. rewrite table_znth by auto. cbn [bind].
  assert (B : (0 <= f i / u <= 100)%R).
  { specialize (H i Hi). split; [apply Rle_mult_inv_pos; lra|].
    apply Rmult_le_reg_r with u; auto. unfold Rdiv. rewrite Rmult_assoc, Rinv_l, Rmult_1_r by lra.
    assert (f c / 100 <= u)%R by apply Rmax_r. lra. }
  rewrite (d_to_real t _ (Zfloor (f i / u))); cbn [d_div reals]; try lra; auto.
  - cbn [bind]. apply put_in. lia.
  - apply Z.le_trans with 100; auto. rewrite <- (Zfloor_IZR 100). apply Zfloor_le. lra.
Qed.

Lemma centre_min w i : 0 <= i < w -> Z.abs (2 * (w / 2) - (w - 1)) <= Z.abs (2 * i - (w - 1)).
Proof.
  intros H. pose proof (Z.div_mod w 2 ltac:(lia)). pose proof (Z.mod_pos_bound w 2 ltac:(lia)). lia.
Qed.
Lemma end_max w i : 0 <= i < w -> Z.abs (2 * i - (w - 1)) <= Z.abs (2 * 0 - (w - 1)).
Proof. intros H. lia. Qed.

Lemma gauss_int_ok t sigma width s w : chosen sigma width s w -> w <= 2147483647 ->
  100 <= ity_max t ->
  gaussian1D_int reals exp real_ceil t sigma width = Ok (mkKernel w (w / 2) (table w (gauss_int s w))).
Proof.
  intros C Hw Ht. pose proof (chosen_pos _ _ _ _ C) as (Ps & Pw). unfold gaussian1D_int.
  rewrite (gaussian1D_ok _ _ _ _ C) by auto. cbn [bind].
  pose proof (half_lt w Pw).
  rewrite (float_to_int1_table t w (w / 2) _ (w / 2) 0); auto; try lia.
  intros i Hi. split; [split; [now apply gauss_pos|]|]; apply gauss_le; auto.
  - now apply end_max.
  - now apply centre_min.
Qed.

(** ** Shape of the integer coefficients *)
Lemma unit_pos s w : 0 < w -> (0 < gauss_unit s w)%R.
Proof.
  intros H. apply Rlt_le_trans with (gauss_coef s w (w / 2) / 100)%R; [|apply Rmax_r].
  pose proof (gauss_pos s w (w / 2) H). lra.
Qed.
Lemma gauss_int_le s w i j : (0 < s)%R -> 0 < w -> Z.abs (2 * i - (w - 1)) <= Z.abs (2 * j - (w - 1)) ->
  gauss_int s w j <= gauss_int s w i.
Proof.
  intros Hs Hw L. unfold gauss_int. apply Zfloor_le. unfold Rdiv. apply Rmult_le_compat_r.
  - left. apply Rinv_0_lt_compat. now apply unit_pos.
  - now apply gauss_le.
Qed.
Lemma gauss_int_nonneg s w i : 0 < w -> 0 <= gauss_int s w i.
Proof.
  intros H. unfold gauss_int. apply Zfloor_lub. apply Rle_mult_inv_pos; [left; now apply gauss_pos|now apply unit_pos].
Qed.
Lemma gauss_int_centre s w : (0 < s)%R -> 0 < w -> 1 <= gauss_int s w (w / 2) <= 100.
Proof.
  intros Hs H. pose proof (unit_pos s w H) as U. pose proof (gauss_pos s w (w / 2) H) as P.
  pose proof (half_lt w H).
  assert (gauss_coef s w 0 <= gauss_coef s w (w / 2))%R by (apply gauss_le; auto; now apply end_max).
  split.
  - unfold gauss_int. apply Zfloor_lub. apply Rmult_le_reg_r with (gauss_unit s w); auto.
    unfold Rdiv. rewrite Rmult_assoc, Rinv_l, Rmult_1_r, Rmult_1_l by lra.
    apply Rmax_lub; lra.
  - unfold gauss_int. rewrite <- (Zfloor_IZR 100). apply Zfloor_le. apply Rmult_le_reg_r with (gauss_unit s w); auto.
    unfold Rdiv. rewrite Rmult_assoc, Rinv_l, Rmult_1_r by lra.
    assert (gauss_coef s w (w / 2) / 100 <= gauss_unit s w)%R by apply Rmax_r. lra.
Qed.
Lemma gauss_int_range s w i : (0 < s)%R -> 0 <= i < w -> 0 <= gauss_int s w i <= 100.
Proof.
  intros Hs H. split; [apply gauss_int_nonneg; lia|]. apply Z.le_trans with (gauss_int s w (w / 2)).
  - apply gauss_int_le; auto; [lia|]. now apply centre_min.
  - apply gauss_int_centre; auto; lia.
Qed.
Lemma gauss_int_sym s w i : gauss_int s w (w - 1 - i) = gauss_int s w i.
Proof. unfold gauss_int. now rewrite gauss_sym. Qed.
(** The integer coefficient differs from the exact one by less than one unit. *)
Lemma gauss_int_near s w i : 0 < w ->
  (IZR (gauss_int s w i) * gauss_unit s w <= gauss_coef s w i < (IZR (gauss_int s w i) + 1) * gauss_unit s w)%R.
Proof.
  intros H. pose proof (unit_pos s w H) as U. unfold gauss_int.
  pose proof (Zfloor_lb (gauss_coef s w i / gauss_unit s w)). pose proof (Zfloor_ub (gauss_coef s w i / gauss_unit s w)).
  assert (E : gauss_coef s w i = (gauss_coef s w i / gauss_unit s w * gauss_unit s w)%R) by (field; lra).
  split.
  - rewrite E at 2. apply Rmult_le_compat_r; lra.
  - rewrite E at 1. apply Rmult_lt_compat_r; lra.
Qed.

(** ** Two dimensions *)
Lemma fill2 {S} (body : Z -> Z -> kernel S -> outcome (kernel S)) (idx : Z -> Z -> Z) (a b : Z -> Z) (F : Z -> S) w off d m n :
  0 <= m -> zlen d = n ->
  (forall i j, 0 <= i < m -> 0 <= j < m -> 0 <= idx i j < n /\ a (idx i j) = i /\ b (idx i j) = j) ->
  (forall p, 0 <= p < n -> 0 <= a p < m /\ 0 <= b p < m /\ idx (a p) (b p) = p) ->
  (forall i j e, 0 <= i < m -> 0 <= j < m -> zlen e = n ->
     body i j (mkKernel w off e) = Ok (mkKernel w off (upd e (Z.to_nat (idx i j)) (F (idx i j))))) ->
  for_range 0 m (fun i => for_range 0 m (body i)) (mkKernel w off d) = Ok (mkKernel w off (table n F)).
Proof.
  intros Hm L Hi Hp Hb.
  set (inv := fun i j K => exists e, K = mkKernel w off e /\ zlen e = n /\
    forall p, 0 <= p < n -> a p < i \/ a p = i /\ b p < j -> znth e p = Some (F p)).
  destruct (for_range_inv (fun i K => inv i 0 K) 0 m (fun i => for_range 0 m (body i)) (mkKernel w off d)) as (K & E & I).
  - auto.
  - exists d. split; auto. split; auto. intros p P [X|X]; specialize (Hp p P); lia.
  - intros i K Ri I.
    destruct (for_range_inv (inv i) 0 m (body i) K) as (K' & E & I'); auto.
    + intros j K0 Rj (e & -> & Le & He). specialize (Hb i j e Ri Rj Le). eexists. split; [exact Hb|].
      exists (upd e (Z.to_nat (idx i j)) (F (idx i j))). split; auto. split; [unfold zlen in *; now rewrite upd_length|].
      destruct (Hi i j Ri Rj) as (B & _).
      assert (W : bset e (idx i j) (F (idx i j)) = Ok (upd e (Z.to_nat (idx i j)) (F (idx i j)))) by (apply bset_in; lia).
      apply bset_Ok in W as (_ & _ & W). intros p P X. rewrite W.
      destruct (Z.eqb_spec p (idx i j)) as [->|N]; auto. apply He; auto.
      destruct X as [X|(X & Y)]; auto. right. split; auto.
      destruct (Z.eq_dec (b p) j) as [<-|]; [|lia]. exfalso. apply N. rewrite <- X. symmetry. now apply (Hp p P).
    + exists K'. split; auto. destruct I' as (e & -> & Le & He). exists e. split; auto. split; auto.
      intros p P [X|X]; specialize (Hp p P); [|lia]. apply He; auto. lia.
  - rewrite E. f_equal. destruct I as (e & -> & Le & He). f_equal. apply table_eq; auto.
    intros p P. apply He; auto. left. specialize (Hp p P). lia.
Qed.

Lemma cell_index w i j : 0 <= i < w -> 0 <= j < w ->
  0 <= j * w + i < w * w /\ (j * w + i) mod w = i /\ (j * w + i) / w = j.
Proof.
  intros Hi Hj. split; [nia|]. rewrite (Z.add_comm (j * w)). rewrite Z.mod_add, Z.div_add by lia.
  rewrite Z.mod_small, Z.div_small by lia. lia.
Qed.
Lemma index_cell w p : 0 < w -> 0 <= p < w * w -> 0 <= p mod w < w /\ 0 <= p / w < w /\ p / w * w + p mod w = p.
Proof.
  intros Hw H. pose proof (Z.mod_pos_bound p w Hw). pose proof (Z.div_mod p w ltac:(lia)).
  assert (0 <= p / w) by (apply Z.div_pos; lia). assert (p / w < w) by (apply Z.div_lt_upper_bound; lia). lia.
Qed.
Lemma square_u32 w : 0 < w < 65536 -> u32 (w * w) = w * w.
Proof. intros H. unfold u32. apply Z.mod_small. nia. Qed.
Lemma small_u32 w : 0 <= w < 4294967296 -> u32 w = w.
Proof. intros H. unfold u32. now apply Z.mod_small. Qed.

Lemma put2_in {S} w off (e : list S) x y v : 0 < w < 65536 -> 0 <= x < w -> 0 <= y < w -> zlen e = w * w ->
  k2_put (mkKernel w off e) x y v = Ok (mkKernel w off (upd e (Z.to_nat (y * w + x)) v)).
Proof.
  intros Hw Hx Hy L. unfold k2_put. cbn [k_width k_data].
  destruct (Z.leb_spec w x); [lia|]. destruct (Z.leb_spec w y); [lia|]. cbn [orb].
  pose proof (cell_index w x y Hx Hy) as (B & _). rewrite small_u32 by nia. rewrite L.
  destruct (Z.leb_spec (w * w) (y * w + x)); [lia|]. apply put_in. lia.
Qed.
Lemma at2_in {S} w off (e : list S) x y : 0 < w < 65536 -> 0 <= x < w -> 0 <= y < w -> zlen e = w * w ->
  k2_at (mkKernel w off e) x y = bget e (y * w + x).
Proof.
  intros Hw Hx Hy L. unfold k2_at. cbn [k_width k_data].
  destruct (Z.leb_spec w x); [lia|]. destruct (Z.leb_spec w y); [lia|]. cbn [orb].
  pose proof (cell_index w x y Hx Hy) as (B & _). rewrite small_u32 by nia. rewrite L.
  destruct (Z.leb_spec (w * w) (y * w + x)); [lia|]. reflexivity.
Qed.
Lemma at1_in {S} w off n (f : Z -> S) i : 0 <= i < n -> k1_at (mkKernel w off (table n f)) i = Ok (f i).
Proof.
  intros H. unfold k1_at. cbn [k_data]. rewrite table_zlen by lia. destruct (Z.leb_spec n i); [lia|].
  unfold bget. now rewrite table_znth.
Qed.

Lemma normalize_unit w off d : 0 <= w <= zlen d -> rsum d = 1%R ->
  normalize reals (mkKernel w off d) = Ok (mkKernel w off d).
Proof.
  intros Hw E. unfold normalize. rewrite k_sum_fold. cbn [bind k_data k_width].
  replace (fold_left (d_add reals) d (d_of reals 0)) with 1%R
    by (change (d_add reals) with Rplus; rewrite rsum_left, E; cbn; lra).
  set (f := fun i => match znth d i with Some v => v | None => 0%R end).
  destruct (fill_loop (fun i K => let* v := k_raw K i in k_put K i (d_div reals v 1%R)) f w off d w) as (e & -> & L & H); auto.
  - intros i e Hi Le He. unfold k_raw, bget, f. cbn [k_data]. rewrite He.
    destruct (znth_in_range d i) as (v & Hv); [lia|]. rewrite Hv. cbn [bind]. rewrite put_in by lia.
    do 3 f_equal. cbn. lra.
  - do 2 f_equal. apply znth_ext. intros i. rewrite H. unfold f.
    destruct (Z.leb_spec 0 i), (Z.ltb_spec i w); cbn; auto.
    destruct (znth_in_range d i) as (v & Hv); [lia|]. now rewrite Hv.
Qed.

Lemma gaussian2D_ok sigma width s : chosen sigma width s width -> 0 < width < 65536 ->
  gaussian2D reals reals (fun x => x) exp real_ceil sigma width =
    Ok (mkKernel width (width / 2) (square_table width (gauss_coef s width))).
Proof.
  intros C Hw. unfold gaussian2D. rewrite (gaussian1D_ok _ _ _ _ C) by lia. cbn [bind].
  rewrite Z.quot_div_nonneg by lia. pose proof (half_lt width ltac:(lia)).
  rewrite !small_u32 by lia. unfold kernel2_new. destruct (Z.leb_spec width (width / 2)); [lia|]. cbn [bind].
  rewrite square_u32 by auto. rewrite table_repeat.
  set (g := gauss_coef s width).
  rewrite (fill2 _ (fun i j => j * width + i) (fun p => p mod width) (fun p => p / width)
             (fun p => (g (p mod width) * g (p / width)%Z)%R) width (width / 2) _ width (width * width)).
  - cbn [bind]. fold (square_table width g). apply normalize_unit.
    + unfold square_table. rewrite table_zlen by nia. nia.
    + rewrite rsum_square by lia. unfold g. rewrite gauss_sum by lia. lra.
  - lia.
  - apply table_zlen. nia.
  - intros i j Hi Hj. now apply cell_index.
  - intros p Hp. now apply index_cell.
  - intros i j e Hi Hj Le. rewrite !at1_in by auto. cbn [bind]. rewrite put2_in by (auto; lia).
    destruct (cell_index width i j Hi Hj) as (_ & -> & ->). reflexivity.
Qed.

(** ** The integer version *)
Lemma float_to_int2_table t w off f c e : 0 < w < 65536 -> 0 <= off < w -> 0 <= c < w * w -> 0 <= e < w * w ->
  (forall i, 0 <= i < w * w -> (0 < f e <= f i)%R /\ (f i <= f c)%R) -> 100 <= ity_max t ->
  float_to_int2 reals t (mkKernel w off (table (w * w) f)) (min_fraction reals) =
    Ok (mkKernel w off (table (w * w) (fun i => Zfloor (f i / Rmax (f e) (f c / 100))))).
Proof.
  intros Hw Ho Hc He H Ht. unfold float_to_int2. unfold kernel2_new. cbn [k_width k_offset].
  destruct (Z.leb_spec w off); [lia|]. cbn [bind]. rewrite square_u32 by auto.
  rewrite (table_abs_max w off (w * w) f c) by (auto; intros i Hi; specialize (H i Hi); lra).
  rewrite (table_abs_min w off (w * w) f e) by (auto; intros i Hi; specialize (H i Hi); lra). cbn [bind].
  rewrite stdmax_real.
  replace (d_mul reals (f c) (min_fraction reals)) with (f c / 100)%R by (unfold min_fraction; cbn; lra).
  set (u := Rmax _ _).
  assert (Pc : (0 < f c)%R) by (specialize (H c Hc); lra).
  assert (Pu : (0 < u)%R) by (apply Rlt_le_trans with (f c / 100)%R; [lra|apply Rmax_r]).
  rewrite table_repeat.
  apply (fill2 _ (fun i j => i * w + j) (fun p => p / w) (fun p => p mod w)).
  - lia.
  - apply table_zlen. nia.
  - intros i j Hi Hj. destruct (cell_index w j i Hj Hi) as (A & B & C). auto.
  - intros p Hp. pose proof (index_cell w p ltac:(lia) Hp). tauto.
  - intros i j d Hi Hj Ld. pose proof (cell_index w j i Hj Hi) as (R & _).
    rewrite at2_in by (auto; apply table_zlen; nia). unfold bget. rewrite table_znth by auto. cbn [bind].
    set (p := i * w + j) in *.
    assert (B : (0 <= f p / u <= 100)%R).
    { specialize (H p R). split; [apply Rle_mult_inv_pos; lra|].
      apply Rmult_le_reg_r with u; auto. unfold Rdiv. rewrite Rmult_assoc, Rinv_l, Rmult_1_r by lra.
      assert (f c / 100 <= u)%R by apply Rmax_r. lra. }
    rewrite (d_to_real t _ (Zfloor (f p / u))); cbn [d_div reals]; try lra; auto.
    + cbn [bind]. rewrite put2_in by auto. reflexivity.
    + apply Z.le_trans with 100; auto. rewrite <- (Zfloor_IZR 100). apply Zfloor_le. lra.
Qed.

Lemma gauss_prod_le s w i j k l : (0 < s)%R -> 0 < w -> 
  Z.abs (2 * i - (w - 1)) <= Z.abs (2 * k - (w - 1)) -> Z.abs (2 * j - (w - 1)) <= Z.abs (2 * l - (w - 1)) ->
  (gauss_coef s w k * gauss_coef s w l <= gauss_coef s w i * gauss_coef s w j)%R.
Proof.
  intros Hs Hw A B. apply Rmult_le_compat; try (left; now apply gauss_pos); now apply gauss_le.
Qed.

Lemma gaussian2D_int_ok t sigma width s : chosen sigma width s width -> 0 < width < 65536 -> 100 <= ity_max t ->
  gaussian2D_int reals exp real_ceil t sigma width = Ok (mkKernel width (width / 2) (square_int s width)).
Proof.
  intros C Hw Ht. pose proof (chosen_pos _ _ _ _ C) as (Ps & _). unfold gaussian2D_int.
  rewrite (gaussian2D_ok _ _ _ C) by auto. cbn [bind]. unfold square_table.
  pose proof (half_lt width ltac:(lia)) as Hh.
  destruct (cell_index width (width / 2) (width / 2) Hh Hh) as (Hc & Ec & Ed).
  rewrite (float_to_int2_table t width (width / 2) _ (width / 2 * width + width / 2) 0); auto; try nia.
  - rewrite Ec, Ed. rewrite Z.mod_0_l, Z.div_0_l by lia. reflexivity.
  - intros p Hp. rewrite Ec, Ed. rewrite Z.mod_0_l, Z.div_0_l by lia.
    pose proof (index_cell width p ltac:(lia) Hp) as (A & B & _).
    split; [split|].
    + apply Rmult_lt_0_compat; apply gauss_pos; lia.
    + apply gauss_prod_le; auto; try lia; now apply end_max.
    + apply gauss_prod_le; auto; try lia; now apply centre_min.
Qed.

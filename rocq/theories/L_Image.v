(** Lemmas about images. *)
From Verif Require Import Base BaseFacts M_Image S_Image.

Ltac destruct_wf H :=
  let W := fresh "Ww" in let Hh := fresh "Wh" in let O := fresh "Wo" in let S := fresh "Ws" in
  let L := fresh "Wl" in let F := fresh "Wf" in let N := fresh "Wn" in
  destruct H as (W & Hh & O & S & L & F & N).

Section Gray.
Context {A : Type}.
Implicit Type g : gray A.

Lemma wf_pos g x y : wf g -> inside g x y -> 0 <= pos g x y < zlen (g_data g).
Proof.
  intros H [Hx Hy]. destruct_wf H. unfold pos. specialize (Wf ltac:(lia) ltac:(lia)).
  assert (y * g_stride g <= (g_height g - 1) * g_stride g) by (apply Z.mul_le_mono_nonneg_r; lia).
  assert (0 <= y * g_stride g) by (apply Z.mul_nonneg_nonneg; lia). lia.
Qed.

Lemma wf_index g x y : wf g -> inside g x y -> gray_index g x y = pos g x y.
Proof.
  intros H Hi. pose proof (wf_pos g x y H Hi). destruct_wf H. unfold gray_index.
  fold (pos g x y). apply u32_id; lia.
Qed.

(** Start of row [y] as the code computes it. *)
Lemma wf_row g y : wf g -> 0 < g_width g -> 0 <= y < g_height g ->
  u32 (g_offset g + y * g_stride g) = g_offset g + y * g_stride g /\
  0 <= g_offset g + y * g_stride g /\
  g_offset g + y * g_stride g + g_width g <= zlen (g_data g).
Proof.
  intros H Hw Hy.
  pose proof (wf_pos g 0 y H ltac:(split; lia)) as H0.
  pose proof (wf_pos g (g_width g - 1) y H ltac:(split; lia)) as H1.
  unfold pos in *. destruct_wf H. rewrite u32_id by lia. lia.
Qed.

Lemma pos_inj g x y x' y' :
  wf g -> inside g x y -> inside g x' y' -> pos g x y = pos g x' y' -> x = x' /\ y = y'.
Proof.
  intros H [Hx Hy] [Hx' Hy'] E. destruct_wf H. unfold pos in E.
  assert (y = y') by nia. subst. lia.
Qed.

Lemma pixel_inside g x y : inside g x y -> pixel g x y = znth (g_data g) (pos g x y).
Proof. intros [Hx Hy]. unfold pixel. now replace (_ && _) with true by lia. Qed.
Lemma pixel_outside g x y : ~ inside g x y -> pixel g x y = None.
Proof. intros H. unfold pixel. unfold inside in H. now replace (_ && _) with false by lia. Qed.
Lemma pixel_Some g x y v : pixel g x y = Some v -> inside g x y.
Proof. unfold pixel, inside. destruct (_ && _) eqn:E; [lia|discriminate]. Qed.
Lemma pixel_exists g x y : wf g -> inside g x y -> exists v, pixel g x y = Some v.
Proof. intros H Hi. rewrite pixel_inside by auto. apply znth_in_range, wf_pos; auto. Qed.

Lemma gray_get_inside g x y : wf g -> inside g x y ->
  exists v, gray_get g x y = Ok v /\ pixel g x y = Some v.
Proof.
  intros H Hi. destruct (pixel_exists g x y H Hi) as [v Hv]. exists v. split; auto.
  unfold gray_get. rewrite wf_index by auto. destruct Hi.
  replace (_ || _) with false by lia. apply bget_Ok. rewrite <- Hv. symmetry. apply pixel_inside. split; lia.
Qed.
Lemma gray_unsafe_inside g x y v : wf g -> pixel g x y = Some v -> gray_unsafe_get g x y = Ok v.
Proof.
  intros H Hv. pose proof (pixel_Some _ _ _ _ Hv) as Hi. unfold gray_unsafe_get. rewrite wf_index by auto.
  apply bget_Ok. now rewrite <- pixel_inside.
Qed.
Lemma gray_get_outside g x y : 0 <= x -> 0 <= y -> ~ inside g x y -> gray_get g x y = Throw.
Proof. intros Hx Hy H. unfold gray_get. unfold inside in H. now replace (_ || _) with true by lia. Qed.

(** A buffer that was overwritten exactly in the window of [g]. *)
Definition window_write g (R : Z -> Z -> Prop) (f : Z -> Z -> A) : Z -> A -> Prop :=
  fun j v => exists x y, inside g x y /\ R x y /\ j = pos g x y /\ v = f x y.

Lemma window_write_pixel g R f d' x y :
  wf g -> writes (g_data g) (window_write g R f) d' -> inside g x y -> R x y ->
  pixel (with_data g d') x y = Some (f x y).
Proof.
  intros H [L Hw] Hi HR. rewrite pixel_inside by auto. change (pos (with_data g d') x y) with (pos g x y).
  change (g_data (with_data g d')) with d'.
  destruct (Hw (pos g x y)) as [(v & (x' & y' & Hi' & HR' & Ep & ->) & E)|(N & _)].
  - destruct (pos_inj g x y x' y') as [-> ->]; auto.
  - exfalso. apply (N (f x y)). exists x, y; auto.
Qed.
Lemma window_write_keep g R f d' x y :
  wf g -> writes (g_data g) (window_write g R f) d' -> inside g x y -> ~ R x y ->
  pixel (with_data g d') x y = pixel g x y.
Proof.
  intros H [L Hw] Hi HR. rewrite !pixel_inside by auto. change (pos (with_data g d') x y) with (pos g x y).
  change (g_data (with_data g d')) with d'.
  destruct (Hw (pos g x y)) as [(v & (x' & y' & Hi' & HR' & Ep & ->) & E)|(N & E)]; auto.
  destruct (pos_inj g x y x' y') as [-> ->]; auto. contradiction.
Qed.
Lemma window_write_frame g R f d' j :
  writes (g_data g) (window_write g R f) d' -> outside_window g j -> znth d' j = znth (g_data g) j.
Proof.
  intros [L Hw] Ho. destruct (Hw j) as [(v & (x & y & Hi & _ & Ep & _) & _)|(_ & E)]; auto.
  exfalso. now apply (Ho x y).
Qed.
Lemma with_data_layout g d : zlen d = zlen (g_data g) -> same_layout g (with_data g d).
Proof. intros; unfold same_layout; cbn; tauto. Qed.
Lemma wf_layout {B} g (g' : gray B) : same_layout g g' -> wf g -> wf g'.
Proof.
  intros (E1 & E2 & E3 & E4 & E5 & E6) H. destruct_wf H. unfold wf.
  rewrite E1, E2, E3, E4, E5, E6. tauto.
Qed.
Lemma wf_with_data g d : zlen d = zlen (g_data g) -> wf g -> wf (with_data g d).
Proof. intros; eapply wf_layout; eauto using with_data_layout. Qed.
Lemma inside_layout {B} g (g' : gray B) x y : same_layout g g' -> inside g' x y <-> inside g x y.
Proof. intros (E1 & E2 & _). unfold inside. now rewrite E1, E2. Qed.

(** ** Constructors *)
Lemma wf_new (zero : A) w h :
  0 <= w < 4294967296 -> 0 <= h < 4294967296 -> w * h < 4294967296 -> wf (gray_new zero w h).
Proof.
  intros Hw Hh Hm. unfold wf, gray_new; cbn.
  assert (0 <= w * h) by nia.
  rewrite zlen_repeat, u32_id, Z2Nat.id by lia. repeat split; try lia.
Qed.
Lemma gray_new_pixel (zero : A) w h x y :
  0 <= w < 4294967296 -> 0 <= h < 4294967296 -> w * h < 4294967296 ->
  inside (gray_new zero w h) x y -> pixel (gray_new zero w h) x y = Some zero.
Proof.
  intros Hw Hh Hm Hi. rewrite pixel_inside by auto.
  pose proof (wf_pos _ _ _ (wf_new zero w h Hw Hh Hm) Hi). cbn in *.
  apply znth_repeat. rewrite zlen_repeat in H. lia.
Qed.

Lemma write_row_ok row : forall (d : list A) ptr, 0 <= ptr -> ptr + zlen row <= zlen d ->
  exists d', write_row d ptr row = Ok d' /\ zlen d' = zlen d /\
    forall j, znth d' j = if (ptr <=? j) && (j <? ptr + zlen row) then znth row (j - ptr) else znth d j.
Proof.
  induction row as [|a row IH]; intros d ptr Hp Hl; cbn [write_row].
  - exists d. repeat split; auto. intros j. change (zlen (@nil A)) with 0.
    now replace (_ && _) with false by lia.
  - rewrite zlen_cons in Hl. pose proof (zlen_nonneg row).
    destruct (bset_exists d ptr a ltac:(lia)) as (d1 & E1 & L1 & H1). rewrite E1. cbn [bind].
    destruct (IH d1 (ptr + 1) ltac:(lia) ltac:(lia)) as (d2 & E2 & L2 & H2).
    exists d2. split; auto. split; [lia|]. intros j. rewrite H2, H1, zlen_cons.
    destruct (Z.eqb_spec j ptr) as [->|N].
    + replace (_ && _) with false by lia. replace (_ && _) with true by lia.
      now rewrite Z.sub_diag.
    + destruct (_ && _) eqn:E.
      * replace (_ && _) with true by lia. rewrite znth_cons_S by lia. f_equal; lia.
      * replace (_ && _) with false by lia. auto.
Qed.
Lemma write_rows_len w l : forall (d : list A) ptr d', write_rows w d ptr l = Ok d' -> 
  zlen d' = zlen d /\ forall r, In r l -> zlen r = w.
Proof.
  induction l as [|r l IH]; intros d ptr d' H; cbn [write_rows] in H.
  - injection H as <-. split; auto. intros ? [].
  - destruct (zlen r =? w) eqn:E; cbn in H; [|discriminate].
    apply bind_Ok in H as (d1 & H1 & H2). apply IH in H2 as [L Hr].
    assert (zlen d1 = zlen d).
    { clear -H1. revert d ptr H1. induction r as [|a r IHr]; cbn; intros d ptr H.
      - now injection H as <-.
      - apply bind_Ok in H as (d2 & Hb & H). apply bset_Ok in Hb as (_ & L & _).
        apply IHr in H. lia. }
    split; [lia|]. intros r' [<-|Hin]; auto. lia.
Qed.
Lemma write_rows_ok w l : forall (d : list A) ptr, 0 <= w -> 0 <= ptr -> ptr + w * zlen l <= zlen d ->
  (forall r, In r l -> zlen r = w) ->
  exists d', write_rows w d ptr l = Ok d' /\ zlen d' = zlen d /\
    (forall j, j < ptr -> znth d' j = znth d j) /\
    forall y r x, znth l y = Some r -> 0 <= x < w -> znth d' (ptr + y * w + x) = znth r x.
Proof.
  induction l as [|r l IH]; intros d ptr Hw Hp Hl Hr; cbn [write_rows].
  - exists d. split; [auto|]. split; [auto|]. split; [auto|]. intros y r x Hy. apply znth_Some_range in Hy. zlen_nil; lia.
  - rewrite zlen_cons in Hl. pose proof (zlen_nonneg l).
    assert (Er : zlen r = w) by (apply Hr; now left). rewrite Er, Z.eqb_refl. cbn [negb].
    assert (0 <= w * zlen l) by nia.
    destruct (write_row_ok r d ptr Hp ltac:(lia)) as (d1 & E1 & L1 & H1). rewrite E1; cbn [bind].
    destruct (IH d1 (ptr + w)) as (d2 & E2 & L2 & H2 & H3); try lia.
    { intros; apply Hr; now right. }
    exists d2. split; auto. split; [lia|]. split.
    + intros j Hj. rewrite H2 by lia. rewrite H1. now replace (_ && _) with false by lia.
    + intros y r' x Hy Hx. pose proof (znth_Some_range _ _ _ Hy) as Hyr. rewrite zlen_cons in Hyr.
      destruct (Z.eq_dec y 0) as [->|Ny].
      * cbn in Hy. injection Hy as ->. rewrite H2 by lia. rewrite H1.
        replace (_ && _) with true by lia. f_equal; lia.
      * rewrite znth_cons_S in Hy by lia. rewrite <- (H3 (y - 1) r' x Hy Hx). f_equal; lia.
Qed.

Lemma gray_of_rows_wf (zero : A) l g :
  zlen l < 4294967296 -> (forall r, In r l -> zlen r * zlen l < 4294967296) ->
  gray_of_rows zero l = Ok g -> wf g.
Proof.
  intros Hl Hr H. unfold gray_of_rows in H. pose proof (zlen_nonneg l).
  rewrite (u32_id (zlen l)) in H by lia.
  apply bind_Ok in H as (d & Hd & H). injection H as <-.
  apply write_rows_len in Hd as [L Hrw]. rewrite zlen_repeat in L.
  destruct l as [|r l].
  - zlen_nil. cbn in *. unfold wf; cbn. change (u32 (0 * 0)) with 0 in L. repeat split; try lia.
  - rewrite zlen_cons in *. pose proof (zlen_nonneg l). pose proof (zlen_nonneg r).
    replace (1 + zlen l =? 0) with false in * by lia.
    specialize (Hr r (or_introl eq_refl)).
    assert (zlen r < 4294967296) by nia.
    rewrite (u32_id (zlen r)) in * by lia. assert (0 <= zlen r * (1 + zlen l)) by nia.
    rewrite u32_id, Z2Nat.id in L by lia.
    unfold wf; cbn. repeat split; try lia.
Qed.

(** Building an image from a rectangular table gives back the table. *)
Lemma gray_of_rows_ok (zero : A) l w :
  zlen l < 4294967296 -> w * zlen l < 4294967296 -> 0 <= w < 4294967296 -> (forall r, In r l -> zlen r = w) ->
  exists g, gray_of_rows zero l = Ok g /\ g_height g = zlen l /\ (l <> [] -> g_width g = w) /\
    forall y r x, znth l y = Some r -> 0 <= x < w -> pixel g x y = znth r x.
Proof.
  intros Hl Hm Hw Hr. unfold gray_of_rows. pose proof (zlen_nonneg l). rewrite (u32_id (zlen l)) by lia.
  set (w' := if zlen l =? 0 then 0 else _).
  assert (Hw' : l <> [] -> w' = w).
  { unfold w'. destruct l as [|r l]; [congruence|]. intros _. rewrite zlen_cons. pose proof (zlen_nonneg l).
    replace (1 + zlen l =? 0) with false by lia. rewrite (Hr r) by now left. apply u32_id; lia. }
  destruct l as [|r0 l0].
  - zlen_nil. cbn in *. eexists. split; [reflexivity|]. cbn. split; [auto|]. split; [congruence|].
    intros y r x Hy. apply znth_Some_range in Hy. zlen_nil; lia.
  - specialize (Hw' ltac:(congruence)). rewrite Hw'. set (l := r0 :: l0) in *.
    assert (0 <= w * zlen l) by nia.
    destruct (write_rows_ok w l (repeat zero (Z.to_nat (u32 (w * zlen l)))) 0) as (d & E & L & _ & Hd); auto; try lia.
    { rewrite zlen_repeat, u32_id, Z2Nat.id by lia. lia. }
    rewrite E. cbn. eexists; split; [reflexivity|]. cbn. split; [auto|]. split; [auto|].
    intros y r x Hy Hx. rewrite pixel_inside.
    + cbn. specialize (Hd y r x Hy Hx). unfold pos; cbn. exact Hd.
    + split; cbn; auto. now apply znth_Some_range in Hy.
Qed.

Lemma gray_of_rows_ragged (zero : A) l :
  zlen l < 4294967296 -> (forall r, In r l -> zlen r < 4294967296 ) ->
  (forall r, In r l -> zlen r * zlen l < 4294967296) ->
  (exists r r', In r l /\ In r' l /\ zlen r <> zlen r') -> gray_of_rows zero l = Throw.
Proof.
  intros Hl Hr Hm Hex. unfold gray_of_rows. pose proof (zlen_nonneg l). rewrite (u32_id (zlen l)) by lia.
  destruct l as [|r0 l0]; [destruct Hex as (r & ? & [] & _)|].
  set (l := r0 :: l0) in *. replace (zlen l =? 0) with false by (unfold l; rewrite zlen_cons; pose proof (zlen_nonneg l0); lia).
  rewrite (u32_id (zlen r0)).
  2:{ pose proof (zlen_nonneg r0). specialize (Hr r0 (or_introl eq_refl)). lia. }
  assert (H0 : forall k (d : list A) ptr, 0 <= ptr -> ptr + zlen r0 * zlen k <= zlen d ->
     (exists r, In r k /\ zlen r <> zlen r0) -> write_rows (zlen r0) d ptr k = Throw).
  { induction k as [|r k IH]; intros d ptr Hp Hd (r' & Hin & Hne); [destruct Hin|].
    cbn [write_rows]. destruct (zlen r =? zlen r0) eqn:E; cbn [negb]; auto.
    rewrite zlen_cons in Hd. pose proof (zlen_nonneg k). pose proof (zlen_nonneg r0).
    assert (0 <= zlen r0 * zlen k) by nia.
    destruct (write_row_ok r d ptr Hp ltac:(lia)) as (d1 & E1 & L1 & _). rewrite E1. cbn [bind].
    apply IH; try lia. exists r'. destruct Hin as [->|Hin]; [lia|auto]. }
  rewrite H0; auto; try lia.
  - specialize (Hm r0 (or_introl eq_refl)). pose proof (zlen_nonneg r0).
    assert (0 <= zlen r0 * zlen l) by nia.
    rewrite zlen_repeat, u32_id, Z2Nat.id by lia. lia.
  - destruct Hex as (r & r' & Hin & Hin' & Hne).
    destruct (Z.eq_dec (zlen r) (zlen r0)); [exists r'|exists r]; split; auto; lia.
Qed.

(** ** Reshape *)
Lemma gray_reshape_wf (zero : A) g w h g' :
  wf g -> 0 <= w < 4294967296 -> 0 <= h < 4294967296 -> w * h < 4294967296 ->
  gray_reshape zero g w h = Ok g' -> wf g' /\ g_width g' = w /\ g_height g' = h.
Proof.
  intros H Hw Hh Hm E. unfold gray_reshape in E.
  destruct (_ && _) eqn:Ed.
  - injection E as <-. split; auto. lia.
  - destruct (g_sub g) eqn:Es; [discriminate|]. injection E as <-. cbn. split; [|auto].
    destruct_wf H. destruct (Wn Es) as [Eo _].
    assert (0 <= w * h) by nia. rewrite (u32_id (w * h)) by lia.
    unfold wf; cbn. rewrite Eo.
    destruct (zlen (g_data g) <? w * h) eqn:El.
    + rewrite zlen_repeat, Z2Nat.id by lia. repeat split; try lia.
    + repeat split; try lia.
Qed.

(** ** Sub-images *)
Lemma gray_subimage_ok g x0 y0 x1 y1 g' : wf g ->
  0 <= x0 -> 0 <= y0 -> gray_subimage g x0 y0 x1 y1 = Ok g' ->
  0 <= x0 <= x1 /\ x1 <= g_width g /\ 0 <= y0 <= y1 /\ y1 <= g_height g /\
  g_width g' = x1 - x0 /\ g_height g' = y1 - y0 /\ g_stride g' = g_stride g /\ g_data g' = g_data g /\
  g_sub g' = true /\ g_offset g' = u32 (pos g x0 y0).
Proof.
  intros H Hx Hy E. unfold gray_subimage in E. destruct (_ || _) eqn:Ed; [discriminate|].
  injection E as <-. cbn. destruct_wf H. rewrite !u32_id by lia. repeat split; try lia; auto.
Qed.
Lemma gray_subimage_offset g x0 y0 x1 y1 g' : wf g ->
  0 <= x0 -> 0 <= y0 -> gray_subimage g x0 y0 x1 y1 = Ok g' -> x0 < x1 -> y0 < y1 ->
  g_offset g' = pos g x0 y0.
Proof.
  intros H Hx Hy E Hx1 Hy1. pose proof (gray_subimage_ok _ _ _ _ _ _ H Hx Hy E) as X.
  destruct X as (? & ? & ? & ? & ? & ? & ? & ? & ? & ->).
  pose proof (wf_pos g x0 y0 H ltac:(split; lia)). destruct_wf H. apply u32_id; lia.
Qed.
Lemma gray_subimage_wf g x0 y0 x1 y1 g' : wf g ->
  0 <= x0 -> 0 <= y0 -> gray_subimage g x0 y0 x1 y1 = Ok g' -> wf g'.
Proof.
  intros H Hx Hy E. pose proof (gray_subimage_ok _ _ _ _ _ _ H Hx Hy E) as X.
  destruct X as (? & ? & ? & ? & Ew & Eh & Es & Ed & Eb & Eo).
  pose proof (u32_range (pos g x0 y0)).
  assert (Hf : 0 < g_width g' -> 0 < g_height g' ->
     g_offset g' + (g_height g' - 1) * g_stride g' + g_width g' <= zlen (g_data g')).
  { intros ? ?. rewrite (gray_subimage_offset g x0 y0 x1 y1 g') by (auto; lia).
    rewrite Es, Ed, Ew, Eh.
    pose proof (wf_pos g (x1 - 1) (y1 - 1) H ltac:(split; lia)). unfold pos in *.
    replace (g_offset g + y0 * g_stride g + x0 + (y1 - y0 - 1) * g_stride g + (x1 - x0))
      with (g_offset g + (y1 - 1) * g_stride g + x1) by ring. lia. }
  destruct_wf H. unfold wf. rewrite Eb. repeat split; try lia; try discriminate.
  rewrite Ed. auto.
Qed.
(** The window property. *)
Lemma gray_subimage_pos g x0 y0 x1 y1 g' x y : wf g ->
  0 <= x0 -> 0 <= y0 -> gray_subimage g x0 y0 x1 y1 = Ok g' -> inside g' x y ->
  inside g (x0 + x) (y0 + y) /\ pos g' x y = pos g (x0 + x) (y0 + y).
Proof.
  intros H Hx Hy E [Ix Iy]. pose proof (gray_subimage_ok _ _ _ _ _ _ H Hx Hy E) as X.
  destruct X as (? & ? & ? & ? & Ew & Eh & Es & Ed & Eb & _).
  split; [split; lia|]. unfold pos at 1. rewrite (gray_subimage_offset g x0 y0 x1 y1 g') by (auto; lia).
  rewrite Es. unfold pos. ring.
Qed.
Lemma gray_subimage_pixel g x0 y0 x1 y1 g' x y : wf g ->
  0 <= x0 -> 0 <= y0 -> gray_subimage g x0 y0 x1 y1 = Ok g' -> inside g' x y ->
  pixel g' x y = pixel g (x0 + x) (y0 + y).
Proof.
  intros H Hx Hy E Hi. destruct (gray_subimage_pos g x0 y0 x1 y1 g' x y H Hx Hy E Hi) as [Hg Ep].
  rewrite !pixel_inside, Ep by auto. f_equal.
  pose proof (gray_subimage_ok _ _ _ _ _ _ H Hx Hy E). tauto.
Qed.

(** ** Writing one pixel *)
Lemma gray_set_inside g x y v : wf g -> inside g x y ->
  exists g', gray_set g x y v = Ok g' /\ g' = with_data g (g_data g') /\ same_layout g g' /\
    forall j, znth (g_data g') j = if j =? pos g x y then Some v else znth (g_data g) j.
Proof.
  intros H Hi. unfold gray_set. destruct Hi as [Hx Hy]. replace (_ || _) with false by lia.
  rewrite wf_index by (auto; split; lia).
  destruct (bset_exists (g_data g) (pos g x y) v (wf_pos g x y H ltac:(split; lia))) as (d & E & L & Hd).
  rewrite E. cbn. eexists; split; [reflexivity|]. cbn. split; auto. split; auto. now apply with_data_layout.
Qed.
Lemma gray_set_layout g x y v g' : gray_set g x y v = Ok g' -> same_layout g g'.
Proof.
  unfold gray_set. destruct (_ || _); [discriminate|]. intros H. apply bind_Ok in H as (d & Hd & H).
  injection H as <-. apply bset_Ok in Hd as (_ & L & _). now apply with_data_layout.
Qed.

(** ** Copy *)
Lemma copy_elems_ok (dst src : list A) di si n :
  0 <= di -> di + n <= zlen dst -> 0 <= si -> si + n <= zlen src ->
  exists d', copy_elems dst di src si n = Ok d' /\
    writes dst (fun j v => exists i, 0 <= i < n /\ j = di + i /\ znth src (si + i) = Some v) d'.
Proof.
  intros. unfold copy_elems.
  destruct (for_range_writes (zlen dst) (fun i j v => j = di + i /\ znth src (si + i) = Some v) 0 n
    (fun i d => let* v := bget src (si + i) in bset d (di + i) v) dst) as (d' & E & Hw); auto.
  - intros i d Hi L. destruct (bget_in src (si + i) ltac:(lia)) as (v & E & Ev). rewrite E; cbn [bind].
    destruct (bset_exists d (di + i) v ltac:(lia)) as (d' & E' & _). exists d'. split; auto.
    eapply writes_iff; [|apply writes_single; eauto]. cbn. intros j w. split; intros [-> X]; split; auto; congruence.
  - exists d'. split; auto. 
Qed.

(** The copying loop of [Gray::copy]. *)
Lemma copy_loop_ok g (src : gray A) :
  wf g -> wf src -> g_width src = g_width g -> g_height src = g_height g ->
  exists d, for_range 0 (g_height g)
      (fun y d => copy_elems d (u32 (g_offset g + y * g_stride g)) (g_data src)
                    (u32 (g_offset src + y * g_stride src)) (g_width src)) (g_data g) = Ok d /\
    writes (g_data g) (fun j v => exists x y, inside g x y /\ j = pos g x y /\ pixel src x y = Some v) d.
Proof.
  intros Hg Hs Ew Eh.
  destruct (for_range_writes (zlen (g_data g))
     (fun y j v => exists x, inside g x y /\ j = pos g x y /\ pixel src x y = Some v) 0 (g_height g)
     (fun y d => copy_elems d (u32 (g_offset g + y * g_stride g)) (g_data src)
                    (u32 (g_offset src + y * g_stride src)) (g_width src)) (g_data g)) as (d & E & Hw); auto.
  - intros y d Hy L. destruct (Z.leb_spec (g_width src) 0).
    + exists d. unfold copy_elems. rewrite for_range_nil by lia. split; auto. apply writes_none.
      intros j v (x & [Hx _] & _). lia.
    + destruct (wf_row g y Hg ltac:(lia) Hy) as (-> & ? & ?).
      destruct (wf_row src y Hs ltac:(lia) ltac:(lia)) as (-> & ? & ?).
      destruct (copy_elems_ok d (g_data src) (g_offset g + y * g_stride g) (g_offset src + y * g_stride src)
                  (g_width src)) as (d' & E & Hw); try lia.
      exists d'. split; auto. eapply writes_iff; [|exact Hw]. cbn. intros j v. split.
      * intros (i & Hi & -> & Ev). exists i. assert (inside g i y) by (split; lia).
        split; auto. split; auto. rewrite pixel_inside; auto. split; lia.
      * intros (x & Hi & -> & Ev). exists x. destruct Hi. split; [lia|]. split; auto.
        rewrite pixel_inside in Ev; auto. split; lia.
  - exists d. split; auto. eapply writes_iff; [|exact Hw]. cbn. intros j v. split.
    + intros (y & Hy & x & X). exists x, y; auto.
    + intros (x & y & Hi & X). exists y. split; [destruct Hi; lia|]. exists x; auto.
Qed.

Lemma gray_copy_ok (zero : A) dst src :
  wf dst -> wf src -> g_width src * g_height src < 4294967296 ->
  (g_sub dst = false \/ (g_width dst = g_width src /\ g_height dst = g_height src)) ->
  exists g g', gray_reshape zero dst (g_width src) (g_height src) = Ok g /\
    gray_copy zero dst src = Ok g' /\ same_layout g g' /\ wf g' /\
    g_width g' = g_width src /\ g_height g' = g_height src /\
    (forall x y, pixel g' x y = pixel src x y) /\
    (forall j, outside_window g' j -> znth (g_data g') j = znth (g_data g) j).
Proof.
  intros Hd Hs Hm Hsub.
  assert (Hr : exists g, gray_reshape zero dst (g_width src) (g_height src) = Ok g).
  { unfold gray_reshape. destruct (_ && _) eqn:E; [eauto|].
    destruct (g_sub dst) eqn:Eb; [|eauto]. destruct Hsub as [|[? ?]]; [discriminate|]. lia. }
  destruct Hr as [g Hr]. exists g.
  destruct (gray_reshape_wf zero dst (g_width src) (g_height src) g) as (Hg & Ew & Eh); auto;
    try (destruct_wf Hs; lia).
  destruct (copy_loop_ok g src) as (d & El & Hw); auto.
  exists (with_data g d). split; auto. unfold gray_copy.
  replace (_ && _) with false.
  2:{ symmetry. destruct (g_sub dst) eqn:Eb; auto. destruct Hsub as [|[E1 E2]]; [discriminate|].
      rewrite E1, E2, !Z.eqb_refl. reflexivity. }
  rewrite Hr. cbn [bind]. rewrite El. cbn [bind]. split; auto.
  assert (L : zlen d = zlen (g_data g)) by (destruct Hw; auto).
  split; [now apply with_data_layout|]. split; [now apply wf_with_data|]. cbn. split; auto. split; auto. split.
  - intros x y. destruct Hw as [_ Hw].
    assert (D : inside g x y \/ ~ inside g x y) by (unfold inside; lia).
    destruct D as [Hi|Hi].
    + assert (inside src x y) by (unfold inside in *; lia).
      destruct (pixel_exists src x y) as [v Hv]; auto. rewrite (pixel_inside (with_data g d)) by auto.
      cbn. change (pos (with_data g d) x y) with (pos g x y).
      destruct (Hw (pos g x y)) as [(v' & (x' & y' & Hi' & Ep & Ev) & E)|(N & _)].
      * destruct (pos_inj g x y x' y') as [<- <-]; auto. congruence.
      * exfalso. apply (N v). exists x, y; auto.
    + rewrite !pixel_outside; auto; unfold inside in *; cbn; lia.
  - intros j Ho. destruct Hw as [_ Hw]. destruct (Hw j) as [(v & (x & y & Hi & Ep & _) & _)|(_ & E)]; auto.
    exfalso. apply (Ho x y); auto.
Qed.

Lemma gray_copy_throw (zero : A) dst src :
  g_sub dst = true -> ~ (g_width dst = g_width src /\ g_height dst = g_height src) ->
  gray_copy zero dst src = Throw.
Proof.
  intros Hb Hn. unfold gray_copy. rewrite Hb. now replace (_ && _) with true by lia.
Qed.

(** ** Reachable images are well formed *)
Definition small g : Prop := g_width g * g_height g < 4294967296.

Lemma wf_small g : wf g -> small g.
Proof.
  intros H. destruct_wf H. unfold small.
  destruct (Z.eq_dec (g_width g) 0) as [->|]; [lia|]. destruct (Z.eq_dec (g_height g) 0) as [->|]; [lia|].
  specialize (Wf ltac:(lia) ltac:(lia)).
  assert ((g_height g - 1) * g_width g <= (g_height g - 1) * g_stride g) by (apply Z.mul_le_mono_nonneg_l; lia).
  lia.
Qed.

Lemma gray_copy_wf (zero : A) dst src g' : wf dst -> wf src -> gray_copy zero dst src = Ok g' -> wf g'.
Proof.
  intros Hd Hs E.
  assert (C : g_sub dst = false \/ (g_width dst = g_width src /\ g_height dst = g_height src)).
  { unfold gray_copy in E. destruct (g_sub dst); auto. right. cbn [andb] in E.
    destruct (negb (g_width dst =? g_width src) || negb (g_height dst =? g_height src)) eqn:En; [discriminate|]. lia. }
  destruct (gray_copy_ok zero dst src Hd Hs (wf_small src Hs) C) as (g & g'' & _ & E' & _ & W & _).
  congruence.
Qed.

Theorem reachable_wf (zero : A) g : reachable zero g -> wf g.
Proof.
  induction 1.
  - now apply wf_new.
  - eapply gray_of_rows_wf; eauto.
  - apply (gray_reshape_wf zero g w h); auto.
  - apply (gray_subimage_wf g x0 y0 x1 y1); auto; lia.
  - apply (wf_layout g); auto. apply (gray_set_layout g x y v); auto.
  - apply (gray_copy_wf zero dst src); auto.
  - unfold gray_assign in H1. destruct (g_sub src) eqn:Es.
    + injection H1 as <-. destruct src; cbn in *; subst; auto.
    + apply (gray_copy_wf zero dst src); auto.
Qed.
End Gray.

(** Lemmas behind the image properties (P_Image.v). *)
From Verif Require Import Base BaseFacts M_Image S_Image L_Image L_Inter.

Lemma at_exact_lemma (A : Type) (zero : A) (g : gray A) x y :
  reachable zero g -> 0 <= x < 4294967296 -> 0 <= y < 4294967296 ->
  (inside g x y -> exists v, gray_get g x y = Ok v /\ pixel g x y = Some v /\
      znth (g_data g) (gray_index g x y) = Some v) /\
  (~ inside g x y -> gray_get g x y = Throw).
Proof.
  intros R Hx Hy. apply reachable_wf in R. split.
  - intros Hi. destruct (gray_get_inside g x y R Hi) as (v & E1 & E2). exists v. split; auto. split; auto.
    rewrite wf_index by auto. now rewrite <- pixel_inside.
  - apply gray_get_outside; lia.
Qed.

Lemma at_distinct_lemma (A : Type) (zero : A) (g : gray A) x y x' y' :
  reachable zero g -> inside g x y -> inside g x' y' ->
  gray_index g x y = gray_index g x' y' -> x = x' /\ y = y'.
Proof.
  intros R H H' E. apply reachable_wf in R. rewrite !wf_index in E by auto. now apply (pos_inj g).
Qed.

Lemma at_set_get_lemma (A : Type) (zero : A) (g : gray A) x y v :
  reachable zero g -> inside g x y ->
  exists g', gray_set g x y v = Ok g' /\ same_layout g g' /\
    (forall x' y', pixel g' x' y' = if (x' =? x) && (y' =? y) then Some v else pixel g x' y') /\
    (forall j, outside_window g j -> znth (g_data g') j = znth (g_data g) j).
Proof.
  intros R Hi. apply reachable_wf in R. destruct (gray_set_inside g x y v R Hi) as (g' & E & Eg & Hl & Hd).
  exists g'. split; auto. split; auto. split.
  - intros x' y'. assert (D : inside g x' y' \/ ~ inside g x' y') by (unfold inside; lia). destruct D as [Hi'|Hi'].
    + rewrite pixel_inside by (rewrite (inside_layout g g'); auto). rewrite Hd, Eg.
      change (pos (with_data g (g_data g')) x' y') with (pos g x' y').
      destruct (Z.eqb_spec (pos g x' y') (pos g x y)) as [Ep|Np].
      * destruct (pos_inj g x' y' x y R Hi' Hi Ep) as [-> ->]. now rewrite !Z.eqb_refl.
      * rewrite pixel_inside by auto. replace (_ && _) with false; auto.
        symmetry. apply andb_false_iff. destruct (Z.eqb_spec x' x); [|tauto]. destruct (Z.eqb_spec y' y); [|tauto]. congruence.
    + rewrite !pixel_outside; auto. 2:{ rewrite (inside_layout g g'); auto. }
      replace (_ && _) with false; auto. symmetry. destruct Hi. unfold inside in *. lia.
  - intros j Ho. rewrite Hd. replace (j =? pos g x y) with false; auto. symmetry. apply Z.eqb_neq.
    intros ->. now apply (Ho x y).
Qed.

(** For sizes that do not fit, some accepted coordinate lies outside the buffer. *)
Lemma at_safe_iff_lemma (A : Type) (zero : A) w h :
  0 <= w < 4294967296 -> 0 <= h < 4294967296 ->
  ((forall x y, 0 <= x < 4294967296 -> 0 <= y < 4294967296 -> gray_get (gray_new zero w h) x y <> Undef)
   <-> w * h < 4294967296).
Proof.
  intros Hw Hh. split.
  - intros H. destruct (Z.ltb_spec (w * h) 4294967296); auto. exfalso.
    assert (0 < w) by nia. set (k := 4294967295).
    assert (Hk : k = w * (k / w) + k mod w) by (apply Z.div_mod; lia).
    pose proof (Z.mod_pos_bound k w ltac:(lia)).
    assert (0 <= k / w) by (apply Z.div_pos; unfold k; lia).
    assert (k / w < h) by (apply Z.div_lt_upper_bound; unfold k; lia).
    apply (H (k mod w) (k / w)); try lia.
    unfold gray_get, gray_new; cbn [g_width g_height g_data]. replace (_ || _) with false by lia.
    apply bget_out. unfold gray_index; cbn [g_offset g_stride]. rewrite zlen_repeat.
    replace (0 + k / w * w + k mod w) with k by lia. rewrite (u32_id k) by (unfold k; lia).
    pose proof (u32_range (w * h)). rewrite Z2Nat.id by lia. unfold k. lia.
  - intros Hm x y Hx Hy. pose proof (wf_new zero w h Hw Hh Hm) as W.
    assert (D : inside (gray_new zero w h) x y \/ ~ inside (gray_new zero w h) x y) by (unfold inside; lia).
    destruct D as [Hi|Hi].
    + destruct (gray_get_inside _ x y W Hi) as (v & E & _). congruence.
    + rewrite gray_get_outside; auto; try lia. discriminate.
Qed.

Lemma reshape_contract_lemma (A : Type) (zero : A) (g : gray A) w h :
  reachable zero g -> 0 <= w < 4294967296 -> 0 <= h < 4294967296 -> w * h < 4294967296 ->
  (g_width g = w /\ g_height g = h -> gray_reshape zero g w h = Ok g) /\
  (~ (g_width g = w /\ g_height g = h) -> g_sub g = true -> gray_reshape zero g w h = Throw) /\
  (~ (g_width g = w /\ g_height g = h) -> g_sub g = false ->
     exists g', gray_reshape zero g w h = Ok g' /\ g_width g' = w /\ g_height g' = h /\
       g_sub g' = false /\ g_offset g' = 0 /\ g_stride g' = w /\
       w * h <= zlen (g_data g') /\ zlen (g_data g) <= zlen (g_data g') /\
       (w * h <= zlen (g_data g) -> g_data g' = g_data g) /\
       (zlen (g_data g) < w * h -> forall x y, inside g' x y -> pixel g' x y = Some zero) /\
       forall x y, inside g' x y -> exists v, gray_get g' x y = Ok v).
Proof.
  intros R Hw Hh Hm. apply reachable_wf in R. split; [|split].
  - intros [E1 E2]. unfold gray_reshape. now rewrite E1, E2, !Z.eqb_refl.
  - intros N Es. unfold gray_reshape. rewrite Es. now replace (_ && _) with false by lia.
  - intros N Es.
    assert (Ex : exists g', gray_reshape zero g w h = Ok g').
    { unfold gray_reshape. rewrite Es. replace (_ && _) with false by lia. eauto. }
    destruct Ex as [g' E]. pose proof (gray_reshape_wf zero g w h g' R Hw Hh Hm E) as (W & E1 & E2).
    exists g'. split; auto. split; auto. split; auto.
    assert (0 <= w * h) by nia.
    unfold gray_reshape in E. rewrite Es in E. replace (_ && _) with false in E by lia.
    rewrite u32_id in E by lia. destruct R as (_ & _ & _ & _ & _ & _ & Nn). destruct (Nn Es) as [Eo _].
    injection E as <-. cbn [g_sub g_offset g_stride g_data].
    split; auto. split; auto. split; auto.
    destruct (zlen (g_data g) <? w * h) eqn:El.
    + rewrite zlen_repeat, Z2Nat.id by lia. split; [lia|]. split; [lia|]. split; [lia|]. split.
      * intros _ x y Hi. rewrite pixel_inside by auto. cbn. apply znth_repeat.
        pose proof (wf_pos _ x y W Hi) as P. cbn in P. rewrite zlen_repeat in P. exact P.
      * intros x y Hi. destruct (gray_get_inside _ x y W Hi) as (v & Hv & _). eauto.
    + split; [lia|]. split; [lia|]. split; [auto|]. split; [lia|].
      intros x y Hi. destruct (gray_get_inside _ x y W Hi) as (v & Hv & _). eauto.
Qed.

Lemma subimage_throws_lemma (A : Type) (g : gray A) x0 y0 x1 y1 :
  gray_subimage g x0 y0 x1 y1 = Throw <-> ~ (x0 <= x1 <= g_width g /\ y0 <= y1 <= g_height g).
Proof.
  unfold gray_subimage. destruct (_ || _) eqn:E.
  - split; auto. intros _. lia.
  - split; [discriminate|]. intros H. exfalso. apply H. lia.
Qed.

Lemma subimage_window_lemma (A : Type) (zero : A) (g s : gray A) x0 y0 x1 y1 :
  reachable zero g -> 0 <= x0 -> 0 <= y0 -> gray_subimage g x0 y0 x1 y1 = Ok s ->
  g_width s = x1 - x0 /\ g_height s = y1 - y0 /\
  forall x y, inside s x y ->
    (* reading *)
    pixel s x y = pixel g (x0 + x) (y0 + y) /\
    (* a write through the sub-image seen through the parent *)
    (forall v, exists s', gray_set s x y v = Ok s' /\
       forall a b, pixel (with_data g (g_data s')) a b =
         if (a =? x0 + x) && (b =? y0 + y) then Some v else pixel g a b) /\
    (* a write through the parent seen through the sub-image *)
    (forall a b v, inside g a b -> exists g', gray_set g a b v = Ok g' /\
       pixel (with_data s (g_data g')) x y = if (a =? x0 + x) && (b =? y0 + y) then Some v else pixel s x y).
Proof.
  intros R Hx Hy E. apply reachable_wf in R.
  pose proof (gray_subimage_ok g x0 y0 x1 y1 s R Hx Hy E) as (? & ? & ? & ? & Ew & Eh & Est & Ed & Esb & Eo).
  split; auto. split; auto. intros x y Hi.
  destruct (gray_subimage_pos g x0 y0 x1 y1 s x y R Hx Hy E Hi) as [Hg Ep].
  split; [|split].
  - now apply (gray_subimage_pixel g x0 y0 x1 y1).
  - intros v. destruct (gray_set_inside s x y v) as (s' & Es & _ & Hl & Hd); auto.
    { now apply (gray_subimage_wf g x0 y0 x1 y1). }
    exists s'. split; auto. intros a b.
    assert (D : inside g a b \/ ~ inside g a b) by (unfold inside; lia). destruct D as [Hab|Hab].
    + rewrite pixel_inside by auto. cbn. rewrite Hd, Ed, Ep. change (pos (with_data g (g_data s')) a b) with (pos g a b).
      destruct (Z.eqb_spec (pos g a b) (pos g (x0 + x) (y0 + y))) as [Q|Q].
      * destruct (pos_inj g _ _ _ _ R Hab Hg Q) as [-> ->]. now rewrite !Z.eqb_refl.
      * rewrite pixel_inside by auto. destruct (Z.eqb_spec a (x0 + x)); [|auto]. destruct (Z.eqb_spec b (y0 + y)); auto. subst; congruence.
    + rewrite !pixel_outside by auto. replace (_ && _) with false; auto. unfold inside in *. lia.
  - intros a b v Hab. destruct (gray_set_inside g a b v R Hab) as (g' & Es & _ & Hl & Hd).
    exists g'. split; auto. rewrite pixel_inside by auto. cbn. change (pos (with_data s (g_data g')) x y) with (pos s x y).
    rewrite Hd, Ep.
    destruct (Z.eqb_spec (pos g (x0 + x) (y0 + y)) (pos g a b)) as [Q|Q].
    + destruct (pos_inj g _ _ _ _ R Hg Hab Q) as [<- <-]. now rewrite !Z.eqb_refl.
    + rewrite pixel_inside, Ep, Ed by auto. destruct (Z.eqb_spec a (x0 + x)); [|auto]. destruct (Z.eqb_spec b (y0 + y)); auto. subst; congruence.
Qed.

(** Cutting twice is cutting once with the origins added. *)
Lemma subimage_nested_lemma (A : Type) (zero : A) (g s t : gray A) x0 y0 x1 y1 a0 b0 a1 b1 :
  reachable zero g -> 0 <= x0 -> 0 <= y0 -> 0 <= a0 -> 0 <= b0 ->
  gray_subimage g x0 y0 x1 y1 = Ok s -> gray_subimage s a0 b0 a1 b1 = Ok t ->
  exists t', gray_subimage g (x0 + a0) (y0 + b0) (x0 + a1) (y0 + b1) = Ok t' /\
    g_width t' = g_width t /\ g_height t' = g_height t /\ g_data t' = g_data t /\
    forall x y, inside t x y -> pos t' x y = pos t x y.
Proof.
  intros R Hx Hy Ha Hb E1 E2. apply reachable_wf in R.
  pose proof (gray_subimage_wf g x0 y0 x1 y1 s R Hx Hy E1) as Ws.
  pose proof (gray_subimage_ok g x0 y0 x1 y1 s R Hx Hy E1) as (? & ? & ? & ? & Ew & Eh & Est & Ed & Esb & Eo).
  pose proof (gray_subimage_ok s a0 b0 a1 b1 t Ws Ha Hb E2) as (? & ? & ? & ? & Ew' & Eh' & Est' & Ed' & Esb' & Eo').
  assert (Ex : exists t', gray_subimage g (x0 + a0) (y0 + b0) (x0 + a1) (y0 + b1) = Ok t').
  { unfold gray_subimage. replace (_ || _) with false by lia. eauto. }
  destruct Ex as [t' E3]. exists t'. split; auto.
  pose proof (gray_subimage_ok g (x0 + a0) (y0 + b0) (x0 + a1) (y0 + b1) t' R ltac:(lia) ltac:(lia) E3) as (? & ? & ? & ? & Ew3 & Eh3 & Est3 & Ed3 & Esb3 & Eo3).
  split; [lia|]. split; [lia|]. split; [congruence|].
  intros x y Hi. destruct (gray_subimage_pos s a0 b0 a1 b1 t x y Ws Ha Hb E2 Hi) as [Hs Eq].
  destruct (gray_subimage_pos g x0 y0 x1 y1 s _ _ R Hx Hy E1 Hs) as [_ Eq'].
  assert (Hi' : inside t' x y) by (unfold inside in *; lia).
  destruct (gray_subimage_pos g (x0 + a0) (y0 + b0) (x0 + a1) (y0 + b1) t' x y R ltac:(lia) ltac:(lia) E3 Hi') as [_ Eq3].
  rewrite Eq, Eq', Eq3. f_equal; lia.
Qed.

Lemma copy_exact_lemma (A : Type) (zero : A) (dst src : gray A) :
  reachable zero dst -> reachable zero src ->
  (g_sub dst = false \/ (g_width dst = g_width src /\ g_height dst = g_height src)) ->
  exists g', gray_copy zero dst src = Ok g' /\
    g_width g' = g_width src /\ g_height g' = g_height src /\ g_sub g' = g_sub dst /\
    (forall x y, pixel g' x y = pixel src x y) /\
    (g_width dst = g_width src /\ g_height dst = g_height src ->
       same_layout dst g' /\ forall j, outside_window dst j -> znth (g_data g') j = znth (g_data dst) j).
Proof.
  intros Rd Rs Hc. apply reachable_wf in Rd, Rs.
  destruct (gray_copy_ok zero dst src Rd Rs (wf_small src Rs) Hc)
    as (g & g' & Er & Ec & Hl & W & Ew & Eh & Hp & Hf).
  exists g'. split; auto. split; auto. split; auto. split.
  { destruct Hl as (_ & _ & _ & _ & -> & _). unfold gray_reshape in Er.
    destruct (_ && _); [congruence|]. destruct (g_sub dst) eqn:Es; [discriminate|]. injection Er as <-. auto. }
  split; auto. intros [E1 E2].
  assert (g = dst) as ->.
  { unfold gray_reshape in Er. rewrite E1, E2, !Z.eqb_refl in Er. cbn in Er. congruence. }
  split; auto. intros j Ho. apply Hf. intros x y Hi. destruct Hl as (L1 & L2 & L3 & L4 & _).
  unfold pos. rewrite L3, L4. apply Ho. unfold inside in *. now rewrite <- L1, <- L2.
Qed.

Lemma assign_lemma (A : Type) (zero : A) (dst src : gray A) :
  reachable zero dst -> reachable zero src ->
  (g_sub src = true \/ g_sub dst = false \/ (g_width dst = g_width src /\ g_height dst = g_height src)) ->
  exists g', gray_assign zero dst src = Ok g' /\ (forall x y, pixel g' x y = pixel src x y) /\
    (g_sub src = true -> g_data g' = g_data src /\ g_sub g' = true /\ forall x y, pos g' x y = pos src x y).
Proof.
  intros Rd Rs Hc. unfold gray_assign. destruct (g_sub src) eqn:Es.
  - eexists; split; [reflexivity|]. cbn. split; auto.
  - destruct (copy_exact_lemma A zero dst src Rd Rs) as (g' & E & _ & _ & _ & Hp & _).
    { destruct Hc as [|]; [discriminate|auto]. }
    exists g'. split; auto. split; auto. discriminate.
Qed.

Lemma same_shape_lemma (A B C : Type) (a : gray A) (b : gray B) (c : gray C) :
  (checkSameShape a b = Ok tt <-> g_width a = g_width b /\ g_height a = g_height b) /\
  (checkSameShape a b = Throw <-> ~ (g_width a = g_width b /\ g_height a = g_height b)) /\
  (checkSameShape3 a b c = Ok tt <->
     (g_width a = g_width b /\ g_height a = g_height b) /\ (g_width a = g_width c /\ g_height a = g_height c)) /\
  (checkSameShape3 a b c = Throw <->
     ~ ((g_width a = g_width b /\ g_height a = g_height b) /\ (g_width a = g_width c /\ g_height a = g_height c))).
Proof.
  unfold checkSameShape, checkSameShape3.
  destruct (Z.eqb_spec (g_width a) (g_width b)), (Z.eqb_spec (g_height a) (g_height b)),
    (Z.eqb_spec (g_width a) (g_width c)), (Z.eqb_spec (g_height a) (g_height c));
  cbn; repeat split; intros; try discriminate; try tauto; try congruence.
Qed.

Lemma inter_at_lemma (A : Type) (g : inter A) :
  i_wf g ->
  (forall x y b, i_inside g x y b -> exists v, inter_get g x y b = Ok v /\ i_pixel g x y b = Some v) /\
  (forall x y b, 0 <= x -> 0 <= y -> ~ (x < i_width g /\ y < i_height g) -> inter_get g x y b = Throw) /\
  (forall x y b x' y' b', i_inside g x y b -> i_inside g x' y' b' ->
     inter_index g x y b = inter_index g x' y' b' -> x = x' /\ y = y' /\ b = b').
Proof.
  intros W. split; [|split].
  - intros; now apply inter_get_inside.
  - intros x y b Hx Hy N. unfold inter_get. now replace (_ || _) with true by lia.
  - intros x y b x' y' b' H H' E. rewrite !i_wf_index in E by auto. now apply (i_pos_inj g).
Qed.

Lemma inter_wf_lemma (A : Type) (zero : A) :
  (forall w h b, 0 <= w < 4294967296 -> 0 <= h < 4294967296 -> 0 <= b < 4294967296 ->
     w * b < 4294967296 -> w * h * b < 4294967296 -> i_wf (inter_new zero w h b)) /\
  (forall (g : inter A) w h b (g' : inter A), i_wf g -> 0 <= w < 4294967296 -> 0 <= h < 4294967296 -> 0 <= b < 4294967296 ->
     w * b < 4294967296 -> w * h * b < 4294967296 -> inter_reshape3 zero g w h b = Ok g' ->
     i_wf g' /\ i_width g' = w /\ i_height g' = h /\ i_bands g' = b) /\
  (forall (g : inter A) b (g' : inter A), i_wf g -> 0 <= b < 4294967296 -> i_width g * b < 4294967296 ->
     i_width g * i_height g * b < 4294967296 -> inter_set_bands zero g b = Ok g' ->
     i_wf g' /\ i_width g' = i_width g /\ i_height g' = i_height g /\ i_bands g' = b) /\
  (forall (g : inter A) x0 y0 x1 y1 (g' : inter A), i_wf g -> 0 <= x0 -> 0 <= y0 -> inter_subimage g x0 y0 x1 y1 = Ok g' ->
     i_wf g' /\ i_width g' = x1 - x0 /\ i_height g' = y1 - y0 /\ i_bands g' = i_bands g /\
     forall x y b, i_inside g' x y b -> i_pixel g' x y b = i_pixel g (x0 + x) (y0 + y) b).
Proof.
  split; [|split; [|split]].
  - intros; now apply inter_new_wf.
  - intros g w h b g' ? ? ? ? ? ? E. now apply (inter_reshape3_wf zero g w h b g').
  - intros g b g' ? ? ? ? E. now apply (inter_set_bands_wf zero g b g').
  - intros g x0 y0 x1 y1 g' W Hx Hy E.
    destruct (inter_subimage_ok g x0 y0 x1 y1 g' W Hx Hy E) as (W' & E1 & E2 & E3 & E4 & Hp).
    do 4 (split; [assumption|]). intros x y b Hi. destruct (Hp x y b Hi) as [Hi' Ep].
    rewrite !i_pixel_inside, Ep, E4; auto.
Qed.

(** A witness for each element type wider than one byte: the second pixel is not copied. *)
Definition setTo_src : inter Z := mkInter 2 1 1 0 2 false [5; 5].
Definition setTo_dst : inter Z := inter_new 0 2 1 1.

Lemma setTo_refuted_lemma t : 1 < ity_size t ->
  exists dst src g', i_wf dst /\ i_wf src /\ inter_setTo t dst src = Ok g' /\
    exists x y b, i_pixel g' x y b <> i_pixel src x y b.
Proof.
  intros Ht. exists setTo_dst, setTo_src. 
  assert (W : i_wf setTo_dst) by (apply inter_new_wf; lia).
  assert (W' : i_wf setTo_src).
  { unfold i_wf, setTo_src, zlen; cbn. repeat split; lia. }
  destruct t; cbn in Ht; try lia;
    (eexists; split; [exact W|]; split; [exact W'|]; split; [vm_compute; reflexivity|]; exists 1, 0, 0; vm_compute; discriminate).
Qed.

Lemma i_reachable_wf (A : Type) (zero : A) (g : inter A) : i_reachable zero g -> i_wf g.
Proof.
  induction 1.
  - now apply inter_new_wf.
  - now apply (inter_reshape3_wf zero g w h b g').
  - now apply (inter_set_bands_wf zero g b g').
  - unfold inter_set in H3. destruct (_ || _); [discriminate|].
    apply bind_Ok in H3 as (d & E & E'). injection E' as <-. apply bset_Ok in E as (_ & L & _).
    unfold i_wf in *. cbn. rewrite L. exact IHi_reachable.
  - now apply (inter_subimage_ok g x0 y0 x1 y1 g').
Qed.

Lemma inter_at_reachable_lemma (A : Type) (zero : A) (g : inter A) :
  i_reachable zero g ->
  (forall x y b, i_inside g x y b -> exists v, inter_get g x y b = Ok v /\ i_pixel g x y b = Some v) /\
  (forall x y b, 0 <= x -> 0 <= y -> ~ (x < i_width g /\ y < i_height g) -> inter_get g x y b = Throw) /\
  (forall x y b x' y' b', i_inside g x y b -> i_inside g x' y' b' ->
     inter_index g x y b = inter_index g x' y' b' -> x = x' /\ y = y' /\ b = b').
Proof. intros R. apply i_reachable_wf in R. now apply inter_at_lemma. Qed.

Lemma inter_set_lemma (A : Type) (zero : A) (g : inter A) x y b v :
  i_reachable zero g -> i_inside g x y b ->
  exists g', inter_set g x y b v = Ok g' /\
    (forall x' y' b', i_pixel g' x' y' b' =
       if (x' =? x) && (y' =? y) && (b' =? b) then Some v else i_pixel g x' y' b').
Proof.
  intros R Hi. apply i_reachable_wf in R. pose proof (i_wf_pos g x y b R Hi) as P.
  unfold inter_set. rewrite i_wf_index by auto. destruct (bset_exists (i_data g) (i_pos g x y b) v P) as (d & E & _ & Hd).
  rewrite E. cbn [bind]. replace (_ || _) with false by (unfold i_inside in Hi; lia).
  eexists; split; [reflexivity|]. intros x' y' b'.
  assert (D : i_inside g x' y' b' \/ ~ i_inside g x' y' b') by (unfold i_inside; lia). destruct D as [Hi'|Hi'].
  - rewrite i_pixel_inside by auto. cbn. rewrite Hd.
    change (i_pos (i_with_data g d) x' y' b') with (i_pos g x' y' b').
    destruct (Z.eqb_spec (i_pos g x' y' b') (i_pos g x y b)) as [Q|Q].
    + destruct (i_pos_inj g _ _ _ _ _ _ R Hi' Hi Q) as (-> & -> & ->). now rewrite !Z.eqb_refl.
    + rewrite i_pixel_inside by auto. replace (_ && _) with false; auto. symmetry.
      destruct (Z.eqb_spec x' x); [|auto]. destruct (Z.eqb_spec y' y); [|auto]. destruct (Z.eqb_spec b' b); auto.
      subst; congruence.
  - rewrite !i_pixel_outside by auto. replace (_ && _) with false; auto. unfold i_inside in *. lia.
Qed.

Lemma inter_sub_lemma (A : Type) (zero : A) (g s : inter A) x0 y0 x1 y1 :
  i_reachable zero g -> 0 <= x0 -> 0 <= y0 ->
  (inter_subimage g x0 y0 x1 y1 = Throw <-> ~ (x0 <= x1 <= i_width g /\ y0 <= y1 <= i_height g)) /\
  (inter_subimage g x0 y0 x1 y1 = Ok s ->
     i_width s = x1 - x0 /\ i_height s = y1 - y0 /\ i_bands s = i_bands g /\
     forall x y b, i_inside s x y b -> i_pixel s x y b = i_pixel g (x0 + x) (y0 + y) b).
Proof.
  intros R Hx Hy. apply i_reachable_wf in R. split.
  - unfold inter_subimage. destruct ((x1 <? x0) || (y1 <? y0)) eqn:E1; [split; auto; intros _; lia|].
    destruct ((i_width g <? x1) || _) eqn:E2; split; auto; try discriminate; intros; solve [lia | exfalso; lia].
  - intros E. now apply (inter_wf_lemma A zero).
Qed.

Lemma setTo_reachable_lemma t (dst src : inter Z) :
  ity_size t = 1 -> i_reachable 0 dst -> i_reachable 0 src ->
  (i_sub dst = false \/ (i_width dst = i_width src /\ i_height dst = i_height src /\ i_bands dst = i_bands src)) ->
  exists g', inter_setTo t dst src = Ok g' /\
    i_width g' = i_width src /\ i_height g' = i_height src /\ i_bands g' = i_bands src /\
    (forall x y b, i_pixel g' x y b = i_pixel src x y b) /\
    (i_sub dst = true -> forall j, i_outside_window dst j -> znth (i_data g') j = znth (i_data dst) j).
Proof.
  intros Et Rd Rs Hc. apply i_reachable_wf in Rd, Rs.
  destruct (inter_setTo_ok t dst src Et Rd Rs Hc) as (g' & E & _ & H). exists g'. tauto.
Qed.

Lemma setTo_throw_lemma t (dst src : inter Z) :
  i_sub dst = true ->
  ~ (i_width dst = i_width src /\ i_height dst = i_height src /\ i_bands dst = i_bands src) ->
  inter_setTo t dst src = Throw.
Proof. intros Es N. unfold inter_setTo. rewrite Es. now replace (_ && _) with true by lia. Qed.

Lemma in_bounds_lemma (A : Type) (zero : A) (g : gray A) x y :
  reachable zero g -> 0 <= x < 4294967296 -> 0 <= y < 4294967296 ->
  (gray_isInBounds g x y = true <-> inside g x y) /\ (gray_isInBounds g x y = true <-> exists v, gray_get g x y = Ok v).
Proof.
  intros R Hx Hy. assert (B : gray_isInBounds g x y = true <-> inside g x y) by (unfold gray_isInBounds, inside; lia).
  split; auto. rewrite B. destruct (at_exact_lemma A zero g x y R Hx Hy) as [H1 H2]. split.
  - intros Hi. destruct (H1 Hi) as (v & E & _). eauto.
  - intros (v & E). assert (D : inside g x y \/ ~ inside g x y) by (unfold inside; lia). destruct D as [|N]; auto.
    rewrite (H2 N) in E. discriminate.
Qed.

Lemma getters_lemma (A : Type) (g : gray A) :
  gray_getWidth g = g_width g /\ (gray_getHeight g = g_height g <-> g_width g = g_height g).
Proof. unfold gray_getWidth, gray_getHeight. tauto. Qed.

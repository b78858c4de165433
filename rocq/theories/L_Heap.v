(** Lemmas about objects that share memory. *)
From Verif Require Import BaseFacts M_Image S_Image L_Image L_Window M_Heap S_Heap M_Binary.

Section H.
Context {A : Type}.
Implicit Types (H : heap A) (o : himg).

Lemma upd_nth {B} (l : list B) n m a : nth_error (upd l n a) m =
  if Nat.eqb n m then (if Nat.ltb n (length l) then Some a else None) else nth_error l m.
Proof.
  destruct (Nat.eqb_spec n m) as [->|N]; [|now apply upd_other].
  destruct (Nat.ltb_spec m (length l)); [now apply upd_same|]. apply nth_error_None. rewrite upd_length. lia.
Qed.
Lemma nth_some_lt {B} (l : list B) n a : nth_error l n = Some a -> (n < length l)%nat.
Proof. intros E. apply nth_error_Some. congruence. Qed.

Lemma hfree_Ok H b H' : hfree H b = Ok H' <-> live H b /\ H' = upd H b None.
Proof.
  unfold hfree, live. destruct (nth_error H b) as [[d|]|]; split; try discriminate.
  - intros E; injection E as <-. eauto.
  - intros [_ ->]. reflexivity.
  - intros [(d & E) _]. discriminate.
  - intros [(d & E) _]. discriminate.
Qed.
Lemma hread_live H b d i : nth_error H b = Some (Some d) -> hread H b i = bget d i.
Proof. unfold hread. now intros ->. Qed.
Lemma hwrite_live H b d i v : nth_error H b = Some (Some d) ->
  hwrite H b i v = let* d' := bset d i v in Ok (upd H b (Some d')).
Proof. unfold hwrite. now intros ->. Qed.

Lemma view_inv H o g : view H o = Some g ->
  nth_error H (h_block o) = Some (Some (g_data g)) /\ g_width g = h_width o /\ g_height g = h_height o /\
  g_offset g = h_offset o /\ g_stride g = h_stride o /\ g_sub g = h_sub o.
Proof.
  unfold view. destruct (nth_error H (h_block o)) as [[d|]|]; try discriminate. intros E; injection E as <-. cbn. auto 7.
Qed.
Lemma view_Some H o d : nth_error H (h_block o) = Some (Some d) ->
  view H o = Some (mkGray (h_width o) (h_height o) (h_offset o) (h_stride o) (h_sub o) d).
Proof. unfold view. now intros ->. Qed.
Lemma view_same H H' o : nth_error H' (h_block o) = nth_error H (h_block o) -> view H' o = view H o.
Proof. unfold view. now intros ->. Qed.

(** Reshape of an object: its memory is the same or fresh. *)
Lemma h_reshape_ok (zero : A) H o g w h : good H o g -> is32 w -> is32 h -> w * h < 4294967296 ->
  (h_width o = w /\ h_height o = h) \/ h_sub o = false ->
  exists H' o' g', h_reshape zero H o w h = Ok (H', o') /\ good H' o' g' /\ gray_reshape zero g w h = Ok g' /\
    g_width g' = w /\ g_height g' = h /\ h_sub o' = h_sub o /\
    (h_width o = w /\ h_height o = h -> H' = H /\ o' = o) /\
    (h_block o' = h_block o /\ H' = H \/
     h_block o' = length H /\ H' = upd H (h_block o) None ++ [Some (g_data g')]).
Proof.
  intros (V & W & L) Hw Hh Hm Hs. pose proof (view_inv _ _ _ V) as (Vd & Vw & Vh & Vo & Vs & Vb).
  unfold h_reshape, gray_reshape. rewrite Vw, Vh. destruct (_ && _) eqn:B.
  { exists H, o, g. split; auto. split; [split; auto|]. split; auto. split; [lia|]. split; [lia|]. auto 6. }
  destruct Hs as [[E1 E2]|Hs]; [lia|]. rewrite Vb, Hs. rewrite L. destruct (_ <? _) eqn:C.
  - assert (F : hfree H (h_block o) = Ok (upd H (h_block o) None)) by (apply hfree_Ok; split; auto; eexists; eauto).
    rewrite F. cbn [bind halloc]. rewrite u32_id in * by (unfold is32 in *; nia).
    eexists _, _, _. split; [reflexivity|]. rewrite upd_length. split.
    { split; [|split].
      - unfold view. cbn [h_block]. rewrite nth_error_app2 by (rewrite upd_length; lia). rewrite upd_length, Nat.sub_diag.
        reflexivity.
      - eapply (gray_reshape_wf zero g w h); auto. unfold gray_reshape. rewrite Vw, Vh, B, Vb, Hs.
        rewrite u32_id by (unfold is32 in *; nia). rewrite C. cbn [h_width h_height h_offset h_stride h_sub]. now rewrite Vo.
      - cbn. rewrite zlen_repeat. unfold is32 in *. nia. }
    split; [cbn; rewrite Vo; reflexivity|]. cbn. do 3 (split; auto). split; [intros [? ?]; lia|]. right. auto.
  - eexists _, _, _. split; [reflexivity|]. split.
    { split; [|split].
      - apply view_Some. cbn. exact Vd.
      - eapply (gray_reshape_wf zero g w h); auto. unfold gray_reshape. rewrite Vw, Vh, B, Vb, Hs, C.
        cbn [h_width h_height h_offset h_stride h_sub]. now rewrite Vo.
      - cbn. auto. }
    split; [cbn; rewrite Vo; reflexivity|]. cbn. do 3 (split; auto). split; [intros [? ?]; lia|]. left. auto.
Qed.
End H.

(** ** Pixelwise operations, also in place *)
Section P.
Variable op : outcome Z -> outcome Z -> outcome Z.
Variable f : Z -> Z -> Z.
Hypothesis Hop : forall a b, op (Ok a) (Ok b) = Ok (f a b).
Variables (H : heap Z) (a b o : himg) (ga gb go : gray Z).
Hypothesis Ga : good H a ga.
Hypothesis Gb : good H b gb.
Hypothesis Go : good H o go.
Hypothesis Sab : h_width b = h_width a /\ h_height b = h_height a.
Hypothesis Sao : h_width o = h_width a /\ h_height o = h_height a.
Hypothesis Aa : aligned a o.
Hypothesis Ab : aligned b o.

Definition pw_value (x y : Z) : option Z :=
  match pixel ga x y, pixel gb x y with Some u, Some v => Some (f u v) | _, _ => None end.

Lemma pw_loops : exists H', for_range 0 (h_height a) (fun y H =>
    let indexA := u32 (h_offset a + y * h_stride a) in
    let indexB := u32 (h_offset b + y * h_stride b) in
    let indexOut := u32 (h_offset o + y * h_stride o) in
    for_range indexA (u32 (indexA + h_width a)) (fun i H =>
      let* v := op (hread H (h_block a) i) (hread H (h_block b) (u32 (indexB + (i - indexA)))) in
      hwrite H (h_block o) (u32 (indexOut + (i - indexA))) v) H) H = Ok H' /\
  length H' = length H /\ (forall k, k <> h_block o -> nth_error H' k = nth_error H k) /\
  exists d, nth_error H' (h_block o) = Some (Some d) /\ writes (g_data go) (win go pw_value (fun _ _ => True)) d.
Proof.
  destruct Ga as (Va & Wa & La), Gb as (Vb & Wb & Lb), Go as (Vo & Wo & Lo).
  pose proof (view_inv _ _ _ Va) as (Da & Ea1 & Ea2 & Ea3 & Ea4 & _).
  pose proof (view_inv _ _ _ Vb) as (Db & Eb1 & Eb2 & Eb3 & Eb4 & _).
  pose proof (view_inv _ _ _ Vo) as (Do & Eo1 & Eo2 & Eo3 & Eo4 & _).
  set (Inv := fun (P : Z -> Z -> Prop) (H' : heap Z) => length H' = length H /\
    (forall k, k <> h_block o -> nth_error H' k = nth_error H k) /\
    exists d, nth_error H' (h_block o) = Some (Some d) /\ writes (g_data go) (win go pw_value P) d).
  assert (PX : forall g k (G : good H k g), aligned k o -> forall P H' x y v, Inv P H' -> pixel g x y = Some v ->
     (inside go x y -> ~ P x y) -> hread H' (h_block k) (pos g x y) = Ok v).
  { clear - Vo Wo Do Eo1 Eo2 Eo3 Eo4. intros g k (V & Wg & _) Al P H' x y v (I1 & I2 & d & I3 & I4 & I5) Px NP.
    pose proof (view_inv _ _ _ V) as (Dk & E1 & E2 & E3 & E4 & _).
    pose proof (pixel_Some _ _ _ _ Px) as Hi. rewrite pixel_inside in Px by auto.
    destruct (Nat.eq_dec (h_block k) (h_block o)) as [Eb|Nb].
    - rewrite Eb in *. rewrite (hread_live _ _ _ _ I3). apply bget_Ok.
      assert (Ed : g_data g = g_data go) by congruence. rewrite Ed in *.
      destruct (I5 (pos g x y)) as [(w & (x' & y' & Hi' & Hp & Ep & _) & _)|(_ & ->)]; auto.
      exfalso. destruct Hi as [Hx Hy], Hi' as [Hx' Hy'].
      destruct (Al Eb x y x' y') as [-> ->]; try lia.
      { unfold pos in Ep. rewrite <- E3, <- E4, <- Eo3, <- Eo4. lia. }
      apply NP; [split; lia|exact Hp].
    - unfold hread. rewrite I2 by auto. rewrite Dk. now apply bget_Ok. }
  destruct (Z.eq_dec (h_width a) 0) as [Z0|NZ].
  { exists H. split.
    - destruct (for_range_inv (fun _ H' => H' = H) 0 (h_height a) (fun y H =>
        let indexA := u32 (h_offset a + y * h_stride a) in
        let indexB := u32 (h_offset b + y * h_stride b) in
        let indexOut := u32 (h_offset o + y * h_stride o) in
        for_range indexA (u32 (indexA + h_width a)) (fun i H =>
          let* v := op (hread H (h_block a) i) (hread H (h_block b) (u32 (indexB + (i - indexA)))) in
          hwrite H (h_block o) (u32 (indexOut + (i - indexA))) v) H) H) as (s' & E & ->); auto.
      + unfold wf in Wa. lia.
      + intros y s Hy ->. exists H. split; auto. cbn zeta. rewrite Z0, Z.add_0_r, u32_u32. apply for_range_nil. lia.
    - split; auto. split; auto. exists (g_data go). split; auto. apply writes_none.
      intros j v (x & y & [Hx _] & _). lia. }
  assert (HW : 0 < h_width a) by (unfold wf in Wa; lia).
  match goal with |- exists H', for_range 0 _ ?bd H = _ /\ _ => destruct (for_range_inv
    (fun y => Inv (fun x' y' => y' < y)) 0 (h_height a) bd H) as (H' & E & I1 & I2 & d & I3 & I4) end.
  - unfold wf in Wa. lia.
  - split; auto. split; auto. exists (g_data go). split; auto. apply writes_none. intros j v (x & y & [_ Hy] & Hp & _). lia.
  - intros y s Hy Is. cbn zeta.
    destruct (wf_row ga y Wa ltac:(lia) ltac:(lia)) as (Ra & Ra1 & Ra2).
    destruct (wf_row gb y Wb ltac:(lia) ltac:(lia)) as (Rb & Rb1 & Rb2).
    destruct (wf_row go y Wo ltac:(lia) ltac:(lia)) as (Ro & Ro1 & Ro2).
    rewrite Ea3, Ea4 in *. rewrite Eb3, Eb4 in *. rewrite Eo3, Eo4 in *. rewrite Ra, Rb, Ro.
    assert (Sa : zlen (g_data ga) < 4294967296) by (unfold wf in Wa; lia).
    assert (Sb : zlen (g_data gb) < 4294967296) by (unfold wf in Wb; lia).
    assert (So : zlen (g_data go) < 4294967296) by (unfold wf in Wo; lia).
    rewrite (u32_id (h_offset a + y * h_stride a + h_width a)) by lia.
    set (ia := h_offset a + y * h_stride a) in *.
    match goal with |- exists s', for_range _ _ ?bd s = _ /\ _ => destruct (for_range_inv
      (fun i => Inv (fun x' y' => y' < y \/ (y' = y /\ x' < i - ia))) ia (ia + h_width a) bd s) as (s' & E & Is') end.
    + lia.
    + destruct Is as (I1 & I2 & d & I3 & I4). split; auto. split; auto. exists d. split; auto.
      eapply win_iff; [|exact I4]. intros x' y' [Hx' _]. lia.
    + intros i s0 Hi Is0. set (x := i - ia).
      assert (Ja : inside ga x y) by (split; unfold x; lia).
      assert (Jb : inside gb x y) by (split; unfold x; lia).
      assert (Jo : inside go x y) by (split; unfold x; lia).
      destruct (znth_in_range (g_data ga) (pos ga x y) (wf_pos _ _ _ Wa Ja)) as (va & Xa).
      destruct (znth_in_range (g_data gb) (pos gb x y) (wf_pos _ _ _ Wb Jb)) as (vb & Xb).
      rewrite <- pixel_inside in Xa by auto. rewrite <- pixel_inside in Xb by auto.
      assert (NP : inside go x y -> ~ (y < y \/ (y = y /\ x < i - ia))) by (unfold x; lia).
      pose proof (PX ga a Ga Aa _ _ _ _ _ Is0 Xa NP) as Qa. pose proof (PX gb b Gb Ab _ _ _ _ _ Is0 Xb NP) as Qb.
      replace (pos ga x y) with i in Qa by (unfold pos, x, ia; lia). rewrite Qa.
      rewrite (u32_id (h_offset b + y * h_stride b + x)) by (unfold x; lia).
      replace (pos gb x y) with (h_offset b + y * h_stride b + x) in Qb by (unfold pos; lia). rewrite Qb.
      rewrite Hop. cbn [bind]. rewrite (u32_id (h_offset o + y * h_stride o + x)) by (unfold x; lia).
      destruct Is0 as (I1 & I2 & d & I3 & I4). rewrite (hwrite_live _ _ _ _ _ I3).
      assert (Ld : zlen d = zlen (g_data go)) by (destruct I4; auto).
      replace (h_offset o + y * h_stride o + x) with (pos go x y) by (unfold pos; lia).
      destruct (bset_exists d (pos go x y) (f va vb)) as (d' & Ed & _).
      { rewrite Ld. now apply wf_pos. }
      rewrite Ed. cbn [bind]. eexists. split; [reflexivity|]. split; [now rewrite upd_length|]. split.
      * intros k Hk. rewrite upd_other by auto. auto.
      * exists d'. split.
        { rewrite upd_same; auto. rewrite I1. now apply nth_some_lt in Do. }
        eapply win_iff; [|eapply win_seq; [exact I4|eapply (win_put go pw_value); eauto]].
        -- cbn. intros x' y' _. unfold x. lia.
        -- unfold pw_value. now rewrite Xa, Xb.
    + exists s'. split; auto. destruct Is' as (I1 & I2 & d & I3 & I4). split; auto. split; auto. exists d. split; auto.
      eapply win_iff; [|exact I4]. intros x' y' [Hx' _]. cbn. lia.
  - exists H'. split; auto. split; auto. split; auto. exists d. split; auto. eapply win_iff; [|exact I4].
    intros x' y' [_ Hy']. cbn. split; auto. lia.
Qed.

Lemma pw_holds : exists H' g', h_pixelwise op H a b o = Ok (H', o) /\ good H' o g' /\
  (forall k, k <> h_block o -> nth_error H' k = nth_error H k) /\
  (forall x y, inside go x y -> pixel g' x y = pw_value x y) /\
  (forall j, outside_window go j -> znth (g_data g') j = znth (g_data go) j).
Proof.
  destruct pw_loops as (H' & E & I1 & I2 & d & I3 & I4). unfold h_pixelwise, h_reshape.
  replace ((h_width o =? h_width a) && (h_height o =? h_height a)) with true by lia. cbn [bind]. cbn zeta in E. rewrite E. cbn [bind].
  assert (Ld : zlen d = zlen (g_data go)) by (destruct I4; auto).
  destruct Go as (Vo & Wo & Lo). pose proof (view_inv _ _ _ Vo) as (Do & Eo1 & Eo2 & Eo3 & Eo4 & Eo5).
  assert (EG : mkGray (h_width o) (h_height o) (h_offset o) (h_stride o) (h_sub o) d = with_data go d).
  { unfold with_data. now rewrite Eo1, Eo2, Eo3, Eo4, Eo5. }
  exists H', (with_data go d). split; auto. split.
  { split; [|split].
    - rewrite (view_Some _ _ _ I3). now rewrite EG.
    - now apply wf_with_data.
    - cbn. lia. }
  split; auto. split.
  - intros x y Hi. destruct Ga as (Va & Wa & _), Gb as (Vb & Wb & _).
    pose proof (view_inv _ _ _ Va) as (_ & A1 & A2 & _). pose proof (view_inv _ _ _ Vb) as (_ & B1 & B2 & _).
    apply (win_pixel go pw_value Wo (g_data go) d (fun _ _ => True)); auto.
    unfold pw_value. destruct Hi as [Hx Hy].
    destruct (znth_in_range (g_data ga) (pos ga x y)) as (va & Xa); [apply wf_pos; auto; split; lia|].
    destruct (znth_in_range (g_data gb) (pos gb x y)) as (vb & Xb); [apply wf_pos; auto; split; lia|].
    rewrite !pixel_inside by (split; lia). rewrite Xa, Xb. eauto.
  - intros j Hj. eapply win_frame; eauto.
Qed.
End P.

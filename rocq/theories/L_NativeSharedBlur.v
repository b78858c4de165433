(** Lemmas about blurring from Java when input and output may lie in the same array. *)
From Coq Require Import Reals Lra.
From Verif Require Import BaseFacts M_Image S_Image L_Image M_Convolve S_Convolve M_Normalized S_Normalized M_Blur S_Blur M_Otsu M_Kernel S_Kernel
  M_Heap S_Heap L_Heap M_Shared S_Shared L_Shared L_SharedTop M_Native S_Native L_Native M_NativeBlur S_NativeBlur L_NativeBlur
  M_NativeShared S_NativeShared L_NativeShared L_NativeSharedTop M_NativeSharedBlur S_NativeSharedBlur.
Open Scope Z_scope.

Lemma share_declare J inp out storage : jshare3 J inp out storage ->
  exists J1 st, j_declare J storage (ji_width inp) (ji_height inp) = Ok (J1, st) /\ jv_held J1 = [] /\
  jvalid JByte J1 inp /\ jvalid JByte J1 out /\ jvalid JByte J1 st /\ ji_array st <> ji_array inp /\ ji_array st <> ji_array out /\
  ji_width st = ji_width inp /\ ji_height st = ji_height inp /\
  (forall a, 0 <= a < zlen (jv_arrays J) -> znth (jv_arrays J1) a = znth (jv_arrays J) a) /\
  match storage with
    | Some s => ji_array st = ji_array s \/ zlen (jv_arrays J) <= ji_array st
    | None => zlen (jv_arrays J) <= ji_array st
    end.
Proof.
  intros [A St]. destruct A as [Vi Vo Fr Sh0 Ar].
  assert (Li : 0 <= ji_array inp < zlen (jv_arrays J)) by (destruct Vi as [_ _ _ _ (a & Ea & _)]; apply (znth_Some_range _ _ _ Ea)).
  assert (Lo : 0 <= ji_array out < zlen (jv_arrays J)) by (destruct Vo as [_ _ _ _ (a & Ea & _)]; apply (znth_Some_range _ _ _ Ea)).
  destruct storage as [s|].
  - destruct St as (Vs & N1 & N2 & Sh). assert (A3 : jargs JByte JByte J inp s) by (split; auto).
    destruct (reshape_ok _ _ _ _ _ A3) as (J1 & s1 & Er & A1 & Ew1 & Eh1 & Hs & _ & _ & _). exists J1, s1. unfold j_declare.
    destruct A1 as [Vi1 Vs1 Fr1 Ap1 _ _]. pose proof (reshape_array _ _ _ _ _ _ Er) as Ra.
    split; auto. split; auto. split; auto. split; [eapply jvalid_same; eauto|]. split; auto. split; [lia|]. split; [lia|]. split; auto. split; auto.
    split; auto. destruct Ra as [R|(R & _)]; [auto|right; lia].
  - do 2 eexists. split; [reflexivity|]. cbn [jv_held jv_arrays ji_array ji_width ji_height].
    assert (S : forall k l, 0 <= k < zlen (jv_arrays J) -> znth (jv_arrays J ++ l) k = znth (jv_arrays J) k)
      by (intros k l Hk; apply znth_app_l; lia).
    assert (Vi' := Vi). destruct Vi' as [(I1 & I2 & I3) I4 I5 I6 (b & Eb & Lb & Rb & Wb)].
    split; auto. split; [apply (jvalid_same _ J); cbn; auto|]. split; [apply (jvalid_same _ J); cbn; auto|]. split.
    { split; cbn; auto; try lia. exists (repeat 0 (Z.to_nat (ji_width inp * ji_height inp))).
      rewrite znth_app_r, Z.sub_diag, znth_cons_0 by lia. rewrite zlen_repeat, Z2Nat.id by lia. split; auto. split; [lia|]. split.
      - apply Forall_forall. intros x Hx. apply repeat_spec in Hx as ->. cbn; lia.
      - intros. lia. }
    split; [lia|]. split; [lia|]. split; auto. split; auto. split; auto. lia.
Qed.

Lemma upd_app {A} (l : list A) k a m : (k < length l)%nat -> upd (l ++ m) k a = upd l k a ++ m.
Proof. revert k. induction l as [|x l IH]; intros [|k] H; cbn in *; try lia; auto. f_equal. apply IH. lia. Qed.
Lemma upd_added J b k d : 0 <= k < zlen (jv_arrays J) -> upd (jv_arrays (added J b)) (Z.to_nat k) d = upd (jv_arrays J) (Z.to_nat k) d ++ [b].
Proof. intros H. cbn. apply upd_app. unfold zlen in H. lia. Qed.

(** The arrays after a call: output and perhaps storage replaced. *)
Definition blurred_arrays (pinned : bool) (A : list (list Z)) (out st : jimage) (do_ ds : list Z) : list (list Z) :=
  let A := upd A (Z.to_nat (ji_array out)) (map (of_c JByte) do_) in
  if pinned then upd A (Z.to_nat (ji_array st)) (map (of_c JByte) ds) else A.

Lemma blur_inv pinned f J inp out st a b c J' out' st' :
  jargs3 J inp out (Some st) -> ji_width out = ji_width inp -> ji_height out = ji_height inp ->
  ji_width st = ji_width inp -> ji_height st = ji_height inp ->
  znth (jv_arrays J) (ji_array inp) = Some b -> znth (jv_arrays J) (ji_array out) = Some a -> znth (jv_arrays J) (ji_array st) = Some c ->
  java_blur pinned f J inp out (Some st) = Ok (J', out', st') ->
  exists o' s', f (L_Native.view JByte inp b) (L_Native.view JByte out a) (L_Native.view JByte st c) = Ok (o', s') /\ out' = out /\ st' = st /\
    J' = mkJvm (blurred_arrays pinned (jv_arrays J) out st (g_data o') (g_data s')) [].
Proof.
  intros [[Vi Vo Fr Ap _ _] (Vs & N1 & N2 & _)] Ow Oh Sw Sh Eb Ea Ec. unfold java_blur, j_declare, j_reshape.
  rewrite Ow, Oh, Sw, Sh, !Z.eqb_refl. cbn [andb bind].
  destruct (wrap_get JByte J J inp b Fr eq_refl Vi Eb) as (i0 & W1 & G1).
  destruct (wrap_get JByte J (mkJvm (jv_arrays J) (ji_array inp :: jv_held J)) out a Fr eq_refl Vo Ea) as (o0 & W2 & G2).
  destruct (wrap_get JByte J (mkJvm (jv_arrays J) (ji_array out :: ji_array inp :: jv_held J)) st c Fr eq_refl Vs Ec) as (s0 & W3 & G3).
  unfold native_blur. rewrite W1. cbn [bind]. rewrite W2. cbn [bind]. rewrite W3. cbn [bind]. rewrite G1. cbn [bind]. rewrite G2. cbn [bind jv_held].
  rewrite G3. cbn [bind jv_held]. rewrite Fr. pose proof (znth_Some_range _ _ _ Ea) as Ra. pose proof (znth_Some_range _ _ _ Ec) as Rc.
  destruct (f _ _ _) as [[o' s']| | |] eqn:Ef; cbn [bind uncaught]; try discriminate.
  unfold j_abort, j_commit, j_scratch. cbn [jv_held jv_arrays unhold].
  replace (ji_array inp =? ji_array st) with false by lia. replace (ji_array inp =? ji_array out) with false by lia. rewrite Z.eqb_refl.
  cbn [bind jv_held jv_arrays unhold]. replace (ji_array out =? ji_array st) with false by lia. rewrite Z.eqb_refl. cbn [bind].
  rewrite bset_in by auto. cbn [bind]. unfold blurred_arrays. destruct pinned.
  - unfold j_commit. cbn [jv_held jv_arrays unhold]. rewrite Z.eqb_refl. cbn [bind].
    rewrite bset_in by (unfold zlen; rewrite upd_length; exact Rc). cbn [bind uncaught]. intros [= <- <- <-]. exists o', s'. auto.
  - unfold j_abort. cbn [jv_held jv_arrays unhold]. rewrite Z.eqb_refl. cbn [bind uncaught]. intros [= <- <- <-]. exists o', s'. auto.
Qed.

Definition simulates3 (f : gray Z -> gray Z -> gray Z -> outcome (gray Z * gray Z))
    (fh : heap Z -> himg -> himg -> gray Z -> outcome (heap Z * himg * gray Z)) : Prop :=
  forall H a o g go s, good H a g -> good H o go -> h_width o = h_width a -> h_height o = h_height a ->
  as_copies H o (f g go s) (let* '(H', _, s') := fh H a o s in Ok (H', o, s')).

Lemma s_native_blurs f fh din dout pinned J inp out st a b c o' s' :
  simulates3 f fh -> jshare J inp out -> jvalid JByte J st -> ji_array st <> ji_array inp -> ji_array st <> ji_array out ->
  ji_width out = ji_width inp -> ji_height out = ji_height inp ->
  znth (jv_arrays J) (ji_array inp) = Some b -> znth (jv_arrays J) (ji_array out) = Some a -> znth (jv_arrays J) (ji_array st) = Some c ->
  f (L_Native.view JByte inp b) (L_Native.view JByte out a) (L_Native.view JByte st c) = Ok (o', s') ->
  s_native_blur din dout pinned fh J inp out st = Ok (mkJvm (blurred_arrays pinned (jv_arrays J) out st (g_data o') (g_data s')) []).
Proof.
  intros Sim [Vi Vo Fr _ _] Vs N1 N2 Sw Sh Eb Ea Ec Ef.
  destruct (wrap_get JByte J J inp b Fr eq_refl Vi Eb) as (i0 & W1 & G1).
  destruct (wrap_get JByte J (mkJvm (jv_arrays J) (ji_array inp :: jv_held J)) out a Fr eq_refl Vo Ea) as (o0 & W2 & G2).
  destruct (wrap_get JByte J (mkJvm (jv_arrays J) (ji_array out :: ji_array inp :: jv_held J)) st c Fr eq_refl Vs Ec) as (s0 & W3 & G3).
  unfold s_native_blur. rewrite W1. cbn [bind]. rewrite W2. cbn [bind]. rewrite W3. cbn [bind]. rewrite G1. cbn [bind]. rewrite G2. cbn [bind jv_held].
  rewrite G3. cbn [bind jv_held]. rewrite Fr.
  pose proof (znth_Some_range _ _ _ Ea) as Ra. pose proof (znth_Some_range _ _ _ Eb) as Rb. pose proof (znth_Some_range _ _ _ Ec) as Rc.
  set (one := din && dout && (ji_array inp =? ji_array out)).
  set (H := if one then _ else _). set (hi := s_object (L_Native.view JByte inp b) _). set (ho := s_object (L_Native.view JByte out a) 0).
  assert (One : one = true -> ji_array inp = ji_array out /\ b = a /\ din = true).
  { unfold one. intros X. apply andb_true_iff in X as [X1 X2]. apply andb_true_iff in X1 as [X1 X3]. apply Z.eqb_eq in X2. rewrite X2 in Eb.
    rewrite Eb in Ea. injection Ea as ->. auto. }
  assert (Go : good H ho (L_Native.view JByte out a)).
  { eapply object_good; eauto. unfold H. now destruct one. }
  assert (Gi : good H hi (L_Native.view JByte inp b)).
  { eapply object_good; eauto. unfold H. destruct one; [|reflexivity]. cbn. destruct (One eq_refl) as (_ & -> & _). reflexivity. }
  pose proof (Sim H hi ho _ _ (L_Native.view JByte st c) Gi Go Sw Sh) as X. rewrite Ef in X. cbn [as_copies] in X.
  destruct (fh H hi ho _) as [[[H' o1] s1]| | |] eqn:Eh; cbn [bind] in X; try contradiction. destruct X as (-> & Vh & Keep). cbn [bind].
  assert (Bo : nth_error H' (h_block ho) = Some (Some (g_data o'))).
  { unfold S_Heap.view in Vh. destruct (nth_error H' (h_block ho)) as [[d|]|]; try discriminate. injection Vh as <-. reflexivity. }
  unfold s_block. rewrite Bo.
  assert (Di : exists di, nth_error H' (h_block hi) = Some (Some di) /\
    (one = true /\ di = g_data o' \/ one = false /\ di = map (to_c JByte) b)).
  { destruct one eqn:Eo.
    - exists (g_data o'). split; [exact Bo|auto].
    - exists (map (to_c JByte) b). split; [|auto]. rewrite Keep; [reflexivity|cbn; lia|cbn; lia]. }
  destruct Di as (di & Bi & Di). rewrite Bi. cbn [bind]. assert (Rj : Forall (jrange JByte) b).
  { destruct Vi as [_ _ _ _ (b' & E' & _ & R & _)]. rewrite Eb in E'. injection E' as <-. exact R. }
  assert (El : unhold (ji_array inp) [ji_array st; ji_array out; ji_array inp] = Ok [ji_array st; ji_array out]).
  { cbn. replace (ji_array inp =? ji_array st) with false by lia. rewrite Z.eqb_refl. destruct (Z.eqb_spec (ji_array inp) (ji_array out)) as [->|]; reflexivity. }
  assert (Eab : exists A1, s_abort din (mkJvm (jv_arrays J) [ji_array st; ji_array out; ji_array inp]) inp di = Ok (mkJvm A1 [ji_array st; ji_array out]) /\
    zlen A1 = zlen (jv_arrays J) /\ forall d, upd A1 (Z.to_nat (ji_array out)) d = upd (jv_arrays J) (Z.to_nat (ji_array out)) d).
  { unfold s_abort, j_commit, j_abort. cbn [jv_held jv_arrays]. rewrite El. cbn [bind]. destruct din; [|eauto].
    rewrite bset_in by auto. cbn [bind]. eexists. split; [reflexivity|]. split; [unfold zlen; now rewrite upd_length|]. intros d.
    destruct Di as [(E1 & ->)|(E1 & ->)].
    - destruct (One E1) as (-> & _). apply upd_twice.
    - rewrite (of_to_all JByte) by auto. rewrite (upd_same (jv_arrays J) (ji_array inp) b) by auto. reflexivity. }
  destruct Eab as (A1 & Eab & L1 & U1). cbn [jv_held jv_arrays]. rewrite Eab. cbn [bind]. unfold j_commit. cbn [jv_held jv_arrays unhold].
  replace (ji_array out =? ji_array st) with false by lia. rewrite Z.eqb_refl. cbn [bind]. rewrite bset_in by lia. cbn [bind]. rewrite U1.
  unfold blurred_arrays, j_scratch, j_commit, j_abort. cbn [jv_held jv_arrays unhold]. rewrite Z.eqb_refl. cbn [bind]. destruct pinned; [|reflexivity].
  rewrite bset_in by (unfold zlen; rewrite upd_length; exact Rc). reflexivity.
Qed.

(** The effect of a call on a copy of the input, without the copy. *)
Lemma blurred_moved J b inp out st J' F F' : jshare J inp out -> znth (jv_arrays J) (ji_array inp) = Some b ->
  jvalid JByte J st -> jv_held J' = [] -> zlen (jv_arrays J') = zlen (jv_arrays J) ->
  ji_width out = ji_width inp -> ji_height out = ji_height inp ->
  jblurred (added J b) (moved inp (zlen (jv_arrays J))) out (Some st) (added J' b) out st F ->
  (forall x y, jinside inp x y -> F x y = F' x y) -> jblurred J inp out (Some st) J' out st F'.
Proof.
  intros [A B C D E] Eb Vs Fr' Lz Sw Sh [X1 X2 X3 X4 (X5 & X5' & X5'') X6 X7 X8] EF.
  assert (Ro : 0 <= ji_array out < zlen (jv_arrays J')) by (destruct B as [_ _ _ _ (q & Eq & _)]; apply znth_Some_range in Eq; lia).
  assert (Rs : 0 <= ji_array st < zlen (jv_arrays J')) by (destruct Vs as [_ _ _ _ (q & Eq & _)]; apply znth_Some_range in Eq; lia).
  assert (Back : forall im, 0 <= ji_array im < zlen (jv_arrays J') -> jvalid JByte (added J' b) im -> jvalid JByte J' im).
  { intros im R [V1 V2 V3 V4 (q & Eq & V5)]. split; auto. exists q. rewrite added_znth in Eq by auto. auto. }
  split; auto.
  - intros x y I. rewrite <- EF by auto. rewrite <- (X2 x y I). unfold jpixel. now rewrite added_znth.
  - intros k K1 K2 K3. specialize (X4 k K1 K2). rewrite !added_znth in X4 by lia. apply X4. cbn. rewrite zlen_app. unfold zlen at 2. cbn. lia.
  - intros _ _. split; auto. destruct (X7 Sw Sh) as (_ & a1 & a2 & E1 & E2 & R). rewrite added_znth in E1, E2 by lia. eauto.
Qed.

Lemma shared_blur f fh J inp out storage pinned F :
  simulates3 f fh -> jshare3 J inp out storage ->
  (forall J2 inp2 out2 st2, jargs3 J2 inp2 out2 st2 -> copy_of J inp J2 inp2 ->
     exists J' out' st', java_blur pinned f J2 inp2 out2 st2 = Ok (J', out', st') /\ jblurred J2 inp2 out2 st2 J' out' st' F) ->
  exists J' out' st', (forall din dout, s_java_blur din dout pinned fh J inp out storage = Ok (J', out', st')) /\
    jblurred J inp out storage J' out' st' F.
Proof.
  intros Sim A3 Hf. pose proof (s3_images _ _ _ _ A3) as A.
  destruct (share_reshape J inp out A) as (J1 & out1 & Er & A1 & Ew & Eh & Hs1 & Hz1 & Hp & Same & _).
  pose proof (reshape_array _ _ _ _ _ _ Er) as Ra1.
  assert (A31 : jshare3 J1 inp out1 storage).
  { split; auto. destruct A3 as [_ S]. destruct storage as [s|]; auto. destruct S as (V & N1 & N2 & Sh).
    split; [eapply jvalid_same; eauto|]. split; auto. split; auto. destruct Ra1 as [R1|(R1 & _)]; [lia|].
    destruct V as [_ _ _ _ (a & Ea & _)]. pose proof (znth_Some_range _ _ _ Ea). lia. }
  destruct (share_declare J1 inp out1 storage A31) as (J2 & st & Ed & Fr & Vi & Vo & Vs & N1 & N2 & Sw & Sh & Hs2 & Hst).
  assert (A2 : jshare J2 inp out1) by (destruct A1; split; auto).
  assert (Vi' := Vi). destruct Vi' as [_ _ _ _ (b & Eb & _)]. assert (Vo' := Vo). destruct Vo' as [_ _ _ _ (a & Ea & _)].
  assert (Vs' := Vs). destruct Vs' as [_ _ _ _ (c & Ec & _)].
  pose proof (znth_Some_range _ _ _ Ea) as Ra. pose proof (znth_Some_range _ _ _ Eb) as Rb. pose proof (znth_Some_range _ _ _ Ec) as Rc.
  assert (Li : 0 <= ji_array inp < zlen (jv_arrays J1)) by (destruct A1 as [[_ _ _ _ (q & Eq & _)] _ _ _ _]; apply (znth_Some_range _ _ _ Eq)).
  assert (Lo : 0 <= ji_array out1 < zlen (jv_arrays J1)) by (destruct A1 as [_ [_ _ _ _ (q & Eq & _)] _ _ _]; apply (znth_Some_range _ _ _ Eq)).
  assert (Am : jargs3 (added J2 b) (moved inp (zlen (jv_arrays J2))) out1 (Some st)).
  { split; [now apply moved_args|]. split; [now apply added_valid|]. cbn. split; [lia|]. split; auto. }
  destruct (Hf _ _ _ _ Am) as (J' & out' & st' & E & B).
  { split; [reflexivity|]. split; [reflexivity|].
    assert (P : forall x y, jpixel JByte (added J2 b) (moved inp (zlen (jv_arrays J2))) x y = jpixel JByte J inp x y).
    { intros x y. rewrite moved_pixel by auto. rewrite <- Hp. apply jpixel_same. now apply Hs2. }
    split; auto. intros g (S1 & S2 & S3 & S4). split; auto. split; auto. split; auto. intros x y. now rewrite S4. }
  destruct (blur_inv pinned f _ _ _ _ a b c J' out' st' Am) as (o' & s' & Ef & -> & -> & ->); auto.
  { apply added_last. } { now rewrite added_znth. } { now rewrite added_znth. }
  exists (mkJvm (blurred_arrays pinned (jv_arrays J2) out1 st (g_data o') (g_data s')) []), out1, st. split.
  { intros din dout. unfold s_java_blur. rewrite Er. cbn [bind]. rewrite Ed. cbn [bind].
    rewrite (s_native_blurs f fh din dout pinned J2 inp out1 st a b c o' s'); auto. }
  assert (Ej : mkJvm (blurred_arrays pinned (jv_arrays (added J2 b)) out1 st (g_data o') (g_data s')) [] =
    added (mkJvm (blurred_arrays pinned (jv_arrays J2) out1 st (g_data o') (g_data s')) []) b).
  { unfold added at 2. cbn [jv_held jv_arrays]. f_equal. unfold blurred_arrays. rewrite upd_added by auto. destruct pinned; auto.
    apply upd_app. rewrite upd_length. unfold zlen in Rc. lia. }
  rewrite Ej in B.
  assert (B2 : jblurred J2 inp out1 (Some st) (mkJvm (blurred_arrays pinned (jv_arrays J2) out1 st (g_data o') (g_data s')) []) out1 st F).
  { eapply blurred_moved; eauto. unfold blurred_arrays, zlen. cbn [jv_arrays]. destruct pinned; now rewrite !upd_length. }
  destruct B2 as [E1 E2 E3 E4 E5 E6 E7 E8]. split; auto.
  - intros k K1 K2 K3. rewrite E4; auto.
    + rewrite Hs2 by lia. apply Hs1. auto.
    + destruct (znth_in_range (jv_arrays J1) k) as [q Eq]; [lia|]. rewrite <- Hs2 in Eq by lia. apply znth_Some_range in Eq. lia.
  - destruct storage; lia.
  - intros S1 S2. destruct (Same S1 S2) as [-> ->]. split; auto. destruct (E7 Ew Eh) as (_ & q & q' & Q1' & Q2' & Q3' & Q4').
    exists q, q'. split; [rewrite <- Hs2; auto|]. auto.
  - lia.
Qed.

(** ** Mean and Gaussian *)
Lemma mean_simulates r : simulates3 (blur_mean (int_narith U8) (int_marith U8) 0 1 r) (h_blur_mean (int_narith U8) (int_marith U8) 0 1 r).
Proof.
  intros H a o g go s Ga Go Ew Eh.
  pose proof (blur_mean_shared 0 H a o g go Ga Go (or_introl (conj Ew Eh)) (int_narith U8) (int_marith U8) 1 r s) as X.
  destruct (blur_mean _ _ _ _ r g go s) as [[g' s1]| | |], (h_blur_mean _ _ _ _ r H a o s) as [[[H' o'] s2]| | |] eqn:E; cbn in *; auto.
  unfold h_blur_mean in E. destruct (r <=? 0); [discriminate|]. rewrite reshape_same in E by auto. cbn [bind] in E.
  apply bind_Ok in E as (b1 & _ & E). apply bind_Ok in E as (g0 & _ & E). apply bind_Ok in E as (w' & _ & E).
  apply bind_Ok in E as (g1 & _ & E). apply bind_Ok in E as (o1 & _ & E). injection E as E1 E2 E3. subst o'. tauto.
Qed.
Lemma gaussian_simulates {D} (O : dops D) ex ce sigma (m : outcome Z) :
  simulates3 (fun i o s => let* width := m in gaussian_blur O ex ce U8 sigma width i o s)
    (fun H a o s => let* width := m in h_gaussian O ex ce sigma width H a o s).
Proof.
  intros H a o g go s Ga Go Ew Eh. apply as_copies_orel.
  replace (let* '(H', _, s') := let* width := m in h_gaussian O ex ce sigma width H a o s in Ok (H', o, s')) with
    (let* width := m in let* '(H', _, s') := h_gaussian O ex ce sigma width H a o s in Ok (H', o, s')) by (destruct m; reflexivity).
  apply orel_same. intros width _.
  assert (Ga' := Ga). destruct Ga' as (Va & _). pose proof (view_inv _ _ _ Va) as (_ & D1 & D2 & _).
  assert (Go' := Go). destruct Go' as (Vo & _). pose proof (view_inv _ _ _ Vo) as (_ & O1 & O2 & _).
  unfold gaussian_blur, h_gaussian. rewrite reshape_same by auto. rewrite (same_size 0 g go) by congruence. cbn [bind]. rewrite D1, D2.
  rewrite (h_image_good _ _ _ Ga), (h_image_good _ _ _ Go).
  destruct (gray_reshape 0 s _ _) as [w| | |]; cbn [bind orel]; auto.
  destruct (gaussian1D_int _ _ _ _ _ _) as [K| | |]; cbn [bind orel]; auto.
  destruct (normalized_h _ K g w) as [w'| | |]; cbn [bind orel]; auto.
  destruct (normalized_v _ K w' go) as [o'| | |] eqn:Eo; cbn [bind orel]; auto.
  split; auto. split.
  - unfold normalized_v in Eo. apply bind_Ok in Eo as (? & _ & Eo). apply bind_Ok in Eo as (d & _ & Eo). injection Eo as <-.
    unfold S_Heap.view in *. rewrite upd_nth. cbn [g_data with_data].
    destruct (nth_error H (h_block o)) as [[q|]|] eqn:En; try discriminate. injection Vo as <-.
    rewrite Nat.eqb_refl. apply nth_some_lt in En. apply Nat.ltb_lt in En. now rewrite En.
  - intros k Nk Hk. rewrite upd_nth. destruct (Nat.eqb_spec (h_block o) k); [congruence|auto].
Qed.

Lemma copy_size J inp J2 inp2 : copy_of J inp J2 inp2 -> ji_width inp2 = ji_width inp /\ ji_height inp2 = ji_height inp.
Proof. intros (A & B & _). auto. Qed.

Lemma mean_shared pinned r J inp out storage g : jshare3 J inp out storage -> shows JByte J inp g ->
  0 < ji_width inp <= 1073741824 -> 0 < ji_height inp <= 1073741824 ->
  0 < r -> (2 * r + 1) * 256 <= 2147483647 -> ji_width inp < 2 * r + 1 \/ 2 * r + 1 <= ji_height inp ->
  exists J' out' storage', (forall din dout, s_java_mean din dout pinned r J inp out storage = Ok (J', out', storage')) /\
    jblurred J inp out storage J' out' storage' (fun x y => Some (mean_box g r x y)).
Proof.
  intros A Sg Hw Hh Hr Hs Hc. unfold s_java_mean. eapply shared_blur; [apply mean_simulates|exact A|].
  intros J2 i2 o2 s2 A2 C. destruct (copy_size _ _ _ _ C) as [Cw Ch]. apply (java_mean_ok pinned r J2 i2 o2 s2 g A2); try lia.
  destruct C as (_ & _ & _ & P). destruct Sg as (S1 & S2 & S3 & S4). split; auto. split; [congruence|]. split; [congruence|].
  intros x y. rewrite S4. symmetry. apply P.
Qed.

Lemma gaussian_shared pinned sigma r s w J inp out storage g : jshare3 J inp out storage -> shows JByte J inp g ->
  0 < ji_width inp <= 1073741824 -> 0 < ji_height inp <= 1073741824 ->
  r < 1073741824 -> chosen sigma (if 0 <? r then 2 * r + 1 else -1) s w -> 100 * w * 256 <= 2147483647 ->
  exists J' out' storage', (forall din dout, s_java_gaussian reals exp real_ceil din dout pinned sigma r J inp out storage = Ok (J', out', storage')) /\
    jblurred J inp out storage J' out' storage' (fun x y => Some (two_pass (table w (gauss_int s w)) (w / 2) g x y)).
Proof.
  intros A Sg Hw Hh Hr Hc Hs. unfold s_java_gaussian. eapply shared_blur; [apply gaussian_simulates|exact A|].
  intros J2 i2 o2 s2 A2 C. destruct (copy_size _ _ _ _ C) as [Cw Ch]. apply (java_gaussian_ok pinned sigma r s w J2 i2 o2 s2 g A2); auto; try lia.
  destruct C as (_ & _ & _ & P). destruct Sg as (S1 & S2 & S3 & S4). split; auto. split; [congruence|]. split; [congruence|].
  intros x y. rewrite S4. symmetry. apply P.
Qed.

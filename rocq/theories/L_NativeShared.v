(** Lemmas about calls from Java whose input and output may lie in the same array. *)
From Coq Require Import QArith Floats.SpecFloat.
From Verif Require Import BaseFacts M_Image S_Image L_Image M_Convolve M_Normalized M_Blur M_Otsu M_Config M_Local M_Binary M_Block
  M_Heap S_Heap L_Heap M_Shared S_Shared L_Shared L_SharedTop M_Native S_Native L_Native M_NativeShared S_NativeShared.
Open Scope Z_scope.

Lemma share_args J inp out : jshare J inp out -> ji_array inp <> ji_array out -> jargs JByte JByte J inp out.
Proof. intros [A B C D E] N. split; auto. Qed.

(** The image with its array under another number. *)
Definition moved (im : jimage) (n : Z) : jimage := mkJimage (ji_width im) (ji_height im) (ji_start im) (ji_stride im) (ji_sub im) n.
Definition added (J : jvm) (b : list Z) : jvm := mkJvm (jv_arrays J ++ [b]) (jv_held J).

Lemma added_znth J b k : 0 <= k < zlen (jv_arrays J) -> znth (jv_arrays (added J b)) k = znth (jv_arrays J) k.
Proof. intros H. apply znth_app_l. lia. Qed.
Lemma added_last J b : znth (jv_arrays (added J b)) (zlen (jv_arrays J)) = Some b.
Proof. cbn. rewrite znth_app_r, Z.sub_diag by lia. reflexivity. Qed.
Lemma added_valid J b im : jvalid JByte J im -> jvalid JByte (added J b) im.
Proof.
  intros [A B C D (a & E & R)]. split; auto. exists a. rewrite added_znth; auto. eapply znth_Some_range; eauto.
Qed.
Lemma moved_valid J b im : jvalid JByte J im -> znth (jv_arrays J) (ji_array im) = Some b ->
  jvalid JByte (added J b) (moved im (zlen (jv_arrays J))).
Proof.
  intros [A B C D (a & E & R)] Eb. rewrite E in Eb. injection Eb as <-. split; auto. exists a. split; [apply added_last|auto].
Qed.
Lemma moved_pixel J b im x y : znth (jv_arrays J) (ji_array im) = Some b ->
  jpixel JByte (added J b) (moved im (zlen (jv_arrays J))) x y = jpixel JByte J im x y.
Proof.
  intros E. unfold jpixel. cbn [moved ji_width ji_height ji_array]. rewrite added_last, E. reflexivity.
Qed.
Lemma moved_args J b inp out : jshare J inp out -> znth (jv_arrays J) (ji_array inp) = Some b ->
  jargs JByte JByte (added J b) (moved inp (zlen (jv_arrays J))) out.
Proof.
  intros [A B C D E] Eb. split; cbn; auto.
  - now apply moved_valid.
  - now apply added_valid.
  - destruct B as [_ _ _ _ (a & Ea & _)]. apply znth_Some_range in Ea. lia.
Qed.
Lemma moved_shows J b im g : znth (jv_arrays J) (ji_array im) = Some b ->
  shows JByte (added J b) (moved im (zlen (jv_arrays J))) g -> shows JByte J im g.
Proof.
  intros E (A & B & C & D). split; auto. split; auto. split; auto. intros x y. rewrite D. now apply moved_pixel.
Qed.

(** The effect of a call on a copy of the input, without the copy. *)
Lemma effect_moved J b inp out d F F' : jshare J inp out -> znth (jv_arrays J) (ji_array inp) = Some b ->
  ji_width out = ji_width inp -> ji_height out = ji_height inp ->
  jeffect JByte (added J b) (moved inp (zlen (jv_arrays J))) out
    (mkJvm (upd (jv_arrays (added J b)) (Z.to_nat (ji_array out)) d) []) out F ->
  (forall x y, jinside inp x y -> F x y = F' x y) ->
  jeffect JByte J inp out (mkJvm (upd (jv_arrays J) (Z.to_nat (ji_array out)) d) []) out F'.
Proof.
  intros [A B C D E] Eb Sw Sh [X1 X2 X3 X4 X5 X6 X7] EF.
  destruct B as [B1 B2 B3 B4 (a & Ea & B5)]. pose proof (znth_Some_range _ _ _ Ea) as Ra.
  assert (Ra' : 0 <= ji_array out < zlen (jv_arrays (added J b))).
  { cbn. rewrite zlen_app. unfold zlen at 2. cbn. lia. }
  assert (Same : znth (upd (jv_arrays (added J b)) (Z.to_nat (ji_array out)) d) (ji_array out) =
                 znth (upd (jv_arrays J) (Z.to_nat (ji_array out)) d) (ji_array out)).
  { rewrite !L_Native.znth_upd, !Z.eqb_refl by auto. reflexivity. }
  split; auto.
  - intros x y I. rewrite <- EF by auto. rewrite <- (X2 x y I). unfold jpixel. cbn [jv_arrays]. now rewrite Same.
  - intros k Nk Hk. cbn [jv_arrays]. rewrite L_Native.znth_upd by auto. now replace (k =? ji_array out) with false by lia.
  - destruct X5 as [V1 V2 V3 V4 (a' & Ea' & V5)]. split; auto. exists a'. cbn [jv_arrays] in *. now rewrite <- Same.
  - intros _ _. split; auto. destruct (X6 Sw Sh) as (_ & a1 & a2 & E1 & E2 & R). exists a1, a2. rewrite added_znth in E1 by auto.
    cbn [jv_arrays] in *. rewrite <- Same. auto.
Qed.

(** What a successful call on separate arrays did. *)
Lemma filter_inv {S} (f : S -> gray Z -> gray Z -> outcome (S * gray Z)) after s J inp out b a s' J' out' :
  jargs JByte JByte J inp out -> ji_width out = ji_width inp -> ji_height out = ji_height inp ->
  znth (jv_arrays J) (ji_array inp) = Some b -> znth (jv_arrays J) (ji_array out) = Some a ->
  java_filter f after s J inp out = Ok (s', J', out') -> jv_held J' = [] ->
  exists o', f s (L_Native.view JByte inp b) (L_Native.view JByte out a) = Ok (s', o') /\ out' = out /\
    J' = mkJvm (upd (jv_arrays J) (Z.to_nat (ji_array out)) (map (of_c JByte) (g_data o'))) [].
Proof.
  intros [Vi Vo Fr Ap _ _] Sw Sh Eb Ea. unfold java_filter, j_reshape. rewrite Sw, Sh, !Z.eqb_refl. cbn [andb bind].
  destruct (wrap_get JByte J (mkJvm (jv_arrays J) (ji_array inp :: jv_held J)) out a Fr eq_refl Vo Ea) as (o0 & W1 & G1).
  destruct (wrap_get JByte J J inp b Fr eq_refl Vi Eb) as (i0 & W2 & G2).
  unfold native_filter. rewrite W1. cbn [bind]. rewrite W2. cbn [bind]. rewrite G2. cbn [bind]. rewrite G1. cbn [bind]. rewrite Fr.
  pose proof (znth_Some_range _ _ _ Ea) as Ra.
  destruct (f s _ _) as [[s1 o']| | |] eqn:Ef; try discriminate.
  - unfold j_abort, j_commit. cbn [jv_held jv_arrays unhold]. replace (ji_array inp =? ji_array out) with false by lia.
    rewrite !Z.eqb_refl. cbn [bind jv_held jv_arrays unhold]. rewrite !Z.eqb_refl. cbn [bind]. rewrite bset_in by auto. cbn [bind].
    intros [= <- <- <-] _. exists o'. auto.
  - unfold j_commit. cbn [jv_held jv_arrays unhold]. rewrite !Z.eqb_refl. cbn [bind]. rewrite bset_in by auto. cbn [bind].
    intros [= <- <- <-]. cbn. discriminate.
Qed.

(** ** The call on shared arrays *)

(** [fh] on shared memory does what [f] does on copies. *)
Definition simulates {S} (P : himg -> himg -> Prop) (f : S -> gray Z -> gray Z -> outcome (S * gray Z))
    (fh : S -> heap Z -> himg -> himg -> outcome (S * heap Z)) : Prop :=
  forall s H a o g go, good H a g -> good H o go -> h_width o = h_width a -> h_height o = h_height a -> P a o ->
  as_copies H o (let* '(s', g') := f s g go in Ok (g', s')) (let* '(s', H') := fh s H a o in Ok (H', o, s')).

Lemma object_good H b t J im a : jvalid t J im -> znth (jv_arrays J) (ji_array im) = Some a ->
  nth_error H b = Some (Some (map (to_c t) a)) -> good H (s_object (L_Native.view t im a) b) (L_Native.view t im a).
Proof.
  intros V Ea E. split; [|split; [eapply view_wf; eauto|reflexivity]].
  unfold S_Heap.view, s_object. cbn [h_block h_width h_height h_offset h_stride h_sub]. rewrite E. reflexivity.
Qed.

Lemma of_to_all t a : Forall (jrange t) a -> map (of_c t) (map (to_c t) a) = a.
Proof. induction 1; cbn; f_equal; auto. now apply of_c_to_c. Qed.
Lemma upd_same {A} (l : list A) k a : znth l k = Some a -> upd l (Z.to_nat k) a = l.
Proof.
  intros E. apply upd_id. unfold znth in E. destruct (k <? 0); [discriminate|]. exact E.
Qed.

Lemma s_native {S} (P : himg -> himg -> Prop) f (fh : S -> heap Z -> himg -> himg -> outcome (S * heap Z)) din dout after s J inp out b a s' o' :
  simulates P f fh -> jshare J inp out -> ji_width out = ji_width inp -> ji_height out = ji_height inp ->
  znth (jv_arrays J) (ji_array inp) = Some b -> znth (jv_arrays J) (ji_array out) = Some a ->
  (forall bi bo, (bi = bo -> ji_array inp = ji_array out) ->
     P (s_object (L_Native.view JByte inp b) bi) (s_object (L_Native.view JByte out a) bo)) ->
  f s (L_Native.view JByte inp b) (L_Native.view JByte out a) = Ok (s', o') ->
  s_native_filter din dout fh after s J inp out =
    Ok (s', mkJvm (upd (jv_arrays J) (Z.to_nat (ji_array out)) (map (of_c JByte) (g_data o'))) []).
Proof.
  intros Sim [Vi Vo Fr _ _] Sw Sh Eb Ea HP Ef.
  destruct (wrap_get JByte J (mkJvm (jv_arrays J) (ji_array inp :: jv_held J)) out a Fr eq_refl Vo Ea) as (o0 & W1 & G1).
  destruct (wrap_get JByte J J inp b Fr eq_refl Vi Eb) as (i0 & W2 & G2).
  unfold s_native_filter. rewrite W1. cbn [bind]. rewrite W2. cbn [bind]. rewrite G2. cbn [bind]. rewrite G1. cbn [bind]. rewrite Fr.
  pose proof (znth_Some_range _ _ _ Ea) as Ra. pose proof (znth_Some_range _ _ _ Eb) as Rb.
  set (one := din && dout && (ji_array inp =? ji_array out)).
  set (H := if one then _ else _). set (hi := s_object (L_Native.view JByte inp b) _). set (ho := s_object (L_Native.view JByte out a) 0).
  assert (One : one = true -> ji_array inp = ji_array out /\ b = a /\ din = true).
  { unfold one. intros X. apply andb_true_iff in X as [X1 X2]. apply andb_true_iff in X1 as [X1 X3]. apply Z.eqb_eq in X2. rewrite X2 in Eb.
    rewrite Eb in Ea. injection Ea as ->. auto. }
  assert (Go : good H ho (L_Native.view JByte out a)).
  { eapply object_good; eauto. unfold H. now destruct one. }
  assert (Gi : good H hi (L_Native.view JByte inp b)).
  { eapply object_good; eauto. unfold H. destruct one; [|reflexivity]. cbn. destruct (One eq_refl) as (_ & -> & _). reflexivity. }
  assert (Pio : P hi ho).
  { apply HP. destruct one; [intros _; now apply One|discriminate]. }
  pose proof (Sim s H hi ho _ _ Gi Go Sw Sh Pio) as X. rewrite Ef in X. cbn [bind as_copies] in X.
  destruct (fh s H hi ho) as [[s1 H']| | |] eqn:Eh; cbn [bind] in X; try contradiction. destruct X as (-> & Vh & Keep).
  assert (Bo : nth_error H' (h_block ho) = Some (Some (g_data o'))).
  { unfold S_Heap.view in Vh. destruct (nth_error H' (h_block ho)) as [[d|]|]; try discriminate. injection Vh as <-. reflexivity. }
  unfold s_block. rewrite Bo.
  destruct (one) eqn:Eo.
  - destruct (One eq_refl) as (Ei & -> & ->). change (h_block hi) with (h_block ho). rewrite Bo. cbn [bind].
    unfold s_abort, j_commit. cbn [jv_held jv_arrays unhold]. rewrite Ei, !Z.eqb_refl. cbn [bind jv_held jv_arrays unhold].
    rewrite bset_in by auto. cbn [bind jv_held jv_arrays unhold]. rewrite Z.eqb_refl. cbn [bind].
    rewrite bset_in by (unfold zlen; rewrite upd_length; exact Ra). cbn [bind]. now rewrite upd_twice.
  - assert (Bi : nth_error H' (h_block hi) = Some (Some (map (to_c JByte) b))).
    { rewrite Keep; [reflexivity|cbn; lia|cbn; lia]. }
    rewrite Bi. cbn [bind]. assert (Rj : Forall (jrange JByte) b).
    { destruct Vi as [_ _ _ _ (b' & E' & _ & R & _)]. rewrite Eb in E'. injection E' as <-. exact R. }
    assert (Ab : exists l, unhold (ji_array inp) [ji_array out; ji_array inp] = Ok l /\ l = [ji_array out]).
    { cbn. rewrite Z.eqb_refl. destruct (Z.eqb_spec (ji_array inp) (ji_array out)) as [->|]; cbn; eauto. }
    destruct Ab as (l & El & ->).
    assert (Eab : s_abort din (mkJvm (jv_arrays J) [ji_array out; ji_array inp]) inp (map (to_c JByte) b) = Ok (mkJvm (jv_arrays J) [ji_array out])).
    { unfold s_abort, j_commit, j_abort. cbn [jv_held jv_arrays]. rewrite El. cbn [bind]. destruct din; [|reflexivity].
      rewrite bset_in by auto. cbn [bind]. rewrite (of_to_all JByte) by auto. now rewrite upd_same by auto. }
    cbn [jv_held jv_arrays]. rewrite Eab. cbn [bind]. unfold j_commit. cbn [jv_held jv_arrays unhold]. rewrite Z.eqb_refl. cbn [bind]. rewrite bset_in by auto. reflexivity.
Qed.

Lemma share_reshape J inp out : jshare J inp out -> exists J1 out1,
  j_reshape J out (ji_width inp) (ji_height inp) = Ok (J1, out1) /\ jshare J1 inp out1 /\
  ji_width out1 = ji_width inp /\ ji_height out1 = ji_height inp /\
  (forall a, 0 <= a < zlen (jv_arrays J) -> znth (jv_arrays J1) a = znth (jv_arrays J) a) /\
  zlen (jv_arrays J) <= zlen (jv_arrays J1) /\
  (forall x y, jpixel JByte J1 inp x y = jpixel JByte J inp x y) /\
  (ji_width out = ji_width inp -> ji_height out = ji_height inp -> J1 = J /\ out1 = out) /\
  (ji_array inp = ji_array out1 -> ji_array inp = ji_array out /\ forall x y, jpos out1 x y = jplace inp out x y).
Proof.
  intros [Vi Vo F S R]. unfold j_reshape, jplace. destruct (_ && _) eqn:E.
  { exists J, out. apply andb_true_iff in E as [E1 E2]. apply Z.eqb_eq in E1, E2. split; auto. split; [split; auto|]. repeat split; auto; lia. }
  assert (E' : ~ (ji_width out = ji_width inp /\ ji_height out = ji_height inp)).
  { intros [X1 X2]. rewrite X1, X2, !Z.eqb_refl in E. discriminate. }
  destruct S as [S|S]; [|tauto]. rewrite S. destruct Vo as [(O1 & O2 & O3) O4 O5 O6 (a & Ea & La & Ra & Wa)].
  destruct (O6 S) as [Z0 _]. pose proof Ea as Ea'. apply bget_Ok in Ea'. rewrite Ea'. cbn [bind].
  assert (Vi' := Vi). destruct Vi' as [(I1 & I2 & I3) I4 I5 I6 (b & Eb & Lb & Rb & Wb)].
  pose proof (znth_Some_range _ _ _ Eb). pose proof (znth_Some_range _ _ _ Ea).
  destruct (Z.ltb_spec (zlen a) (ji_width inp * ji_height inp)) as [Lt|Ge].
  - do 2 eexists. split; [reflexivity|]. cbn.
    assert (Sa : forall k, 0 <= k < zlen (jv_arrays J) ->
      znth (jv_arrays J ++ [repeat 0 (Z.to_nat (ji_width inp * ji_height inp))]) k = znth (jv_arrays J) k)
      by (intros k Hk; apply znth_app_l; lia).
    split; [split; cbn; auto|split; auto; split; auto; split; [exact Sa|]].
    + split; cbn; auto. exists b. rewrite Sa by lia. auto.
    + split; cbn; auto; try lia. exists (repeat 0 (Z.to_nat (ji_width inp * ji_height inp))).
      rewrite znth_app_r, Z.sub_diag, znth_cons_0 by lia. rewrite zlen_repeat, Z2Nat.id by lia. split; auto. split; [lia|]. split.
      * apply Forall_forall. intros x Hx. apply repeat_spec in Hx as ->. cbn; lia.
      * intros. rewrite Z0. lia.
    + rewrite zlen_app. split; [unfold zlen at 3; cbn; lia|]. split.
      * intros x y. unfold jpixel. cbn. rewrite Sa by lia. reflexivity.
      * split; intros; [tauto|lia].
  - do 2 eexists. split; [reflexivity|]. cbn. split; [split; cbn; auto|repeat split; auto; try lia; tauto].
    split; cbn; auto; try lia. exists a. split; auto. split; auto. split; auto. intros. rewrite Z0. lia.
Qed.

Lemma share_effect J inp out J1 out1 J' F : jshare J inp out ->
  j_reshape J out (ji_width inp) (ji_height inp) = Ok (J1, out1) -> jeffect JByte J1 inp out1 J' out1 F -> jeffect JByte J inp out J' out1 F.
Proof.
  intros A E [E1 E2 E3 E4 E5 E6 _]. pose proof (reshape_array _ _ _ _ _ _ E) as Ra.
  destruct (share_reshape J inp out A) as (J1' & out1' & X & A1 & Ew & Eh & Hs & Hz & _ & Same & _).
  rewrite E in X. injection X as <- <-. split; auto.
  - intros a N Ha. rewrite E4 by (auto; lia). apply Hs. lia.
  - intros Sw Sh. destruct (Same Sw Sh) as [-> ->]. split; auto. now apply E6.
  - lia.
Qed.
Lemma effect_ext t J inp out J' out' F F' : jeffect t J inp out J' out' F -> (forall x y, jinside inp x y -> F x y = F' x y) ->
  jeffect t J inp out J' out' F'.
Proof. intros [E1 E2 E3 E4 E5 E6 E7] H. split; auto. intros x y I. rewrite <- H by auto. auto. Qed.

(** [copy_of J inp J2 inp2]: another image with the same pixels. *)
Definition copy_of (J : jvm) (inp : jimage) (J2 : jvm) (inp2 : jimage) : Prop :=
  ji_width inp2 = ji_width inp /\ ji_height inp2 = ji_height inp /\ (forall g, shows JByte J2 inp2 g -> shows JByte J inp g) /\
  forall x y, jpixel JByte J2 inp2 x y = jpixel JByte J inp x y.

Lemma shared_call {S} (P : himg -> himg -> Prop) f (fh : S -> heap Z -> himg -> himg -> outcome (S * heap Z)) after s J inp out
    (R : S -> (Z -> Z -> option Z) -> Prop) :
  simulates P f fh -> jshare J inp out ->
  (forall a o, h_width o = h_width a -> h_height o = h_height a -> h_width a = ji_width inp -> h_height a = ji_height inp ->
     h_offset a = ji_start inp -> h_stride a = ji_stride inp ->
     (h_block a = h_block o -> ji_array inp = ji_array out /\ forall x y, h_offset o + y * h_stride o + x = jplace inp out x y) -> P a o) ->
  (forall J2 inp2 out2, jargs JByte JByte J2 inp2 out2 -> copy_of J inp J2 inp2 ->
     exists s' J' out' F, java_filter f after s J2 inp2 out2 = Ok (s', J', out') /\ R s' F /\ jeffect JByte J2 inp2 out2 J' out' F) ->
  exists s' J' out' F, (forall din dout, s_java_filter din dout fh after s J inp out = Ok (s', J', out')) /\ R s' F /\ jeffect JByte J inp out J' out' F.
Proof.
  intros Sim A HP Hf. destruct (share_reshape J inp out A) as (J1 & out1 & Er & A1 & Ew & Eh & _ & _ & Hpx & _ & Hpl).
  assert (A1' := A1). destruct A1' as [Vi Vo Fr _ _]. assert (Vi' := Vi). destruct Vi' as [_ _ _ _ (b & Eb & _)].
  assert (Vo' := Vo). destruct Vo' as [_ _ _ _ (a & Ea & _)]. pose proof (znth_Some_range _ _ _ Ea) as Ra.
  pose proof (moved_args J1 b inp out1 A1 Eb) as A2.
  destruct (Hf _ _ _ A2) as (s' & J' & out' & F & E & HR & Ee).
  { split; [reflexivity|]. split; [reflexivity|]. split.
    - intros g Sg. apply moved_shows in Sg; auto. destruct Sg as (G1 & G2 & G3 & G4). split; auto. split; auto. split; auto.
      intros x y. now rewrite G4.
    - intros x y. now rewrite moved_pixel. }
  destruct (filter_inv f after s _ _ _ b a s' J' out' A2) as (o' & Ef & -> & ->); auto.
  { apply added_last. } { now rewrite added_znth. } { apply Ee. }
  exists s', (mkJvm (upd (jv_arrays J1) (Z.to_nat (ji_array out1)) (map (of_c JByte) (g_data o'))) []), out1, F.
  split; [|split; auto].
  - intros din dout. unfold s_java_filter. rewrite Er. cbn [bind]. assert (HP' : forall bi bo, (bi = bo -> ji_array inp = ji_array out1) ->
      P (s_object (L_Native.view JByte inp b) bi) (s_object (L_Native.view JByte out1 a) bo)).
    2:{ rewrite (s_native P f fh din dout after s J1 inp out1 b a s' o'); auto. }
    intros bi bo Hb. apply HP; [exact Ew|exact Eh|reflexivity|reflexivity|reflexivity|reflexivity|].
    cbn [h_block s_object L_Native.view h_offset h_stride g_offset g_stride]. intros X. destruct (Hpl (Hb X)) as [Y1 Y2]. split; auto.
  - eapply share_effect; eauto. eapply effect_moved; eauto.
Qed.

(** ** Conditions *)
Lemma behind_take inp out a o : jbehind inp out -> h_width o = h_width a -> h_height o = h_height a -> h_width a = ji_width inp -> h_height a = ji_height inp ->
  h_offset a = ji_start inp -> h_stride a = ji_stride inp ->
  (h_block a = h_block o -> ji_array inp = ji_array out /\ forall x y, h_offset o + y * h_stride o + x = jplace inp out x y) -> may_take a o.
Proof.
  intros B Ow Oh Aw Ah Ao As Hb. split; [auto|]. intros X. destruct (Hb X) as [Y1 Y2]. unfold target. rewrite Ow, Oh, !Z.eqb_refl. cbn [andb].
  intros x y x' y' I1 I2 I3 I4 E. apply (B Y1 x y x' y'); [split; lia|split; lia|]. rewrite <- Y2. unfold jpos. lia.
Qed.
Lemma aligned_aligned inp out a o : jaligned inp out -> h_width o = h_width a -> h_height o = h_height a -> h_width a = ji_width inp -> h_height a = ji_height inp ->
  h_offset a = ji_start inp -> h_stride a = ji_stride inp ->
  (h_block a = h_block o -> ji_array inp = ji_array out /\ forall x y, h_offset o + y * h_stride o + x = jplace inp out x y) -> aligned a o.
Proof.
  intros B Ow Oh Aw Ah Ao As Hb X x y x' y' I1 I2 I3 I4 E. destruct (Hb X) as [Y1 Y2]. apply (B Y1 x y x' y'); [split; lia|split; lia|].
  rewrite <- Y2. unfold jpos. lia.
Qed.

(** Lemmas about calls from Java. *)
From Coq Require Import QArith Floats.SpecFloat.
From Verif Require Import BaseFacts M_Image S_Image L_Image M_Border S_Border M_Convolve S_Convolve M_Binary M_Native S_Native L_Binary.
Open Scope Z_scope.

Lemma u8_unfold z : u8 z = z mod 256. Proof. reflexivity. Qed.
Lemma to_c_value t v : jrange t v -> to_c t v = jvalue t v.
Proof.
  destruct t; cbn; intros H; [|now apply (cast_id S16)|now apply (cast_id S32)].
  rewrite u8_unfold. destruct (Z.ltb_spec v 0).
  - symmetry. apply (Z.mod_unique _ _ (-1)); lia.
  - apply Z.mod_small. lia.
Qed.
Lemma of_c_to_c t v : jrange t v -> of_c t (to_c t v) = v.
Proof.
  intros H. rewrite to_c_value by auto. destruct t; cbn in *; [|now apply (cast_id S16)|now apply (cast_id S32)].
  destruct (Z.ltb_spec v 0); rewrite u8_id by lia; destruct (Z.ltb_spec (v + 256) 128), (Z.ltb_spec v 128); lia.
Qed.
Lemma of_c_range t v : jrange t (of_c t v).
Proof.
  destruct t; cbn; [|apply (cast_range S16)|apply (cast_range S32)].
  pose proof (u8_range v). destruct (Z.ltb_spec (u8 v) 128); lia.
Qed.
Lemma value_of_c t v : jvalue_range t v -> jvalue t (of_c t v) = v.
Proof.
  destruct t; cbn; intros H; [|now apply (cast_id S16)|now apply (cast_id S32)].
  rewrite u8_id by lia. destruct (Z.ltb_spec v 128); [destruct (Z.ltb_spec v 0)|destruct (Z.ltb_spec (v - 256) 0)]; lia.
Qed.

Lemma zlen_map {A B} (f : A -> B) l : zlen (map f l) = zlen l.
Proof. unfold zlen. now rewrite map_length. Qed.
Lemma znth_upd {A} (l : list A) i j a : 0 <= i < zlen l -> znth (upd l (Z.to_nat i) a) j = if j =? i then Some a else znth l j.
Proof. intros H. destruct (bset_exists l i a H) as (l' & E & _ & N). rewrite bset_in in E by auto. injection E as <-. apply N. Qed.

(** The C++ image that shows a Java image. *)
Definition view (t : jelem) (im : jimage) (a : list Z) : gray Z :=
  mkGray (ji_width im) (ji_height im) (ji_start im) (ji_stride im) true (map (to_c t) a).

Lemma view_wf t J im a : jvalid t J im -> znth (jv_arrays J) (ji_array im) = Some a -> wf (view t im a).
Proof.
  intros [(H1 & H2 & H3) H4 H5 H6 (a' & E & L & _ & W)] Ea. rewrite Ea in E. injection E as <-.
  unfold wf, view; cbn. rewrite zlen_map. pose proof (zlen_nonneg a). repeat split; try lia; try discriminate.
Qed.
Lemma view_pixel t J im a x y : jvalid t J im -> znth (jv_arrays J) (ji_array im) = Some a ->
  pixel (view t im a) x y = jpixel t J im x y.
Proof.
  intros V Ea. unfold pixel, jpixel, view; cbn. destruct (_ && _); auto. rewrite Ea. unfold pos, jpos; cbn. rewrite znth_map.
  destruct (znth a _) as [v|] eqn:E; cbn; auto. destruct V as [_ _ _ _ (a' & E' & _ & R & _)]. rewrite Ea in E'. injection E' as <-.
  f_equal. apply to_c_value. rewrite Forall_forall in R. apply R. eapply znth_In; eauto.
Qed.
Lemma view_shows t J im a : jvalid t J im -> znth (jv_arrays J) (ji_array im) = Some a -> shows t J im (view t im a).
Proof.
  intros V Ea. split; [eapply view_wf; eauto|]. split; [reflexivity|]. split; [reflexivity|]. intros x y. now apply view_pixel.
Qed.

Lemma wrap_get t J J' im a : jv_held J = [] -> jv_arrays J' = jv_arrays J -> jvalid t J im -> znth (jv_arrays J) (ji_array im) = Some a ->
  exists g0, j_wrap J im = Ok g0 /\ j_get t J' im g0 = Ok (mkJvm (jv_arrays J) (ji_array im :: jv_held J'), view t im a).
Proof.
  intros F EJ [(H1 & H2 & H3) H4 H5 H6 _] Ea. unfold j_wrap, jni, j_get. rewrite F, EJ. apply bget_Ok in Ea. rewrite Ea. cbn [bind].
  eexists. split; [reflexivity|]. cbn [bind]. unfold with_data, gray_wrap, view; cbn. rewrite !u32_id by lia. reflexivity.
Qed.

(** ** Reshape *)
Lemma reshape_ok tin t J inp out : jargs tin t J inp out -> exists J1 out1,
  j_reshape J out (ji_width inp) (ji_height inp) = Ok (J1, out1) /\ jargs tin t J1 inp out1 /\
  ji_width out1 = ji_width inp /\ ji_height out1 = ji_height inp /\
  (forall a, 0 <= a < zlen (jv_arrays J) -> znth (jv_arrays J1) a = znth (jv_arrays J) a) /\
  zlen (jv_arrays J) <= zlen (jv_arrays J1) /\
  (forall x y, jpixel tin J1 inp x y = jpixel tin J inp x y) /\
  (ji_width out = ji_width inp -> ji_height out = ji_height inp -> J1 = J /\ out1 = out).
Proof.
  intros [Vi Vo F A S R]. unfold j_reshape. destruct (_ && _) eqn:E.
  { exists J, out. apply andb_true_iff in E as [E1 E2]. apply Z.eqb_eq in E1, E2. split; auto. split; [split; auto|]. repeat split; auto; lia. }
  assert (E' : ~ (ji_width out = ji_width inp /\ ji_height out = ji_height inp)).
  { intros [X1 X2]. rewrite X1, X2, !Z.eqb_refl in E. discriminate. }
  destruct S as [S|S]; [|tauto]. rewrite S. destruct Vo as [(O1 & O2 & O3) O4 O5 O6 (a & Ea & La & Ra & Wa)].
  destruct (O6 S) as [Z0 _]. pose proof Ea as Ea'. apply bget_Ok in Ea'. rewrite Ea'. cbn [bind].
  assert (Vi' := Vi). destruct Vi' as [(I1 & I2 & I3) I4 I5 I6 (b & Eb & Lb & Rb & Wb)].
  pose proof (znth_Some_range _ _ _ Eb). pose proof (znth_Some_range _ _ _ Ea).
  destruct (Z.ltb_spec (zlen a) (ji_width inp * ji_height inp)) as [Lt|Ge].
  - do 2 eexists. split; [reflexivity|]. cbn.
    assert (Sa : forall k, 0 <= k < zlen (jv_arrays J) ->
      znth (jv_arrays J ++ [repeat 0 (Z.to_nat (ji_width inp * ji_height inp))]) k = znth (jv_arrays J) k)
      by (intros k Hk; apply znth_app_l; lia).
    split; [split; cbn; auto|split; auto; split; auto; split; [exact Sa|]].
    + split; cbn; auto. exists b. rewrite Sa by lia. auto.
    + split; cbn; auto; try lia. exists (repeat 0 (Z.to_nat (ji_width inp * ji_height inp))).
      rewrite znth_app_r, Z.sub_diag, znth_cons_0 by lia. rewrite zlen_repeat, Z2Nat.id by lia. split; auto. split; [lia|]. split.
      * apply Forall_forall. intros x Hx. apply repeat_spec in Hx as ->. destruct t; cbn; lia.
      * intros. rewrite Z0. lia.
    + lia.
    + rewrite zlen_app. split; [unfold zlen at 3; cbn; lia|]. split.
      * intros x y. unfold jpixel. cbn. rewrite Sa by lia. reflexivity.
      * intros. tauto.
  - do 2 eexists. split; [reflexivity|]. cbn. split; [split; cbn; auto|repeat split; auto; try lia; tauto].
    split; cbn; auto; try lia. exists a. split; auto. split; auto. split; auto. intros. rewrite Z0. lia.
Qed.

Lemma reshape_array J im w h J1 im1 : j_reshape J im w h = Ok (J1, im1) ->
  ji_array im1 = ji_array im \/ ji_array im1 = zlen (jv_arrays J) /\ zlen (jv_arrays J1) = zlen (jv_arrays J) + 1.
Proof.
  unfold j_reshape. destruct (_ && _); [intros [= <- <-]; auto|]. destruct (ji_sub im); [discriminate|]. intros H. apply bind_Ok in H as (a & _ & H).
  destruct (_ <? _); injection H as <- <-; cbn; auto. right. split; auto. rewrite zlen_app. reflexivity.
Qed.

(** ** Giving an array back *)
Lemma commit_effect t J J2 J' inp out a (o' : gray Z) F l :
  jvalid t J out -> znth (jv_arrays J) (ji_array out) = Some a -> ji_width out = ji_width inp -> ji_height out = ji_height inp ->
  jv_arrays J2 = jv_arrays J ->
  unhold (ji_array out) (jv_held J2) = Ok l ->
  same_layout (view t out a) o' -> (forall x y, jinside inp x y -> pixel o' x y = F x y) ->
  (forall x y v, jinside inp x y -> F x y = Some v -> jvalue_range t v) ->
  (forall j, outside_window (view t out a) j -> znth (g_data o') j = znth (g_data (view t out a)) j) ->
  J' = mkJvm (upd (jv_arrays J) (Z.to_nat (ji_array out)) (map (of_c t) (g_data o'))) [] ->
  j_commit t J2 out (g_data o') = Ok (mkJvm (jv_arrays J') l) /\ jeffect t J inp out J' out F.
Proof.
  intros V Ea Ew Eh EJ Eu (L1 & L2 & L3 & L4 & L5 & L6) P R W ->. pose proof (znth_Some_range _ _ _ Ea) as Ra.
  unfold j_commit. rewrite Eu, EJ. cbn [bind]. rewrite bset_in by auto. cbn [bind jv_arrays]. split; auto.
  assert (Lo : zlen (g_data o') = zlen a) by (rewrite L6; cbn; apply zlen_map).
  cbn in L1, L2, L3, L4.
  assert (V' := V). destruct V' as [(H1 & H2 & H3) H4 H5 H6 (a' & E' & La & Fa & Wa)]. rewrite Ea in E'. injection E' as <-.
  assert (Px : forall x y, jinside inp x y -> jpixel t (mkJvm (upd (jv_arrays J) (Z.to_nat (ji_array out)) (map (of_c t) (g_data o'))) []) out x y = F x y).
  { intros x y I. pose proof (P x y I) as Pxy. destruct I as [I1 I2]. unfold jpixel. cbn.
    replace ((0 <=? x) && (x <? ji_width out) && (0 <=? y) && (y <? ji_height out)) with true by lia.
    rewrite znth_upd, Z.eqb_refl by auto. rewrite znth_map. unfold pixel, pos in Pxy. rewrite L1, L2, L3, L4 in Pxy.
    replace ((0 <=? x) && (x <? ji_width out) && (0 <=? y) && (y <? ji_height out)) with true in Pxy by lia. fold (jpos out x y) in Pxy.
    rewrite Pxy. destruct (F x y) as [v|] eqn:Ev; cbn; auto. f_equal. apply value_of_c. eapply R; eauto. split; lia. }
  split; cbn; auto.
  - intros k N Hk. rewrite znth_upd by auto. now replace (k =? ji_array out) with false by lia.
  - split; cbn; auto; try lia. exists (map (of_c t) (g_data o')). rewrite znth_upd, Z.eqb_refl, zlen_map by auto. split; auto. split; [lia|].
    split; [|rewrite Lo; auto]. apply Forall_forall. intros x Hx. apply in_map_iff in Hx as (v & <- & _). apply of_c_range.
  - intros _ _. split; auto. exists a, (map (of_c t) (g_data o')). rewrite znth_upd, Z.eqb_refl, zlen_map by auto.
    split; auto. split; auto. split; auto. intros j Hj. rewrite znth_map, W.
    + cbn. rewrite znth_map. destruct (znth a j) as [v|] eqn:Ev; cbn; auto. f_equal. apply of_c_to_c. rewrite Forall_forall in Fa.
      apply Fa. eapply znth_In; eauto.
    + intros x y I. unfold pos; cbn. apply (Hj x y). exact I.
Qed.

Lemma effect_reshape tin t J inp out J1 out1 J' F : jargs tin t J inp out ->
  j_reshape J out (ji_width inp) (ji_height inp) = Ok (J1, out1) -> jeffect t J1 inp out1 J' out1 F -> jeffect t J inp out J' out1 F.
Proof.
  intros A E [E1 E2 E3 E4 E5 E6 _]. pose proof (reshape_array _ _ _ _ _ _ E) as Ra. destruct (reshape_ok tin t J inp out A) as (J1' & out1' & X & A1 & Ew & Eh & Hs & Hz & _ & Same).
  rewrite E in X. injection X as <- <-. split; auto.
  - intros a N Ha. rewrite E4 by (auto; lia). apply Hs. lia.
  - intros Sw Sh. destruct (Same Sw Sh) as [-> ->]. split; auto. now apply E6.
  - lia.
Qed.

(** ** Threshold filters *)
Lemma filter_some {S} (f : S -> gray Z -> gray Z -> outcome (S * gray Z)) (after : S * list Z) (s : S)
    (R : gray Z -> S -> (Z -> Z -> option Z) -> Prop) J inp out :
  jargs JByte JByte J inp out ->
  (forall g o, shows JByte J inp g -> wf o -> g_sub o = true -> g_width o = g_width g -> g_height o = g_height g ->
     exists s' o' F, f s g o = Ok (s', o') /\ R g s' F /\ holds g o o' F /\
       forall x y v, inside g x y -> F x y = Some v -> 0 <= v <= 255) ->
  exists s' J' out' g F, java_filter f after s J inp out = Ok (s', J', out') /\ shows JByte J inp g /\ R g s' F /\
    jeffect JByte J inp out J' out' F.
Proof.
  intros A Hf. destruct (reshape_ok _ _ _ _ _ A) as (J1 & out1 & Er & A1 & Ew & Eh & _ & _ & Hp & _).
  destruct A1 as [Vi Vo Fr Ap _ Ar].
  assert (Vi' := Vi). destruct Vi' as [_ _ _ _ (b & Eb & _)]. assert (Vo' := Vo). destruct Vo' as [_ _ _ _ (a & Ea & _)].
  destruct (wrap_get JByte J1 (mkJvm (jv_arrays J1) (ji_array inp :: jv_held J1)) out1 a Fr eq_refl Vo Ea) as (o0 & W1 & G1).
  destruct (wrap_get JByte J1 J1 inp b Fr eq_refl Vi Eb) as (i0 & W2 & G2).
  pose proof (view_shows _ _ _ _ Vi Eb) as Si.
  assert (Si' : shows JByte J inp (view JByte inp b)).
  { destruct Si as (S1 & S2 & S3 & S4). split; auto. split; auto. split; auto. intros x y. rewrite S4. apply Hp. }
  destruct (Hf (view JByte inp b) (view JByte out1 a)) as (s' & o' & F & Ef & Qs & (Hw & Hh & Hl & Hpx & Hout) & HF).
  { exact Si'. }
  { eapply view_wf; eauto. } { reflexivity. } { cbn; lia. } { cbn; lia. }
  unfold java_filter. rewrite Er. cbn [bind]. unfold native_filter. rewrite W1. cbn [bind]. rewrite W2. cbn [bind]. rewrite G2. cbn [bind].
  rewrite G1. cbn [bind]. rewrite Ef. rewrite Fr. unfold j_abort. cbn [jv_held jv_arrays unhold].
  replace (ji_array inp =? ji_array out1) with false by lia. rewrite Z.eqb_refl. cbn [bind].
  destruct (commit_effect JByte J1 (mkJvm (jv_arrays J1) [ji_array out1])
    (mkJvm (upd (jv_arrays J1) (Z.to_nat (ji_array out1)) (map (of_c JByte) (g_data o'))) []) inp out1 a o' F []) as [Ec Ee]; auto.
  { cbn. now rewrite Z.eqb_refl. }
  rewrite Ec. cbn [bind jv_arrays]. exists s'. do 2 eexists. exists (view JByte inp b), F. split; [reflexivity|]. split; auto. split; auto. eapply effect_reshape; eauto.
Qed.

Lemma filter_call {S} (f : S -> gray Z -> gray Z -> outcome (S * gray Z)) (after : S * list Z) (s : S) (Q : S -> Prop) J inp out F :
  jargs JByte JByte J inp out ->
  (forall g o, shows JByte J inp g -> wf o -> g_sub o = true -> g_width o = g_width g -> g_height o = g_height g ->
     exists s' o', f s g o = Ok (s', o') /\ Q s' /\ holds g o o' F) ->
  (forall x y v, jinside inp x y -> F x y = Some v -> 0 <= v <= 255) ->
  exists s' J' out', java_filter f after s J inp out = Ok (s', J', out') /\ Q s' /\ jeffect JByte J inp out J' out' F.
Proof.
  intros A Hf HF. destruct (filter_some f after s (fun _ s' F' => Q s' /\ F' = F) J inp out A) as (s' & J' & out' & g & F' & E & _ & (Qs & ->) & Ee).
  - intros g o Sg W Sb Dw Dh. destruct (Hf g o Sg W Sb Dw Dh) as (s' & o' & E & Qs & H). exists s', o', F. split; auto. split; auto. split; auto.
    intros x y v I. apply HF. destruct Sg as (_ & S1 & S2 & _). destruct I. split; lia.
  - eauto 6.
Qed.

Lemma shows_range J inp g : jvalid JByte J inp -> shows JByte J inp g -> forall x y v, pixel g x y = Some v -> 0 <= v <= 255.
Proof.
  intros V (_ & _ & _ & P) x y v E. rewrite P in E. destruct V as [_ _ _ _ (a & Ea & _ & Fa & _)]. unfold jpixel in E.
  destruct (_ && _); [|discriminate]. rewrite Ea in E. destruct (znth a _) as [w|] eqn:Ew; [|discriminate]. injection E as <-.
  rewrite Forall_forall in Fa. specialize (Fa w (znth_In _ _ _ Ew)). cbn in *. destruct (Z.ltb_spec w 0); lia.
Qed.

Lemma same_size {A} (z : A) (g o : gray A) : g_width o = g_width g -> g_height o = g_height g -> gray_reshape z o (g_width g) (g_height g) = Ok o.
Proof. intros H1 H2. unfold gray_reshape. now rewrite H1, H2, !Z.eqb_refl. Qed.

(** ** Fixed threshold *)
Lemma fixed_call tq down J inp out : jargs JByte JByte J inp out -> 0 <= tq <= 255 -> forall after, exists J' out',
  java_filter fixed_process after (tq, down) J inp out = Ok ((tq, down), J', out') /\
  jeffect JByte J inp out J' out' (fun x y => match jpixel JByte J inp x y with
     | Some v => Some (if (if down then v <=? tq else tq <? v) then 1 else 0) | None => None end).
Proof.
  intros A Ht after.
  destruct (filter_call fixed_process after (tq, down) (fun s => s = (tq, down)) J inp out (fun x y => match jpixel JByte J inp x y with
     | Some v => Some (if (if down then v <=? tq else tq <? v) then 1 else 0) | None => None end)) as (s' & J' & out' & E & -> & Ee); [exact A| | |eauto].
  - intros g o (W & Ew & Eh & P) Wo Sub Ew' Eh'.
    assert (Er : gray_reshape 0 o (g_width g) (g_height g) = Ok o).
    { unfold gray_reshape. now rewrite Ew', Eh', !Z.eqb_refl. }
    destruct (threshold_ok Z.leb Z.gtb g tq down o o W Wo Er) as (o' & E & H1 & H2 & H3 & H4 & H5). unfold fixed_process. cbn [fst snd]. rewrite E. cbn [bind].
    do 2 eexists. split; [reflexivity|]. split; auto. split; auto. split; auto. split; auto. split; auto.
    intros x y I. rewrite H4 by auto. rewrite P. destruct (jpixel JByte J inp x y) as [v|]; auto. destruct down; auto. now rewrite Z.gtb_ltb.
  - intros x y v _. destruct (jpixel JByte J inp x y) as [w|]; [|discriminate]. intros [= <-]. destruct (if down then _ else _); lia.
Qed.

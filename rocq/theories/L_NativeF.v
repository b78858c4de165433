(** Lemmas about calls from Java on images of floats. *)
From Coq Require Import Reals Lra Floats.SpecFloat.
From Verif Require Import BaseFacts M_Image S_Image L_Image M_Border S_Border L_Border M_Convolve S_Convolve M_Normalized M_Blur M_Binary L_Binary
  M_Float S_Ieee M_Kernel M_Native S_Native L_Native M_NativeF S_NativeF.
Open Scope Z_scope.

(** ** Images of floats *)
Definition fview (im : jimage) (a : list spec_float) : gray spec_float :=
  mkGray (ji_width im) (ji_height im) (ji_start im) (ji_stride im) true a.

Lemma fview_wf V im a : fvalid V im -> znth (fv_floats V) (ji_array im) = Some a -> wf (fview im a).
Proof.
  intros [(H1 & H2 & H3) H4 H5 H6 (a' & E & L & W)] Ea. rewrite Ea in E. injection E as <-.
  unfold wf, fview; cbn. pose proof (zlen_nonneg a). repeat split; try lia; try discriminate.
Qed.
Lemma fview_shows V im a : fvalid V im -> znth (fv_floats V) (ji_array im) = Some a -> fshows V im (fview im a).
Proof.
  intros H Ea. split; [eapply fview_wf; eauto|]. split; [reflexivity|]. split; [reflexivity|]. intros x y.
  unfold pixel, fpixel, fview; cbn. destruct (_ && _); auto. rewrite Ea. reflexivity.
Qed.
Lemma fshows_same V im g g' : fshows V im g -> fshows V im g' ->
  g_width g = g_width g' /\ g_height g = g_height g' /\ forall x y, pixel g x y = pixel g' x y.
Proof. intros (_ & A1 & A2 & A3) (_ & B1 & B2 & B3). split; [congruence|]. split; [congruence|]. intros. now rewrite A3, B3. Qed.

Lemma fwrap_get V V' im a : all_back V -> fv_floats V' = fv_floats V -> fvalid V im -> znth (fv_floats V) (ji_array im) = Some a ->
  exists g0, f_wrap V im = Ok g0 /\ f_get V' im g0 = Ok (mkFvm (fv_int V') (fv_floats V) (ji_array im :: fv_held V'), fview im a).
Proof.
  intros [F1 F2] EJ [(H1 & H2 & H3) H4 H5 H6 _] Ea. unfold f_wrap, f_jni, f_get. rewrite F1, F2, EJ. apply bget_Ok in Ea. rewrite Ea. cbn [bind].
  eexists. split; [reflexivity|]. cbn [bind]. unfold with_data, gray_wrap, fview; cbn. rewrite !u32_id by lia. reflexivity.
Qed.

Lemma fvalid_same V V1 im : fvalid V im -> (forall a, 0 <= a < zlen (fv_floats V) -> znth (fv_floats V1) a = znth (fv_floats V) a) -> fvalid V1 im.
Proof.
  intros [H1 H2 H3 H4 (a & Ea & H)] S. split; auto. exists a. split; auto. rewrite S; auto. apply (znth_Some_range _ _ _ Ea).
Qed.
Lemma fpixel_same V V1 im x y : znth (fv_floats V1) (ji_array im) = znth (fv_floats V) (ji_array im) -> fpixel V1 im x y = fpixel V im x y.
Proof. intros E. unfold fpixel. now rewrite E. Qed.

Lemma freshape_array V im w h V1 im1 : f_reshape V im w h = Ok (V1, im1) ->
  ji_array im1 = ji_array im \/ ji_array im1 = zlen (fv_floats V) /\ zlen (fv_floats V1) = zlen (fv_floats V) + 1.
Proof.
  unfold f_reshape. destruct (_ && _); [intros [= <- <-]; auto|]. destruct (ji_sub im); [discriminate|]. intros H. apply bind_Ok in H as (a & _ & H).
  destruct (_ <? _); injection H as <- <-; cbn; auto. right. split; auto. rewrite zlen_app. reflexivity.
Qed.

Lemma freshape_ok V inp out : fargs V inp out -> exists V1 out1,
  f_reshape V out (ji_width inp) (ji_height inp) = Ok (V1, out1) /\ fargs V1 inp out1 /\
  ji_width out1 = ji_width inp /\ ji_height out1 = ji_height inp /\ fv_int V1 = fv_int V /\
  (forall a, 0 <= a < zlen (fv_floats V) -> znth (fv_floats V1) a = znth (fv_floats V) a) /\
  zlen (fv_floats V) <= zlen (fv_floats V1) /\
  (forall x y, fpixel V1 inp x y = fpixel V inp x y) /\
  (ji_width out = ji_width inp -> ji_height out = ji_height inp -> V1 = V /\ out1 = out).
Proof.
  intros [Vi Vo F A [S R]]. unfold f_reshape. destruct (_ && _) eqn:E.
  { exists V, out. apply andb_true_iff in E as [E1 E2]. apply Z.eqb_eq in E1, E2. split; auto. split; [split; auto; split; auto|]. repeat split; auto; lia. }
  assert (E' : ~ (ji_width out = ji_width inp /\ ji_height out = ji_height inp)).
  { intros [X1 X2]. rewrite X1, X2, !Z.eqb_refl in E. discriminate. }
  destruct S as [S|S]; [|tauto]. rewrite S. destruct Vo as [(O1 & O2 & O3) O4 O5 O6 (a & Ea & La & Wa)].
  destruct (O6 S) as [Z0 _]. pose proof Ea as Ea'. apply bget_Ok in Ea'. rewrite Ea'. cbn [bind].
  assert (Vi' := Vi). destruct Vi' as [(I1 & I2 & I3) I4 I5 I6 (b & Eb & Lb & Wb)].
  pose proof (znth_Some_range _ _ _ Eb). pose proof (znth_Some_range _ _ _ Ea).
  destruct (Z.ltb_spec (zlen a) (ji_width inp * ji_height inp)) as [Lt|Ge].
  - do 2 eexists. split; [reflexivity|]. cbn.
    assert (Sa : forall k, 0 <= k < zlen (fv_floats V) ->
      znth (fv_floats V ++ [repeat (S754_zero false) (Z.to_nat (ji_width inp * ji_height inp))]) k = znth (fv_floats V) k)
      by (intros k Hk; apply znth_app_l; lia).
    split; [split; cbn; auto|split; auto; split; auto; split; auto; split; [exact Sa|]].
    + split; cbn; auto. exists b. rewrite Sa by lia. auto.
    + split; cbn; auto; try lia. exists (repeat (S754_zero false) (Z.to_nat (ji_width inp * ji_height inp))).
      rewrite znth_app_r, Z.sub_diag, znth_cons_0 by lia. rewrite zlen_repeat, Z2Nat.id by lia. split; auto. split; [lia|].
      intros. rewrite Z0. lia.
    + lia.
    + split; auto.
    + rewrite zlen_app. split; [unfold zlen at 3; cbn; lia|]. split.
      * intros x y. unfold fpixel. cbn. rewrite Sa by lia. reflexivity.
      * intros. tauto.
  - do 2 eexists. split; [reflexivity|]. cbn. split; [split; cbn; auto|repeat split; auto; try lia; tauto].
    + split; cbn; auto; try lia. exists a. split; auto. split; auto. intros. rewrite Z0. lia.
    + split; auto.
Qed.

Lemma fcommit_effect V V2 V' inp out a (o' : gray spec_float) F l :
  fvalid V out -> znth (fv_floats V) (ji_array out) = Some a -> ji_width out = ji_width inp -> ji_height out = ji_height inp ->
  fv_floats V2 = fv_floats V -> fv_int V2 = fv_int V ->
  unhold (ji_array out) (fv_held V2) = Ok l ->
  same_layout (fview out a) o' -> (forall x y, jinside inp x y -> pixel o' x y = F x y) ->
  (forall j, outside_window (fview out a) j -> znth (g_data o') j = znth (g_data (fview out a)) j) ->
  V' = mkFvm (fv_int V) (upd (fv_floats V) (Z.to_nat (ji_array out)) (g_data o')) [] ->
  f_commit V2 out (g_data o') = Ok (mkFvm (fv_int V) (fv_floats V') l) /\ feffect V inp out V' out F.
Proof.
  intros H Ea Ew Eh EJ EI Eu (L1 & L2 & L3 & L4 & L5 & L6) P W ->. pose proof (znth_Some_range _ _ _ Ea) as Ra.
  unfold f_commit. rewrite Eu, EJ, EI. cbn [bind]. rewrite bset_in by auto. cbn [bind fv_floats]. split; auto.
  assert (Lo : zlen (g_data o') = zlen a) by exact L6.
  cbn in L1, L2, L3, L4.
  assert (H' := H). destruct H' as [(H1 & H2 & H3) H4 H5 H6 (a' & E' & La & Wa)]. rewrite Ea in E'. injection E' as <-.
  split; cbn; auto.
  - intros x y I. pose proof (P x y I) as Pxy. destruct I as [I1 I2]. unfold fpixel. cbn.
    replace ((0 <=? x) && (x <? ji_width out) && (0 <=? y) && (y <? ji_height out)) with true by lia.
    rewrite znth_upd, Z.eqb_refl by auto. unfold pixel, pos in Pxy. rewrite L1, L2, L3, L4 in Pxy.
    replace ((0 <=? x) && (x <? ji_width out) && (0 <=? y) && (y <? ji_height out)) with true in Pxy by lia. exact Pxy.
  - intros k N Hk. rewrite znth_upd by auto. now replace (k =? ji_array out) with false by lia.
  - split; cbn; auto; try lia. exists (g_data o'). rewrite znth_upd, Z.eqb_refl by auto. split; auto. split; [lia|]. rewrite Lo; auto.
  - intros _ _. split; auto. exists a, (g_data o'). rewrite znth_upd, Z.eqb_refl by auto.
    split; [exact Ea|]. split; [reflexivity|]. split; [exact Lo|]. intros j Hj. rewrite W; [reflexivity|].
    intros x y I. unfold pos; cbn. apply (Hj x y). exact I.
Qed.

Lemma feffect_reshape V inp out V1 out1 V' F : fargs V inp out ->
  f_reshape V out (ji_width inp) (ji_height inp) = Ok (V1, out1) -> feffect V1 inp out1 V' out1 F -> feffect V inp out V' out1 F.
Proof.
  intros A E [E1 E2 E3 E0 E4 E5 E6 _]. pose proof (freshape_array _ _ _ _ _ _ E) as Ra. destruct (freshape_ok V inp out A) as (V1' & out1' & X & A1 & Ew & Eh & Ei & Hs & Hz & _ & Same).
  rewrite E in X. injection X as <- <-. split; auto.
  - congruence.
  - intros a N Ha. rewrite E4 by (auto; lia). apply Hs. lia.
  - intros Sw Sh. destruct (Same Sw Sh) as [-> ->]. split; auto. now apply E6.
  - lia.
Qed.

(** ** Bytes out *)
Lemma byte_reshape J inp out : jvalid JByte J out -> 0 <= ji_width inp <= 2147483647 -> 0 <= ji_height inp <= 2147483647 -> shaped inp out ->
  exists J1 out1, j_reshape J out (ji_width inp) (ji_height inp) = Ok (J1, out1) /\ jvalid JByte J1 out1 /\ jv_held J1 = jv_held J /\
  ji_width out1 = ji_width inp /\ ji_height out1 = ji_height inp /\
  (forall a, 0 <= a < zlen (jv_arrays J) -> znth (jv_arrays J1) a = znth (jv_arrays J) a) /\
  zlen (jv_arrays J) <= zlen (jv_arrays J1) /\
  (ji_width out = ji_width inp -> ji_height out = ji_height inp -> J1 = J /\ out1 = out).
Proof.
  intros Vo Hw Hh [S R]. unfold j_reshape. destruct (_ && _) eqn:E.
  { exists J, out. apply andb_true_iff in E as [E1 E2]. apply Z.eqb_eq in E1, E2. split; [reflexivity|]. split; [exact Vo|]. split; [reflexivity|]. split; [auto|]. split; [auto|]. split; [auto|]. split; [lia|auto]. }
  assert (E' : ~ (ji_width out = ji_width inp /\ ji_height out = ji_height inp)).
  { intros [X1 X2]. rewrite X1, X2, !Z.eqb_refl in E. discriminate. }
  destruct S as [S|S]; [|tauto]. rewrite S. destruct Vo as [(O1 & O2 & O3) O4 O5 O6 (a & Ea & La & Ra & Wa)].
  destruct (O6 S) as [Z0 _]. pose proof Ea as Ea'. apply bget_Ok in Ea'. rewrite Ea'. cbn [bind].
  pose proof (znth_Some_range _ _ _ Ea).
  destruct (Z.ltb_spec (zlen a) (ji_width inp * ji_height inp)) as [Lt|Ge].
  - do 2 eexists. split; [reflexivity|]. cbn.
    split; [|split; auto; split; auto; split; auto; split; [intros k Hk; apply znth_app_l; lia|split; [rewrite zlen_app; unfold zlen at 3; cbn; lia|tauto]]].
    split; cbn; auto; try lia. exists (repeat 0 (Z.to_nat (ji_width inp * ji_height inp))).
    rewrite znth_app_r, Z.sub_diag, znth_cons_0 by lia. rewrite zlen_repeat, Z2Nat.id by lia. split; auto. split; [lia|]. split.
    + apply Forall_forall. intros x Hx. apply repeat_spec in Hx as ->. cbn; lia.
    + intros. rewrite Z0. lia.
  - do 2 eexists. split; [reflexivity|]. cbn. split; [|repeat split; auto; try lia; tauto].
    split; cbn; auto; try lia. exists a. split; auto. split; auto. split; auto. intros. rewrite Z0. lia.
Qed.

Lemma f_filter_some {S} (f : S -> gray spec_float -> gray Z -> outcome (S * gray Z)) (after : S * list Z) (s : S)
    (R : gray spec_float -> S -> (Z -> Z -> option Z) -> Prop) V inp out :
  fbargs V inp out ->
  (forall g o, fshows V inp g -> zlen (g_data g) <= 2147483647 -> wf o -> g_sub o = true -> g_width o = g_width g -> g_height o = g_height g ->
     exists s' o' F, f s g o = Ok (s', o') /\ R g s' F /\ holds g o o' F /\
       forall x y v, inside g x y -> F x y = Some v -> 0 <= v <= 255) ->
  exists s' V' out' g F, f_java_filter f after s V inp out = Ok (s', V', out') /\ fshows V inp g /\ R g s' F /\
    fbeffect V inp out V' out' F.
Proof.
  intros [Vi Vo [Fr1 Fr2] Sp] Hf. assert (Vi' := Vi). destruct Vi' as [(I1 & I2 & I3) I4 I5 I6 (b & Eb & Lb & Wb)].
  destruct (byte_reshape (fv_int V) inp out Vo ltac:(lia) ltac:(lia) Sp) as (J1 & out1 & Er & Vo1 & Hh1 & Ew & Eh & Hs & Hz & Same).
  assert (Vo' := Vo1). destruct Vo' as [_ _ _ _ (a & Ea & _)]. rewrite Fr1 in Hh1.
  set (V1 := mkFvm J1 (fv_floats V) (fv_held V)).
  destruct (wrap_get JByte J1 J1 out1 a Hh1 eq_refl Vo1 Ea) as (o0 & W1 & G1).
  assert (Vi1 : fvalid V1 inp) by (apply (fvalid_same V); auto).
  destruct (fwrap_get V1 V1 inp b) as (i0 & W2 & G2); auto. { split; auto. }
  pose proof (fview_shows _ _ _ Vi Eb) as Si.
  destruct (Hf (fview inp b) (view JByte out1 a)) as (s' & o' & F & Ef & Qs & (Hw & Hh & Hl & Hpx & Hout) & HF).
  { exact Si. } { exact Lb. }
  { eapply view_wf; eauto. } { reflexivity. } { cbn; lia. } { cbn; lia. }
  unfold f_java_filter. rewrite Er. cbn [bind]. fold V1. unfold f_native_filter, f_wrap_byte, f_jni. cbn [V1 fv_int fv_held]. rewrite Hh1, Fr2. cbn [bind].
  rewrite W1. cbn [bind]. fold V1. rewrite W2. cbn [bind]. rewrite G2. cbn [bind V1 fv_int fv_held]. rewrite G1. cbn [bind]. rewrite Ef.
  unfold f_abort. cbn [fv_held fv_floats fv_int unhold]. rewrite Z.eqb_refl. cbn [bind].
  destruct (commit_effect JByte J1 (mkJvm (jv_arrays J1) [ji_array out1])
    (mkJvm (upd (jv_arrays J1) (Z.to_nat (ji_array out1)) (map (of_c JByte) (g_data o'))) []) inp out1 a o' F []) as [Ec Ee]; auto.
  { cbn. now rewrite Z.eqb_refl. }
  rewrite Hh1. rewrite Ec. cbn [bind jv_arrays fv_floats fv_held]. exists s'. do 2 eexists. exists (fview inp b), F. split; [reflexivity|]. split; auto. split; auto.
  split; [|split; cbn; auto]. cbn [fv_int]. destruct Ee as [E1 E2 E3 E4 E5 E6 _]. pose proof (reshape_array _ _ _ _ _ _ Er) as Ra. split; auto.
  - intros k N Hk. rewrite E4 by (auto; lia). apply Hs. lia.
  - intros Sw Sh. destruct (Same Sw Sh) as [-> ->]. split; auto. now apply E6.
  - lia.
Qed.

Lemma f_filter_call {S} (f : S -> gray spec_float -> gray Z -> outcome (S * gray Z)) (after : S * list Z) (s : S) (Q : S -> Prop) V inp out F :
  fbargs V inp out ->
  (forall g o, fshows V inp g -> zlen (g_data g) <= 2147483647 -> wf o -> g_sub o = true -> g_width o = g_width g -> g_height o = g_height g ->
     exists s' o', f s g o = Ok (s', o') /\ Q s' /\ holds g o o' F) ->
  (forall x y v, jinside inp x y -> F x y = Some v -> 0 <= v <= 255) ->
  exists s' V' out', f_java_filter f after s V inp out = Ok (s', V', out') /\ Q s' /\ fbeffect V inp out V' out' F.
Proof.
  intros A Hf HF. destruct (f_filter_some f after s (fun _ s' F' => Q s' /\ F' = F) V inp out A) as (s' & V' & out' & g & F' & E & _ & (Qs & ->) & Ee).
  - intros g o Sg Lg W Sb Dw Dh. destruct (Hf g o Sg Lg W Sb Dw Dh) as (s' & o' & E & Qs & H). exists s', o', F. split; auto. split; auto. split; auto.
    intros x y v I. apply HF. destruct Sg as (_ & S1 & S2 & _). destruct I. split; lia.
  - eauto 6.
Qed.

Lemma sized {A} (z : A) (o : gray A) w h : g_width o = w -> g_height o = h -> gray_reshape z o w h = Ok o.
Proof. intros <- <-. unfold gray_reshape. now rewrite !Z.eqb_refl. Qed.

(** ** Fixed threshold *)
Lemma f_fixed_call th down V inp out : fbargs V inp out -> forall after, exists V' out',
  f_java_filter f_fixed_process after (th, down) V inp out = Ok ((th, down), V', out') /\
  fbeffect V inp out V' out' (fun x y => match fpixel V inp x y with
     | Some v => Some (if (if down then SFleb v th else SFltb th v) then 1 else 0) | None => None end).
Proof.
  intros A after.
  destruct (f_filter_call f_fixed_process after (th, down) (fun s => s = (th, down)) V inp out (fun x y => match fpixel V inp x y with
     | Some v => Some (if (if down then SFleb v th else SFltb th v) then 1 else 0) | None => None end)) as (s' & V' & out' & E & -> & Ee); [exact A| | |eauto].
  - intros g o (W & Ew & Eh & P) _ Wo Sub Ew' Eh'.
    destruct (threshold_ok SFleb (fun a b => SFltb b a) g th down o o W Wo (sized 0 o _ _ Ew' Eh')) as (o' & E & H1 & H2 & H3 & H4 & H5).
    unfold f_fixed_process. cbn [fst snd]. rewrite E. cbn [bind].
    do 2 eexists. split; [reflexivity|]. split; auto. split; auto. split; auto. split; auto. split; auto.
    intros x y I. rewrite H4 by auto. rewrite P. destruct (fpixel V inp x y) as [v|]; auto. 
  - intros x y v _. destruct (fpixel V inp x y) as [w|]; [|discriminate]. intros [= <-]. destruct (if down then _ else _); lia.
Qed.

(** ** Convolution *)
Definition f_border_of (bd : fborder) : border spec_float :=
  match bd with
  | FLines LExtend _ => BExtend
  | FLines LReflect _ => BReflect
  | FLines LWrap _ => BWrap
  | _ => BValue (S754_zero false)
  end.
Lemma f_border_passed bd : f_passed_on bd ->
  exists n bt, f_border_to_type bd = Ok n /\ border_java n = Ok bt /\ create_SB (S754_zero false) bt = Ok (f_border_of bd).
Proof. intros [->|([| | |] & -> & N)]; try (do 2 eexists; repeat split; reflexivity). easy. Qed.
Lemma f_kernel1_extract k V : fkernel1_ok k -> all_back V -> f_kernel1 V k = Ok (mkKernel (fk_width k) (fk_offset k) (fk_data k)).
Proof.
  intros (H1 & H2 & H3) [F1 F2]. unfold f_kernel1, f_jni, kernel1_new. rewrite F1, F2. cbn [bind]. rewrite !u32_id by lia.
  replace (fk_width k <=? fk_offset k) with false by lia. reflexivity.
Qed.
Lemma f_kernel2_extract k V : fkernel2_ok k -> all_back V -> f_kernel2 V k = Ok (mkKernel (fk_width k) (fk_offset k) (fk_data k)).
Proof.
  intros (H1 & H2 & H3) [F1 F2]. unfold f_kernel2, f_jni, kernel2_new. rewrite F1, F2. cbn [bind]. rewrite !u32_id by lia.
  replace (fk_width k <=? fk_offset k) with false by lia. reflexivity.
Qed.
Lemma f_fits_of bd n k : f_line_fits bd n k -> f_passed_on bd -> fits (f_border_of bd) n (mkKernel (fk_width k) (fk_offset k) (fk_data k)).
Proof. intros H [->|([| | |] & -> & N)]; cbn in *; auto. Qed.

Lemma fsample_extended V im bd g x y : fshows V im g -> f_passed_on bd -> extended (f_border_of bd) g x y = fsample bd V im x y.
Proof.
  intros (W & Ew & Eh & P) [->|([| | |] & -> & N)]; try easy; cbn; rewrite ?Ew, ?Eh, ?P; try reflexivity.
Qed.

Lemma f_convolve_call extract conv V k K bd inp out F :
  fargs V inp out -> (forall V1, all_back V1 -> extract V1 k = Ok K) -> f_passed_on bd ->
  (forall g o, fshows V inp g -> wf o -> g_sub o = true -> g_width o = g_width g -> g_height o = g_height g ->
     exists o', conv K (f_border_of bd) g o = Ok o' /\ holds g o o' F) ->
  exists V' out', f_java_convolve extract conv 32 32 V k inp out bd = Ok (V', out') /\ feffect V inp out V' out' F.
Proof.
  intros A Hx Hb Hf. destruct (f_border_passed bd Hb) as (n & bt & B1 & B2 & B3).
  destruct (freshape_ok _ _ _ A) as (V1 & out1 & Er & A1 & Ew & Eh & Ei & _ & _ & Hp & _).
  destruct A1 as [Vi Vo Fr Ap [_ Ar]]. assert (Fr' := Fr). destruct Fr' as [Fr1 Fr2].
  assert (Vi' := Vi). destruct Vi' as [_ _ _ _ (b & Eb & _)]. assert (Vo' := Vo). destruct Vo' as [_ _ _ _ (a & Ea & _)].
  destruct (fwrap_get V1 (mkFvm (fv_int V1) (fv_floats V1) (ji_array inp :: fv_held V1)) out1 a Fr eq_refl Vo Ea) as (o0 & W1 & G1).
  destruct (fwrap_get V1 V1 inp b Fr eq_refl Vi Eb) as (i0 & W2 & G2).
  pose proof (fview_shows _ _ _ Vi Eb) as Si.
  destruct (Hf (fview inp b) (fview out1 a)) as (o' & Ef & Hw & Hh & Hl & Hpx & Hout).
  { destruct Si as (S1 & S2 & S3 & S4). split; auto. split; auto. split; auto. intros x y. rewrite S4. apply Hp. }
  { eapply fview_wf; eauto. } { reflexivity. } { cbn; lia. } { cbn; lia. }
  unfold f_java_convolve. rewrite Er. cbn [bind]. rewrite B1. cbn [bind]. unfold f_native_convolve. unfold f_jni at 1. rewrite Fr1, Fr2. cbn [bind].
  rewrite B2. cbn [bind]. change ((32 =? 32) && (32 =? 32)) with true. cbn [bind]. rewrite W2. cbn [bind]. rewrite W1. cbn [bind].
  rewrite Hx by auto. cbn [bind]. rewrite B3. cbn [bind]. rewrite G2. cbn [bind]. rewrite G1. cbn [bind]. rewrite Ef. cbn [bind].
  unfold f_abort. cbn [fv_held fv_floats fv_int unhold]. replace (ji_array inp =? ji_array out1) with false by lia. rewrite Z.eqb_refl. cbn [bind].
  destruct (fcommit_effect V1 (mkFvm (fv_int V1) (fv_floats V1) (ji_array out1 :: fv_held V1))
    (mkFvm (fv_int V1) (upd (fv_floats V1) (Z.to_nat (ji_array out1)) (g_data o')) []) inp out1 a o' F (fv_held V1)) as [Ec Ee]; auto.
  { cbn. now rewrite Z.eqb_refl. }
  rewrite Ec. cbn [bind uncaught fv_floats]. rewrite Fr2. do 2 eexists. split; [reflexivity|]. eapply feffect_reshape; eauto.
Qed.

(** ** Normalized convolution *)
Lemma f_normalized_some conv V k inp out (R : gray spec_float -> (Z -> Z -> option spec_float) -> Prop) :
  fargs V inp out -> ji_width out = ji_width inp -> ji_height out = ji_height inp -> fkernel1_ok k ->
  (forall g o, fshows V inp g -> zlen (g_data g) <= 2147483647 -> wf o -> g_sub o = true -> g_width o = g_width g -> g_height o = g_height g ->
     exists o' F, conv (mkKernel (fk_width k) (fk_offset k) (fk_data k)) g o = Ok o' /\ R g F /\ holds g o o' F) ->
  exists V' g F, f_java_normalized conv V k inp out = Ok V' /\ fshows V inp g /\ R g F /\ feffect V inp out V' out F.
Proof.
  intros [Vi Vo Fr Ap [_ Ar]] Ew Eh Hk Hf. assert (Fr' := Fr). destruct Fr' as [Fr1 Fr2].
  assert (Vi' := Vi). destruct Vi' as [_ _ _ _ (b & Eb & Lb & _)]. assert (Vo' := Vo). destruct Vo' as [_ _ _ _ (a & Ea & _)].
  destruct (fwrap_get V (mkFvm (fv_int V) (fv_floats V) (ji_array inp :: fv_held V)) out a Fr eq_refl Vo Ea) as (o0 & W1 & G1).
  destruct (fwrap_get V V inp b Fr eq_refl Vi Eb) as (i0 & W2 & G2).
  pose proof (fview_shows _ _ _ Vi Eb) as Si.
  destruct (Hf (fview inp b) (fview out a)) as (o' & F & Ef & HR & Hw & Hh & Hl & Hpx & Hout).
  { exact Si. } { exact Lb. } { eapply fview_wf; eauto. } { reflexivity. } { cbn; lia. } { cbn; lia. }
  unfold f_java_normalized. rewrite W2. cbn [bind]. rewrite W1. cbn [bind]. rewrite f_kernel1_extract by auto. cbn [bind]. rewrite G2. cbn [bind].
  rewrite G1. cbn [bind]. rewrite Ef. cbn [bind]. unfold f_abort. cbn [fv_held fv_floats fv_int unhold].
  replace (ji_array inp =? ji_array out) with false by lia. rewrite Z.eqb_refl. cbn [bind].
  destruct (fcommit_effect V (mkFvm (fv_int V) (fv_floats V) (ji_array out :: fv_held V))
    (mkFvm (fv_int V) (upd (fv_floats V) (Z.to_nat (ji_array out)) (g_data o')) []) inp out a o' F (fv_held V)) as [Ec Ee]; auto.
  { cbn. now rewrite Z.eqb_refl. }
  rewrite Ec. cbn [uncaught fv_floats]. rewrite Fr2. do 3 eexists. split; [reflexivity|]. eauto.
Qed.

(** ** Blur *)
Lemma fdeclare_ok V inp out storage : fargs V inp out -> ji_width out = ji_width inp -> ji_height out = ji_height inp -> fargs3 V inp out storage ->
  exists V1 st, f_declare V storage (ji_width inp) (ji_height inp) = Ok (V1, st) /\ all_back V1 /\ fv_int V1 = fv_int V /\
  fvalid V1 inp /\ fvalid V1 out /\ fvalid V1 st /\ ji_array st <> ji_array inp /\ ji_array st <> ji_array out /\
  ji_width st = ji_width inp /\ ji_height st = ji_height inp /\
  (forall a, 0 <= a < zlen (fv_floats V) -> znth (fv_floats V1) a = znth (fv_floats V) a) /\
  match storage with
    | Some s => ji_array st = ji_array s \/ zlen (fv_floats V) <= ji_array st
    | None => zlen (fv_floats V) <= ji_array st
    end.
Proof.
  intros A Ew Eh [_ St]. destruct A as [Vi Vo Fr Ap [_ Ar]].
  assert (Li : 0 <= ji_array inp < zlen (fv_floats V)) by (destruct Vi as [_ _ _ _ (a & Ea & _)]; apply (znth_Some_range _ _ _ Ea)).
  assert (Lo : 0 <= ji_array out < zlen (fv_floats V)) by (destruct Vo as [_ _ _ _ (a & Ea & _)]; apply (znth_Some_range _ _ _ Ea)).
  destruct storage as [s|].
  - destruct St as (Vs & N1 & N2 & Sh). assert (A3 : fargs V inp s) by (split; auto; split; auto).
    destruct (freshape_ok _ _ _ A3) as (V1 & s1 & Er & A1 & Ew1 & Eh1 & Ei & Hs & _ & _ & _). exists V1, s1. unfold f_declare.
    destruct A1 as [Vi1 Vs1 Fr1 Ap1 _]. pose proof (freshape_array _ _ _ _ _ _ Er) as Ra.
    split; auto. split; auto. split; auto. split; auto. split; [eapply fvalid_same; eauto|]. split; auto. split; [lia|]. split; [lia|]. split; auto. split; auto.
    split; auto. destruct Ra as [R|(R & _)]; [auto|right; lia].
  - do 2 eexists. split; [reflexivity|]. cbn [fv_int fv_held fv_floats ji_array ji_width ji_height].
    assert (S : forall k l, 0 <= k < zlen (fv_floats V) -> znth (fv_floats V ++ l) k = znth (fv_floats V) k)
      by (intros k l Hk; apply znth_app_l; lia).
    assert (Vi' := Vi). destruct Vi' as [(I1 & I2 & I3) I4 I5 I6 (b & Eb & Lb & Wb)].
    split; auto. split; auto. split; [apply (fvalid_same V); cbn; auto|]. split; [apply (fvalid_same V); cbn; auto|]. split.
    { split; cbn; auto; try lia. exists (repeat (S754_zero false) (Z.to_nat (ji_width inp * ji_height inp))).
      rewrite znth_app_r, Z.sub_diag, znth_cons_0 by lia. rewrite zlen_repeat, Z2Nat.id by lia. split; auto. split; [lia|]. intros. lia. }
    split; [lia|]. split; [lia|]. split; auto. split; auto. split; auto. lia.
Qed.

Lemma fscratch_ok pinned I arrs st c (s' : gray spec_float) : fvalid (mkFvm I arrs []) st -> znth arrs (ji_array st) = Some c ->
  zlen (g_data s') = zlen c ->
  exists V', f_scratch pinned (mkFvm I arrs [ji_array st]) st (g_data s') = Ok V' /\ fv_held V' = [] /\ fv_int V' = I /\ fvalid V' st /\
    forall a, a <> ji_array st -> znth (fv_floats V') a = znth arrs a.
Proof.
  intros H Ec L. pose proof (znth_Some_range _ _ _ Ec) as Rc. unfold f_scratch, f_commit, f_abort. cbn [fv_held unhold fv_floats fv_int]. rewrite Z.eqb_refl. cbn [bind].
  destruct pinned.
  - rewrite bset_in by auto. cbn [bind]. eexists. split; [reflexivity|]. cbn [fv_held fv_floats fv_int]. split; auto. split; auto. split.
    + destruct H as [H1 H2 H3 H4 (c' & E & Lc & Wc)]. cbn in E. rewrite Ec in E. injection E as <-. split; auto.
      exists (g_data s'). cbn. rewrite znth_upd, Z.eqb_refl, L by auto. auto.
    + intros a N. rewrite znth_upd by auto. now replace (a =? ji_array st) with false by lia.
  - eexists. split; [reflexivity|]. cbn [fv_held fv_floats fv_int]. auto.
Qed.

Lemma f_blur_some pinned (f : gray spec_float -> gray spec_float -> gray spec_float -> outcome (gray spec_float * gray spec_float))
    (R : gray spec_float -> (Z -> Z -> option spec_float) -> Prop) V inp out storage :
  fargs3 V inp out storage -> 0 < ji_width inp ->
  (forall g o s, fshows V inp g -> zlen (g_data g) <= 2147483647 -> wf o -> g_sub o = true -> g_width o = g_width g -> g_height o = g_height g ->
     wf s -> g_sub s = true -> g_width s = g_width g -> g_height s = g_height g -> zlen (g_data s) <= 2147483647 ->
     g_offset s + g_width s + g_height s * g_stride s <= 4294967296 ->
     exists o' s' F, f g o s = Ok (o', s') /\ R g F /\ holds g o o' F /\ same_layout s s') ->
  exists V' out' storage' g F, f_java_blur pinned f V inp out storage = Ok (V', out', storage') /\ fshows V inp g /\ R g F /\
    fblurred V inp out storage V' out' storage' F.
Proof.
  intros A3 Wp Hf. pose proof (f3_images _ _ _ _ A3) as A.
  destruct (freshape_ok _ _ _ A) as (V1 & out1 & Er & A1 & Ew & Eh & Ei1 & Hs1 & Hz1 & Hp & Same).
  pose proof (freshape_array _ _ _ _ _ _ Er) as Ra1.
  assert (A31 : fargs3 V1 inp out1 storage).
  { split; auto. destruct A3 as [_ S]. destruct storage as [s|]; auto. destruct S as (H & N1 & N2 & Sh).
    split; [eapply fvalid_same; eauto|]. split; auto. split; auto. destruct Ra1 as [R1|(R1 & _)]; [lia|].
    destruct H as [_ _ _ _ (a & Ea & _)]. pose proof (znth_Some_range _ _ _ Ea). lia. }
  destruct (fdeclare_ok V1 inp out1 storage A1 Ew Eh A31) as (V2 & st & Ed & Fr & Ei2 & Vi & Vo & Vs & N1 & N2 & Sw & Sh & Hs2 & Hst).
  destruct A1 as [Vi1 Vo1 _ Ap _]. assert (Fr' := Fr). destruct Fr' as [Fr1 Fr2].
  assert (Li : 0 <= ji_array inp < zlen (fv_floats V1)) by (destruct Vi1 as [_ _ _ _ (q & Eq & _)]; apply (znth_Some_range _ _ _ Eq)).
  assert (Lo : 0 <= ji_array out1 < zlen (fv_floats V1)) by (destruct Vo1 as [_ _ _ _ (q & Eq & _)]; apply (znth_Some_range _ _ _ Eq)).
  assert (Vi' := Vi). destruct Vi' as [_ _ _ _ (b & Eb & Lb & _)]. assert (Vo' := Vo). destruct Vo' as [_ _ _ _ (a & Ea & _)].
  assert (Vs' := Vs). destruct Vs' as [(Q1 & Q2 & Q3) Q4 Q5 Q6 (c & Ec & Lc & Wc)].
  destruct (fwrap_get V2 V2 inp b Fr eq_refl Vi Eb) as (i0 & W1 & G1).
  destruct (fwrap_get V2 (mkFvm (fv_int V2) (fv_floats V2) (ji_array inp :: fv_held V2)) out1 a Fr eq_refl Vo Ea) as (o0 & W2 & G2).
  destruct (fwrap_get V2 (mkFvm (fv_int V2) (fv_floats V2) (ji_array out1 :: ji_array inp :: fv_held V2)) st c Fr eq_refl Vs Ec) as (s0 & W3 & G3).
  assert (Si : fshows V inp (fview inp b)).
  { destruct (fview_shows _ _ _ Vi Eb) as (S1 & S2 & S3 & S4). split; auto. split; auto. split; auto. intros x y. rewrite S4.
    rewrite <- Hp. apply fpixel_same. now apply Hs2. }
  destruct (Hf (fview inp b) (fview out1 a) (fview st c)) as (o' & s' & F & Ef & HR & (Hw & Hh & Hl & Hpx & Hout) & Ls).
  { exact Si. } { exact Lb. }
  { eapply fview_wf; eauto. } { reflexivity. } { cbn; lia. } { cbn; lia. }
  { eapply fview_wf; eauto. } { reflexivity. } { cbn; lia. } { cbn; lia. } { exact Lc. }
  { cbn. destruct (Z.eq_dec (ji_height st) 0) as [E0|]; [rewrite E0; lia|].
    specialize (Wc ltac:(lia) ltac:(lia)). nia. }
  destruct (fcommit_effect V2 (mkFvm (fv_int V2) (fv_floats V2) [ji_array st; ji_array out1])
    (mkFvm (fv_int V2) (upd (fv_floats V2) (Z.to_nat (ji_array out1)) (g_data o')) []) inp out1 a o' F [ji_array st]) as [Ecm Ee]; auto.
  { cbn. replace (ji_array out1 =? ji_array st) with false by lia. now rewrite Z.eqb_refl. }
  cbn [fv_floats] in Ecm.
  destruct (fscratch_ok pinned (fv_int V2) (upd (fv_floats V2) (Z.to_nat (ji_array out1)) (g_data o')) st c s')
    as (V' & Es & Fr' & Ei' & Vst & Oth).
  { destruct Vs as [H1 H2 H3 H4 (c' & Ec' & H5)]. split; auto. exists c'. split; auto. cbn. rewrite znth_upd by apply (znth_Some_range _ _ _ Ea).
    now replace (ji_array st =? ji_array out1) with false by lia. }
  { rewrite znth_upd by apply (znth_Some_range _ _ _ Ea). now replace (ji_array st =? ji_array out1) with false by lia. }
  { destruct Ls as (_ & _ & _ & _ & _ & ->). reflexivity. }
  destruct Ee as [E1 E2 E3 E0 E4 E5 E6 _]. cbn [fv_floats] in E4, E6.
  exists V', out1, st, (fview inp b), F. split; [|split; [exact Si|split; [exact HR|]]].
  { unfold f_java_blur. rewrite Er. cbn [bind]. rewrite Ed. cbn [bind]. unfold f_native_blur. rewrite W1. cbn [bind]. rewrite W2. cbn [bind].
    rewrite W3. cbn [bind]. rewrite G1. cbn [bind]. rewrite G2. cbn [bind fv_held fv_int]. rewrite G3. cbn [bind fv_held]. rewrite Ef. cbn [bind]. rewrite Fr2.
    unfold f_abort. cbn [fv_held fv_floats fv_int unhold]. replace (ji_array inp =? ji_array st) with false by lia.
    replace (ji_array inp =? ji_array out1) with false by lia. rewrite Z.eqb_refl. cbn [bind]. rewrite Ecm. cbn [bind]. rewrite Es. reflexivity. }
  split.
  - exact E1.
  - intros x y I. rewrite <- E2 by auto. apply fpixel_same. cbn [fv_floats]. apply Oth. auto.
  - exact Fr'.
  - congruence.
  - intros k K1 K2 K3. rewrite Oth by auto. rewrite E4; auto; [|pose proof (zlen_nonneg (fv_floats V2))].
    + rewrite Hs2 by lia. apply Hs1. auto.
    + destruct (znth_in_range (fv_floats V1) k) as [q Eq]; [lia|]. rewrite <- Hs2 in Eq by lia. apply znth_Some_range in Eq. lia.
  - split; [|auto]. destruct E5 as [H1 H2 H3 H4 (c' & Ec' & H5)]. split; auto. exists c'. split; auto. cbn in Ec'. rewrite Oth; auto.
  - destruct storage; lia.
  - intros S1 S2. destruct (Same S1 S2) as [-> ->]. split; auto. destruct (E6 Ew Eh) as (_ & q & q' & Q1' & Q2' & Q3' & Q4').
    exists q, q'. split; [rewrite <- Hs2; auto|]. split; [rewrite Oth; auto|]. split; auto.
  - lia.
Qed.

(** ** Refusals *)
Lemma f_border_refused extract conv ib ob V k inp out bd : fargs V inp out ->
  match bd with FValue v => SFeqb v (S754_zero false) = false | FLines row _ => row = LOther | FBorder => True end ->
  f_java_convolve extract conv ib ob V k inp out bd = Throw.
Proof.
  intros A H. destruct (freshape_ok _ _ _ A) as (V1 & out1 & Er & _). unfold f_java_convolve. rewrite Er. cbn [bind].
  destruct bd as [v|row column|]; cbn [f_border_to_type]; [now rewrite H|subst row; reflexivity|reflexivity].
Qed.
Lemma f_bits_undef extract conv ib ob V k inp out bd : fargs V inp out -> f_passed_on bd -> ib <> 32 \/ ob <> 32 ->
  f_java_convolve extract conv ib ob V k inp out bd = Undef.
Proof.
  intros A Hb H. destruct (f_border_passed bd Hb) as (n & bt & B1 & B2 & _).
  destruct (freshape_ok _ _ _ A) as (V1 & out1 & Er & A1 & _). destruct (fa_free _ _ _ A1) as [F1 F2].
  unfold f_java_convolve. rewrite Er. cbn [bind]. rewrite B1. cbn [bind]. unfold f_native_convolve, f_jni. rewrite F1, F2. cbn [bind].
  rewrite B2. cbn [bind]. replace ((ib =? 32) && (ob =? 32)) with false by lia. reflexivity.
Qed.

(** Lemmas about blurring from Java. *)
From Coq Require Import Reals Lra.
From Verif Require Import BaseFacts M_Image S_Image L_Image M_Border M_Convolve S_Convolve M_Normalized S_Normalized L_Normalized L_NormalizedInt
  M_Blur S_Blur L_Blur L_BlurTop M_Otsu M_Kernel S_Kernel L_GaussBlur M_Native S_Native L_Native L_NativeConv M_NativeBlur S_NativeBlur.
Open Scope Z_scope.

Lemma jvalid_same t J J1 im : jvalid t J im -> (forall a, 0 <= a < zlen (jv_arrays J) -> znth (jv_arrays J1) a = znth (jv_arrays J) a) -> jvalid t J1 im.
Proof.
  intros [H1 H2 H3 H4 (a & Ea & H)] S. split; auto. exists a. split; auto. rewrite S; auto. apply (znth_Some_range _ _ _ Ea).
Qed.
Lemma jpixel_same t J J1 im x y : znth (jv_arrays J1) (ji_array im) = znth (jv_arrays J) (ji_array im) -> jpixel t J1 im x y = jpixel t J im x y.
Proof. intros E. unfold jpixel. now rewrite E. Qed.

(** The storage made or reshaped: everything is ready for the native call. *)
Lemma declare_ok J inp out storage : jargs JByte JByte J inp out -> ji_width out = ji_width inp -> ji_height out = ji_height inp -> jargs3 J inp out storage ->
  exists J1 st, j_declare J storage (ji_width inp) (ji_height inp) = Ok (J1, st) /\ jv_held J1 = [] /\
  jvalid JByte J1 inp /\ jvalid JByte J1 out /\ jvalid JByte J1 st /\ ji_array st <> ji_array inp /\ ji_array st <> ji_array out /\
  ji_width st = ji_width inp /\ ji_height st = ji_height inp /\
  (forall a, 0 <= a < zlen (jv_arrays J) -> znth (jv_arrays J1) a = znth (jv_arrays J) a) /\
  match storage with
    | Some s => ji_array st = ji_array s \/ zlen (jv_arrays J) <= ji_array st
    | None => zlen (jv_arrays J) <= ji_array st
    end.
Proof.
  intros A Ew Eh [_ St]. destruct A as [Vi Vo Fr Ap _ Ar].
  assert (Li : 0 <= ji_array inp < zlen (jv_arrays J)) by (destruct Vi as [_ _ _ _ (a & Ea & _)]; apply (znth_Some_range _ _ _ Ea)).
  assert (Lo : 0 <= ji_array out < zlen (jv_arrays J)) by (destruct Vo as [_ _ _ _ (a & Ea & _)]; apply (znth_Some_range _ _ _ Ea)).
  destruct storage as [s|].
  - destruct St as (Vs & N1 & N2 & Sh). assert (A3 : jargs JByte JByte J inp s) by (split; auto).
    destruct (reshape_ok _ _ _ _ _ A3) as (J1 & s1 & Er & A1 & Ew1 & Eh1 & Hs & _ & _ & _). exists J1, s1. unfold j_declare.
    destruct A1 as [Vi1 Vs1 Fr1 Ap1 _ _]. pose proof (reshape_array _ _ _ _ _ _ Er) as Ra.
    split; auto. split; auto. split; auto. split; [eapply jvalid_same; eauto|]. split; auto. split; [lia|]. split; [lia|]. split; auto. split; auto.
    split; auto. destruct Ra as [R|(R & _)]; [auto|right; lia].
  - do 2 eexists. split; [reflexivity|]. cbn [jv_held jv_arrays ji_array ji_width ji_height].
    assert (S : forall k l, 0 <= k < zlen (jv_arrays J) -> znth (jv_arrays J ++ l) k = znth (jv_arrays J) k)
      by (intros k l Hk; apply znth_app_l; lia).
    assert (Vi' := Vi). destruct Vi' as [(I1 & I2 & I3) I4 I5 I6 (b & Eb & Lb & Rb & Wb)].
    split; auto. split; [apply (jvalid_same _ J); cbn; auto|]. split; [apply (jvalid_same _ J); cbn; auto|]. split.
    { split; cbn; auto; try lia. exists (repeat 0 (Z.to_nat (ji_width inp * ji_height inp))).
      rewrite znth_app_r, Z.sub_diag, znth_cons_0 by lia. rewrite zlen_repeat, Z2Nat.id by lia. split; auto. split; [lia|]. split.
      - apply Forall_forall. intros x Hx. apply repeat_spec in Hx as ->. cbn; lia.
      - intros. lia. }
    split; [lia|]. split; [lia|]. split; auto. split; auto. split; auto. lia.
Qed.

Lemma scratch_ok pinned arrs st c (s' : gray Z) : jvalid JByte (mkJvm arrs []) st -> znth arrs (ji_array st) = Some c ->
  zlen (g_data s') = zlen c ->
  exists J', j_scratch pinned (mkJvm arrs [ji_array st]) st (g_data s') = Ok J' /\ jv_held J' = [] /\ jvalid JByte J' st /\
    forall a, a <> ji_array st -> znth (jv_arrays J') a = znth arrs a.
Proof.
  intros V Ec L. pose proof (znth_Some_range _ _ _ Ec) as Rc. unfold j_scratch, j_commit, j_abort. cbn [jv_held unhold jv_arrays]. rewrite Z.eqb_refl. cbn [bind].
  destruct pinned.
  - rewrite bset_in by auto. cbn [bind]. eexists. split; [reflexivity|]. cbn [jv_held jv_arrays]. split; auto. split.
    + destruct V as [H1 H2 H3 H4 (c' & E & Lc & Fc & Wc)]. cbn in E. rewrite Ec in E. injection E as <-. split; auto.
      exists (map (of_c JByte) (g_data s')). cbn. rewrite znth_upd, Z.eqb_refl, zlen_map, L by auto. split; auto. split; auto. split; auto.
      apply Forall_forall. intros x Hx. apply in_map_iff in Hx as (v & <- & _). apply (of_c_range JByte).
    + intros a N. rewrite znth_upd by auto. now replace (a =? ji_array st) with false by lia.
  - eexists. split; [reflexivity|]. cbn [jv_held jv_arrays]. auto.
Qed.

Lemma blur_some pinned (f : gray Z -> gray Z -> gray Z -> outcome (gray Z * gray Z))
    (R : gray Z -> (Z -> Z -> option Z) -> Prop) J inp out storage :
  jargs3 J inp out storage -> 0 < ji_width inp ->
  (forall g o s, shows JByte J inp g -> wf o -> g_sub o = true -> g_width o = g_width g -> g_height o = g_height g ->
     wf s -> g_sub s = true -> g_width s = g_width g -> g_height s = g_height g ->
     g_offset s + g_width s + g_height s * g_stride s <= 4294967296 ->
     exists o' s' F, f g o s = Ok (o', s') /\ R g F /\ holds g o o' F /\ same_layout s s' /\
       forall x y v, inside g x y -> F x y = Some v -> 0 <= v <= 255) ->
  exists J' out' storage' g F, java_blur pinned f J inp out storage = Ok (J', out', storage') /\ shows JByte J inp g /\ R g F /\
    jblurred J inp out storage J' out' storage' F.
Proof.
  intros A3 Wp Hf. pose proof (j3_images _ _ _ _ A3) as A.
  destruct (reshape_ok _ _ _ _ _ A) as (J1 & out1 & Er & A1 & Ew & Eh & Hs1 & Hz1 & Hp & Same).
  pose proof (reshape_array _ _ _ _ _ _ Er) as Ra1.
  assert (A31 : jargs3 J1 inp out1 storage).
  { split; auto. destruct A3 as [_ S]. destruct storage as [s|]; auto. destruct S as (V & N1 & N2 & Sh).
    split; [eapply jvalid_same; eauto|]. split; auto. split; auto. destruct Ra1 as [R1|(R1 & _)]; [lia|].
    destruct V as [_ _ _ _ (a & Ea & _)]. pose proof (znth_Some_range _ _ _ Ea). lia. }
  destruct (declare_ok J1 inp out1 storage A1 Ew Eh A31) as (J2 & st & Ed & Fr & Vi & Vo & Vs & N1 & N2 & Sw & Sh & Hs2 & Hst).
  destruct A1 as [Vi1 Vo1 _ Ap _ Ar].
  assert (Li : 0 <= ji_array inp < zlen (jv_arrays J1)) by (destruct Vi1 as [_ _ _ _ (q & Eq & _)]; apply (znth_Some_range _ _ _ Eq)).
  assert (Lo : 0 <= ji_array out1 < zlen (jv_arrays J1)) by (destruct Vo1 as [_ _ _ _ (q & Eq & _)]; apply (znth_Some_range _ _ _ Eq)).
  assert (Vi' := Vi). destruct Vi' as [_ _ _ _ (b & Eb & _)]. assert (Vo' := Vo). destruct Vo' as [_ _ _ _ (a & Ea & _)].
  assert (Vs' := Vs). destruct Vs' as [(Q1 & Q2 & Q3) Q4 Q5 Q6 (c & Ec & Lc & Fc & Wc)].
  destruct (wrap_get JByte J2 J2 inp b Fr eq_refl Vi Eb) as (i0 & W1 & G1).
  destruct (wrap_get JByte J2 (mkJvm (jv_arrays J2) (ji_array inp :: jv_held J2)) out1 a Fr eq_refl Vo Ea) as (o0 & W2 & G2).
  destruct (wrap_get JByte J2 (mkJvm (jv_arrays J2) (ji_array out1 :: ji_array inp :: jv_held J2)) st c Fr eq_refl Vs Ec) as (s0 & W3 & G3).
  assert (Si : shows JByte J inp (view JByte inp b)).
  { destruct (view_shows _ _ _ _ Vi Eb) as (S1 & S2 & S3 & S4). split; auto. split; auto. split; auto. intros x y. rewrite S4.
    rewrite <- Hp. apply jpixel_same. now apply Hs2. }
  destruct (Hf (view JByte inp b) (view JByte out1 a) (view JByte st c)) as (o' & s' & F & Ef & HR & (Hw & Hh & Hl & Hpx & Hout) & Ls & HF).
  { exact Si. }
  { eapply view_wf; eauto. } { reflexivity. } { cbn; lia. } { cbn; lia. }
  { eapply view_wf; eauto. } { reflexivity. } { cbn; lia. } { cbn; lia. }
  { cbn. destruct (Z.eq_dec (ji_height st) 0) as [E0|]; [rewrite E0; lia|].
    specialize (Wc ltac:(lia) ltac:(lia)). nia. }
  destruct (commit_effect JByte J2 (mkJvm (jv_arrays J2) [ji_array st; ji_array out1])
    (mkJvm (upd (jv_arrays J2) (Z.to_nat (ji_array out1)) (map (of_c JByte) (g_data o'))) []) inp out1 a o' F [ji_array st]) as [Ecm Ee]; auto.
  { cbn. replace (ji_array out1 =? ji_array st) with false by lia. now rewrite Z.eqb_refl. }
  cbn [jv_arrays] in Ecm.
  destruct (scratch_ok pinned (upd (jv_arrays J2) (Z.to_nat (ji_array out1)) (map (of_c JByte) (g_data o'))) st c s')
    as (J' & Es & Fr' & Vst & Oth).
  { destruct Vs as [V1 V2 V3 V4 (c' & Ec' & V5)]. split; auto. exists c'. split; auto. cbn. rewrite znth_upd by apply (znth_Some_range _ _ _ Ea).
    now replace (ji_array st =? ji_array out1) with false by lia. }
  { rewrite znth_upd by apply (znth_Some_range _ _ _ Ea). now replace (ji_array st =? ji_array out1) with false by lia. }
  { destruct Ls as (_ & _ & _ & _ & _ & ->). cbn. apply zlen_map. }
  destruct Ee as [E1 E2 E3 E4 E5 E6 _]. cbn [jv_arrays] in E4, E6.
  exists J', out1, st, (view JByte inp b), F. split; [|split; [exact Si|split; [exact HR|]]].
  { unfold java_blur. rewrite Er. cbn [bind]. rewrite Ed. cbn [bind]. unfold native_blur. rewrite W1. cbn [bind]. rewrite W2. cbn [bind].
    rewrite W3. cbn [bind]. rewrite G1. cbn [bind]. rewrite G2. cbn [bind jv_held]. rewrite G3. cbn [bind jv_held]. rewrite Ef. cbn [bind]. rewrite Fr.
    unfold j_abort. cbn [jv_held jv_arrays unhold]. replace (ji_array inp =? ji_array st) with false by lia.
    replace (ji_array inp =? ji_array out1) with false by lia. rewrite Z.eqb_refl. cbn [bind]. rewrite Ecm. cbn [bind]. rewrite Es. reflexivity. }
  split.
  - exact E1.
  - intros x y I. rewrite <- E2 by auto. apply jpixel_same. cbn [jv_arrays]. apply Oth. auto.
  - exact Fr'.
  - intros k K1 K2 K3. rewrite Oth by auto. rewrite E4; auto; [|pose proof (zlen_nonneg (jv_arrays J2))].
    + rewrite Hs2 by lia. apply Hs1. auto.
    + destruct (znth_in_range (jv_arrays J1) k) as [q Eq]; [lia|]. rewrite <- Hs2 in Eq by lia. apply znth_Some_range in Eq. lia.
  - split; [|auto]. destruct E5 as [V1 V2 V3 V4 (c' & Ec' & V5)]. split; auto. exists c'. split; auto. cbn in Ec'. rewrite Oth; auto.
  - destruct storage; lia.
  - intros S1 S2. destruct (Same S1 S2) as [-> ->]. split; auto. destruct (E6 Ew Eh) as (_ & q & q' & Q1' & Q2' & Q3' & Q4').
    exists q, q'. split; [rewrite <- Hs2; auto|]. split; [rewrite Oth; auto|]. split; auto.
  - lia.
Qed.

Lemma blurred_ext J inp out storage J' out' st F F' : (forall x y, jinside inp x y -> F x y = F' x y) ->
  jblurred J inp out storage J' out' st F -> jblurred J inp out storage J' out' st F'.
Proof. intros E [H1 H2 H3 H4 H5 H6 H7 H8]. split; auto. intros x y I. rewrite <- E; auto. Qed.

Lemma shows_same t J im g g' : shows t J im g -> shows t J im g' ->
  g_width g = g_width g' /\ g_height g = g_height g' /\ forall x y, pixel g x y = pixel g' x y.
Proof. intros (_ & A1 & A2 & A3) (_ & B1 & B2 & B3). split; [congruence|]. split; [congruence|]. intros. now rewrite A3, B3. Qed.
Lemma mean_box_same g g' r x y : g_height g = g_height g' -> (forall x y, pixel g x y = pixel g' x y) -> mean_box g r x y = mean_box g' r x y.
Proof.
  intros E P. unfold mean_box. f_equal. apply present_ext. intros j _. rewrite E. destruct (_ && _); auto. f_equal. unfold mean_row. f_equal.
  apply present_ext. intros i _. apply P.
Qed.
Lemma two_pass_same ks off g g' x y : g_height g = g_height g' -> (forall x y, pixel g x y = pixel g' x y) ->
  two_pass ks off g x y = two_pass ks off g' x y.
Proof.
  intros E P. unfold two_pass. f_equal. apply zcovered_ext. intros j _. cbn zeta. rewrite E. destruct (_ && _); auto. do 2 f_equal.
  apply zcovered_ext. intros i _. apply P.
Qed.

(** ** Mean *)
Lemma java_mean_ok pinned r J inp out storage g : jargs3 J inp out storage -> shows JByte J inp g ->
  0 < ji_width inp <= 1073741824 -> 0 < ji_height inp <= 1073741824 ->
  0 < r -> (2 * r + 1) * 256 <= 2147483647 -> ji_width inp < 2 * r + 1 \/ 2 * r + 1 <= ji_height inp ->
  exists J' out' storage', java_mean pinned r J inp out storage = Ok (J', out', storage') /\
    jblurred J inp out storage J' out' storage' (fun x y => Some (mean_box g r x y)).
Proof.
  intros A Sg Hw Hh Hr Hs Hc. pose proof (j3_images _ _ _ _ A) as A0. pose proof (ja_in _ _ _ _ _ A0) as Vi.
  destruct (blur_some pinned (blur_mean (int_narith U8) (int_marith U8) 0 1 (u32 r)) (fun g F => F = fun x y => Some (mean_box g r x y)) J inp out storage A)
    as (J' & out' & st & g' & F & E & S' & -> & B); [lia| |].
  - intros g0 o s S0 Wo So Ow Oh Ws Ss Sw Sh Rm. assert (S1 := S0). destruct S1 as (W0 & G1 & G2 & _).
    destruct (blur_mean_ok U8 r 255 g0 o s) as (o1 & o' & s1 & s' & E1 & E2 & E3 & H1 & H2); auto; try lia.
    { intros x y v P. pose proof (shows_range J inp g0 Vi S0 x y v P). cbn. lia. }
    rewrite same_size in E1, E2 by auto. injection E1 as <-. injection E2 as <-. rewrite u32_id by lia.
    exists o', s', (fun x y => Some (mean_box g0 r x y)). split; auto. split; auto. split; auto. split; [apply H2|].
    intros x y v I [= <-]. apply mean_box_in; auto; try lia. intros i j u _ _ P. apply (shows_range J inp g0 Vi S0 i j u P).
  - exists J', out', st. split; auto. eapply blurred_ext; [|exact B]. intros x y _. cbv beta. f_equal.
    destruct (shows_same _ _ _ _ _ S' Sg) as (_ & Q2 & Q3). now apply mean_box_same.
Qed.

(** ** Gaussian *)
Lemma java_gaussian_ok pinned sigma r s w J inp out storage g : jargs3 J inp out storage -> shows JByte J inp g ->
  0 < ji_width inp <= 1073741824 -> 0 < ji_height inp <= 1073741824 ->
  r < 1073741824 -> chosen sigma (if 0 <? r then 2 * r + 1 else -1) s w -> 100 * w * 256 <= 2147483647 ->
  exists J' out' storage', java_gaussian reals exp real_ceil pinned sigma r J inp out storage = Ok (J', out', storage') /\
    jblurred J inp out storage J' out' storage' (fun x y => Some (two_pass (table w (gauss_int s w)) (w / 2) g x y)).
Proof.
  intros A Sg Hw Hh Hr Hc Hs. pose proof (j3_images _ _ _ _ A) as A0. pose proof (ja_in _ _ _ _ _ A0) as Vi. unfold java_gaussian.
  destruct (blur_some pinned (fun i o s =>
    let* width := if 0 <? r then let* d := arith_result S32 (2 * r) in arith_result S32 (d + 1) else Ok (-1) in
    gaussian_blur reals exp real_ceil U8 sigma width i o s) (fun g F => F = fun x y => Some (two_pass (table w (gauss_int s w)) (w / 2) g x y)) J inp out storage A)
    as (J' & out' & st & g' & F & E & S' & -> & B); [lia| |].
  - intros g0 o s0 S0 Wo So Ow Oh Ws Ss Sw Sh Rm. assert (S1 := S0). destruct S1 as (W0 & G1 & G2 & _).
    destruct (gaussian_blur_range U8 sigma (if 0 <? r then 2 * r + 1 else -1) s w g0 o s0 0 255) as (o1 & o' & s1 & s' & E1 & E2 & E3 & H1 & H2 & _ & H3); auto; try (cbn; lia).
    { intros x y v P. pose proof (shows_range J inp g0 Vi S0 x y v P). lia. }
    rewrite same_size in E1, E2 by auto. injection E1 as <-. injection E2 as <-.
    exists o', s', (fun x y => Some (two_pass (table w (gauss_int s w)) (w / 2) g0 x y)). split.
    { destruct (Z.ltb_spec 0 r) as [L|L]; [|exact E3]. rewrite arith_result_in by (cbn; lia). cbn [bind]. rewrite arith_result_in by (cbn; lia). exact E3. }
    split; auto. split; auto. split; auto.
    intros x y v I Ev. apply (H3 x y). rewrite <- Ev. now apply H1.
  - exists J', out', st. split; auto. eapply blurred_ext; [|exact B]. intros x y _. cbv beta. f_equal.
    destruct (shows_same _ _ _ _ _ S' Sg) as (_ & Q2 & Q3). now apply two_pass_same.
Qed.

(** ** Normalized convolution *)
Lemma normalized_call conv J k inp out F : jargs JByte JByte J inp out -> ji_width out = ji_width inp -> ji_height out = ji_height inp ->
  jkernel1_ok k ->
  (forall g o, shows JByte J inp g -> wf o -> g_sub o = true -> g_width o = g_width g -> g_height o = g_height g ->
     exists o', conv (mkKernel (jk_width k) (jk_offset k) (jk_data k)) g o = Ok o' /\ holds g o o' F) ->
  (forall x y v, jinside inp x y -> F x y = Some v -> 0 <= v <= 255) ->
  exists J', java_normalized conv J k inp out = Ok J' /\ jeffect JByte J inp out J' out F.
Proof.
  intros [Vi Vo Fr Ap _ Ar] Ew Eh Hk Hf HF.
  assert (Vi' := Vi). destruct Vi' as [_ _ _ _ (b & Eb & _)]. assert (Vo' := Vo). destruct Vo' as [_ _ _ _ (a & Ea & _)].
  destruct (wrap_get JByte J (mkJvm (jv_arrays J) (ji_array inp :: jv_held J)) out a Fr eq_refl Vo Ea) as (o0 & W1 & G1).
  destruct (wrap_get JByte J J inp b Fr eq_refl Vi Eb) as (i0 & W2 & G2).
  pose proof (view_shows _ _ _ _ Vi Eb) as Si.
  destruct (Hf (view JByte inp b) (view JByte out a)) as (o' & Ef & Hw & Hh & Hl & Hpx & Hout).
  { exact Si. } { eapply view_wf; eauto. } { reflexivity. } { cbn; lia. } { cbn; lia. }
  unfold java_normalized. rewrite W2. cbn [bind]. rewrite W1. cbn [bind]. rewrite kernel1_extract by auto. cbn [bind]. rewrite G2. cbn [bind].
  rewrite G1. cbn [bind]. rewrite Ef. cbn [bind]. rewrite Fr. unfold j_abort. cbn [jv_held jv_arrays unhold].
  replace (ji_array inp =? ji_array out) with false by lia. rewrite Z.eqb_refl. cbn [bind].
  destruct (commit_effect JByte J (mkJvm (jv_arrays J) [ji_array out])
    (mkJvm (upd (jv_arrays J) (Z.to_nat (ji_array out)) (map (of_c JByte) (g_data o'))) []) inp out a o' F []) as [Ec Ee]; auto.
  { cbn. now rewrite Z.eqb_refl. }
  rewrite Ec. cbn [uncaught]. eauto.
Qed.

Section Norm.
  Context (J : jvm) (k : jkernel) (inp out : jimage).
  Context (A : jargs JByte JByte J inp out) (Ew : ji_width out = ji_width inp) (Eh : ji_height out = ji_height inp) (Hk : jkernel1_ok k).
  Context (Hw : 0 < ji_width inp <= 1073741824) (Hh : 0 < ji_height inp <= 1073741824) (Hs : zabs_sum (jk_data k) * 256 <= 2147483647).

  Lemma java_normalized_h_ok :
    (forall x y, jinside inp x y -> snd (zcovered (jk_data k) (fun i => jpixel JByte J inp (x - jk_offset k + i) y) 0) <> 0) ->
    exists J', java_normalized_h J k inp out = Ok J' /\
      jeffect JByte J inp out J' out (fun x y =>
        Some (cast U8 (rounded (zcovered (jk_data k) (fun i => jpixel JByte J inp (x - jk_offset k + i) y) 0)))).
  Proof.
    intros Hc. pose proof (ja_in _ _ _ _ _ A) as V. unfold java_normalized_h. apply normalized_call; auto.
    - intros g o S Wo So Ow Oh. assert (S' := S). destruct S' as (W & Gw & Gh & P).
      assert (X : forall x y, zcovered (jk_data k) (fun i => pixel g (x - jk_offset k + i) y) 0 =
        zcovered (jk_data k) (fun i => jpixel JByte J inp (x - jk_offset k + i) y) 0) by (intros; apply zcovered_ext; intros; apply P).
      destruct (normalized_h_int U8 (mkKernel (jk_width k) (jk_offset k) (jk_data k)) g o 255) as (o' & E & H); auto; try lia; try (cbn; lia).
      + intros x y v Pv. pose proof (shows_range J inp g V S x y v Pv). lia.
      + intros x y [I1 I2]. cbn. rewrite X. apply Hc. split; lia.
      + exists o'. split; auto. destruct H as (H1 & H2 & H3 & H4 & H5). split; auto. split; auto. split; auto. split; auto.
        intros x y I. rewrite H4 by auto. cbn [k_data k_offset]. now rewrite X.
    - intros x y v _ [= <-]. apply (cast_range U8).
  Qed.

  Lemma java_normalized_v_ok :
    (ji_height inp <= jk_width k -> forall c, In c (jk_data k) -> 0 <= c <= 255) ->
    (forall x y, jinside inp x y -> snd (zcovered (jk_data k) (fun i => jpixel JByte J inp x (y - jk_offset k + i)) 0) <> 0) ->
    exists J', java_normalized_v J k inp out = Ok J' /\
      jeffect JByte J inp out J' out (fun x y =>
        Some (cast U8 (rounded (zcovered (jk_data k) (fun i => jpixel JByte J inp x (y - jk_offset k + i)) 0)))).
  Proof.
    intros Hn Hc. pose proof (ja_in _ _ _ _ _ A) as V. unfold java_normalized_v. apply normalized_call; auto.
    - intros g o S Wo So Ow Oh. assert (S' := S). destruct S' as (W & Gw & Gh & P).
      assert (X : forall x y, zcovered (jk_data k) (fun i => pixel g x (y - jk_offset k + i)) 0 =
        zcovered (jk_data k) (fun i => jpixel JByte J inp x (y - jk_offset k + i)) 0) by (intros; apply zcovered_ext; intros; apply P).
      destruct (normalized_v_int U8 (mkKernel (jk_width k) (jk_offset k) (jk_data k)) g o 255) as (o' & E & H); auto; try lia; try (cbn; lia).
      + intros x y v Pv. pose proof (shows_range J inp g V S x y v Pv). lia.
      + intros x y [I1 I2]. cbn. rewrite X. apply Hc. split; lia.
      + exists o'. split; auto. destruct H as (H1 & H2 & H3 & H4 & H5). split; auto. split; auto. split; auto. split; auto.
        intros x y I. rewrite H4 by auto. cbn [k_data k_offset]. now rewrite X.
    - intros x y v _ [= <-]. apply (cast_range U8).
  Qed.
End Norm.

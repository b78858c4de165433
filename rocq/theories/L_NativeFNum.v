(** What the calls from Java on images of floats compute. *)
From Coq Require Import Reals Lra Floats.SpecFloat.
From Flocq Require Import Core BinarySingleNaN.
From Verif Require Import BaseFacts M_Image S_Image L_Image M_Border S_Border L_Border M_Convolve S_Convolve M_Normalized M_Blur M_Binary
  M_Float S_Ieee L_Ieee S_FConv L_FConv S_FNorm S_FBlur S_FLocal L_FNorm L_FBlur L_FLocal L_FKernel M_Otsu M_Config M_Local
  M_Kernel M_Native S_Native L_Native M_NativeF S_NativeF L_NativeF.
Open Scope Z_scope.

Lemma St32 : standard F32. Proof. now left. Qed.
Lemma W32 : wfty F32. Proof. exact (standard_wfty F32 St32). Qed.

(** ** A double as a float *)
Lemma to_single_fin x : finite F64 x -> (Rabs (rnd F32 (val x)) < huge F32)%R -> finite F32 (to_single x) /\ val (to_single x) = rnd F32 (val x).
Proof.
  intros F H. destruct x as [s|s| |s m e]; try (now destruct F).
  - split; [split; reflexivity|]. cbn. symmetry. apply rnd_0.
  - unfold to_single. rewrite round_equiv.
    pose proof (binary_round_correct (f_prec F32) (f_emax F32) eq_refl eq_refl mode_NE s m e) as C. cbv zeta in C.
    assert (E : F2R (Float radix2 (cond_Zopp s (Zpos m)) e) = val (S754_finite s m e)) by reflexivity.
    rewrite E in C. rewrite Rlt_bool_true in C by exact H. destruct C as (C1 & C2 & C3 & _). split; [split; auto|exact C2].
Qed.

Lemma largest_fin : finite F32 largest. Proof. split; reflexivity. Qed.
Lemma in_range x : (Rabs (val x) <= val largest)%R -> (Rabs (rnd F32 (val x)) < huge F32)%R.
Proof.
  intros H. apply Rle_lt_trans with (val largest).
  - rewrite (rnd_abs F32 W32). rewrite <- (rnd_id F32 (val largest)) by (apply (finite_fmt F32); apply largest_fin). now apply (rnd_le F32 W32).
  - eapply Rle_lt_trans; [apply Rle_abs|]. apply (finite_lt F32). apply largest_fin.
Qed.
Lemma narrow_ok x : finite F64 x -> (Rabs (val x) <= val largest)%R ->
  finite F32 (to_single x) /\ forall y, finite F32 y -> (Rabs (val (to_single x) - val x) <= Rabs (val y - val x))%R.
Proof.
  intros F H. destruct (to_single_fin x F (in_range x H)) as [F' E]. split; auto. intros y Fy. rewrite E. apply (rnd_nearest F32 St32). now apply (finite_fmt F32).
Qed.
Lemma narrow_side x v : finite F64 x -> (Rabs (val x) <= val largest)%R -> finite F32 v -> val v <> val (to_single x) ->
  (val v <= val (to_single x) <-> val v <= val x)%R.
Proof.
  intros F H Fv N. destruct (to_single_fin x F (in_range x H)) as [F' E]. rewrite E in *.
  assert (R : rnd F32 (val v) = val v) by (apply (rnd_id F32); now apply (finite_fmt F32)). split; intros L.
  - destruct (Rle_or_lt (val v) (val x)); auto. pose proof (rnd_le F32 W32 (val x) (val v) ltac:(lra)). lra.
  - pose proof (rnd_le F32 W32 (val v) (val x) L). lra.
Qed.

Lemma f_fixed_double x down V inp out : fbargs V inp out -> finite F64 x -> (Rabs (val x) <= val largest)%R -> forall after, exists V' out' F,
  f_java_filter f_fixed_process after (f_fixed_new x down) V inp out = Ok (f_fixed_new x down, V', out') /\ fbeffect V inp out V' out' F /\
  forall i j v, jinside inp i j -> fpixel V inp i j = Some v -> finite F32 v -> exists b, F i j = Some b /\ (b = 0 \/ b = 1) /\
    (val v <> val (to_single x) -> (b = 1 <-> if down then (val v <= val x)%R else (val x < val v)%R)) /\
    (val v = val (to_single x) -> b = if down then 1 else 0).
Proof.
  intros A F H after. destruct (f_fixed_call (to_single x) down V inp out A after) as (V' & out' & E & Ee).
  destruct (to_single_fin x F (in_range x H)) as [F' E'].
  exists V', out'. eexists. split; [exact E|]. split; [exact Ee|]. intros i j v I Pv Fv. cbv beta. rewrite Pv. eexists. split; [reflexivity|].
  split; [destruct (if down then _ else _); auto|].
  pose proof (narrow_side x v F H Fv) as Ns.
  assert (Q : (if down then SFleb v (to_single x) else SFltb (to_single x) v) = true <->
    if down then (val v <= val (to_single x))%R else (val (to_single x) < val v)%R).
  { destruct down; [apply (L_FLocal.leb_val F32)|apply (L_FLocal.ltb_val F32)]; auto. }
  split.
  - intros N. specialize (Ns N). destruct (if down then SFleb _ _ else _) eqn:B.
    + split; auto. intros _. destruct down; destruct Q as [Q _]; specialize (Q eq_refl); [tauto|]. apply Rnot_le_lt. intros L. apply Ns in L. lra.
    + split; [discriminate|]. intros L. exfalso. cut (false = true); [discriminate|]. apply Q. destruct down; [tauto|]. apply Rnot_le_lt. intros L'. apply Ns in L'. lra.
  - intros Eq. rewrite Eq in Q. destruct down; [destruct (SFleb v (to_single x))|destruct (SFltb (to_single x) v)]; auto.
    + destruct Q as [_ Q]. specialize (Q ltac:(lra)). discriminate.
    + destruct Q as [Q _]. specialize (Q eq_refl). lra.
Qed.

Lemma fbounded_of V im g M : fbounded V im M -> fshows V im g -> bounded_numbers F32 g M.
Proof. intros B (_ & _ & _ & P) x y p _ E. apply (B x y). now rewrite <- P. Qed.

(** ** Local means *)
Lemma f_local_call D (O : dops D) (width : clen D) down scale n r M V inp out s after :
  fbargs V inp out -> clen_computeI O width (d_of O (Z.min (ji_width inp) (ji_height inp))) = Ok n -> r = n / 2 -> 0 < r -> 2 * r + 1 <= 1073741824 ->
  f_storage_ok s -> zlen (g_data (snd s)) < 2147483648 ->
  0 < ji_width inp <= 1073741824 -> 0 < ji_height inp <= 1073741824 ->
  ji_width inp < 2 * r + 1 \/ 2 * r + 1 <= ji_height inp ->
  finite F32 (to_single scale) -> fbounded V inp M -> safe_line F32 r M (ji_width inp) ->
  safe_line F32 r (M + longest_error F32 r M (ji_width inp)) (ji_height inp) ->
  (forall g, fshows V inp g -> 2 * (Rabs (val (to_single scale)) * (M + blur_error F32 r M g)) + 1 < huge F32)%R ->
  exists s' V' out' g F, f_java_filter (f_local_process O (float_lcmp F32 (to_single scale)) width down) after s V inp out = Ok (s', V', out') /\
    fbeffect V inp out V' out' F /\ fshows V inp g /\ f_storage_ok s' /\
    forall x y, jinside inp x y -> exists v b, fpixel V inp x y = Some v /\ F x y = Some b /\ (b = 0 \/ b = 1) /\
      let m := average (square g r x y) in let c := val (to_single scale) in
      (tipping F32 down c (val v) m (blur_error F32 r M g) < clearance down c (val v) m)%R -> (b = 1 <-> is_set down c (val v) m).
Proof.
  intros A En Er Hr Hr2 (S1 & S2 & S3 & S4) Sz Hw Hh Hv Fs Bn L1 L2 Ov.
  pose proof (fb_shape _ _ _ A) as [_ Ar].
  destruct (f_filter_some (f_local_process O (float_lcmp F32 (to_single scale)) width down) after s
    (fun g s' F => f_storage_ok s' /\ forall x y, inside g x y -> exists v b, pixel g x y = Some v /\ F x y = Some b /\ (b = 0 \/ b = 1) /\
      let m := average (square g r x y) in let c := val (to_single scale) in
      (tipping F32 down c (val v) m (blur_error F32 r M g) < clearance down c (val v) m)%R -> (b = 1 <-> is_set down c (val v) m))
    V inp out A) as (s' & V' & out' & g & F & E & Sg & (Q1 & Q2) & Ee).
  - intros g o Sg Lg Wo Sb Ew Eh. assert (Sg' := Sg). destruct Sg' as (Wg & G1 & G2 & G3).
    destruct (@local_mean_float F32 St32 D O width down (to_single scale) n r M g o (fst s) (snd s)) as (o1 & o' & s1' & s2' & E1 & E2 & H1 & H2 & H3 & H4 & H5 & H6 & H7 & H8 & H9);
      rewrite ?G1, ?G2; auto; try lia; try nia.
    { eapply fbounded_of; eauto. }
    unfold f_local_process. rewrite E2. cbn [bind]. rewrite (sized 0 o _ _ Ew Eh) in E1. injection E1 as <-.
    exists (s1', s2'), o', (pixel o'). split; [reflexivity|]. split; [split; [exact (conj H6 (conj H7 (conj H8 H9)))|]|].
    + intros x y I. destruct (H5 x y I) as (v & b & P1 & P2 & P3 & P4). exists v, b. auto.
    + split; [split; [auto|split; [auto|split; [auto|split; auto]]]|].
      intros x y v I Pv. destruct (H5 x y I) as (v' & b & _ & P2 & P3 & _). rewrite P2 in Pv. injection Pv as <-. lia.
  - exists s', V', out', g, F. split; [exact E|]. split; [exact Ee|]. split; [exact Sg|]. split; [exact Q1|].
    intros x y I. destruct Sg as (_ & G1 & G2 & G3). rewrite <- G3. apply Q2. destruct I. split; lia.
Qed.
Lemma f_local_double : forall length fraction scale down n r M V inp out s after,
  let '(width, L, fresh) := f_local_new length fraction scale in f_storage_ok fresh /\ (
  fbargs V inp out -> clen_computeI double (mkClen length fraction) (d_of double (Z.min (ji_width inp) (ji_height inp))) = Ok n ->
  r = n / 2 -> 0 < r -> 2 * r + 1 <= 1073741824 ->
  f_storage_ok s -> zlen (g_data (snd s)) < 2147483648 ->
  0 < ji_width inp <= 1073741824 -> 0 < ji_height inp <= 1073741824 ->
  ji_width inp < 2 * r + 1 \/ 2 * r + 1 <= ji_height inp ->
  finite F32 (to_single scale) -> fbounded V inp M -> safe_line F32 r M (ji_width inp) ->
  safe_line F32 r (M + longest_error F32 r M (ji_width inp)) (ji_height inp) ->
  (forall g, fshows V inp g -> 2 * (Rabs (val (to_single scale)) * (M + blur_error F32 r M g)) + 1 < huge F32)%R ->
  exists s' V' out' g F, f_java_filter (f_local_process double L width down) after s V inp out = Ok (s', V', out') /\
    fbeffect V inp out V' out' F /\ fshows V inp g /\ f_storage_ok s' /\
    forall x y, jinside inp x y -> exists v b, fpixel V inp x y = Some v /\ F x y = Some b /\ (b = 0 \/ b = 1) /\
      let m := average (square g r x y) in let c := val (to_single scale) in
      (tipping F32 down c (val v) m (blur_error F32 r M g) < clearance down c (val v) m)%R -> (b = 1 <-> is_set down c (val v) m)).
Proof.
  intros length fraction scale down n r M V inp out s after. cbv beta iota zeta delta [f_local_new].
  split; [repeat split; try (apply wf_new; lia)|]. apply f_local_call.
Qed.

(** ** Convolution *)
Lemma ieee_sum_ext f ks p q : (forall i, p i = q i) -> forall s i, ieee_sum f s ks p i = ieee_sum f s ks q i.
Proof. intros E. induction ks as [|c ks IH]; cbn; auto. intros s i. rewrite E. destruct (q i); auto. Qed.

Section Conv.
Variables (V : fvm) (k : fkernel) (bd : fborder) (inp out : jimage).
Hypotheses (A : fargs V inp out) (Hb : f_passed_on bd) (Hw : ji_width inp <= 1073741824) (Hh : ji_height inp <= 1073741824).
Let K := mkKernel (fk_width k) (fk_offset k) (fk_data k).

Lemma f_horizontal_call : fkernel1_ok k -> f_line_fits bd (ji_width inp) k ->
  exists V' out', f_java_horizontal 32 32 V k inp out bd = Ok (V', out') /\ feffect V inp out V' out' (fun x y =>
    ieee_sum F32 (S754_zero false) (fk_data k) (fun i => fsample bd V inp (x - fk_offset k + i) y) 0).
Proof.
  intros Hk Hf. apply (f_convolve_call f_kernel1 _ V k K); auto. { intros; now apply f_kernel1_extract. }
  intros g o Sg Wo _ Ew Eh. assert (Sg' := Sg). destruct Sg' as (Wg & G1 & G2 & G3).
  destruct (bits_all F32 K (f_border_of bd) g o Wg Wo ltac:(lia) ltac:(lia) (or_intror (conj Ew Eh))) as (H & _ & _).
  destruct H as (o1 & o' & E1 & E2 & H); [destruct Hk as (? & ? & ?); unfold kernel1_ok; cbn; lia|rewrite G1; now apply f_fits_of|].
  rewrite (sized _ o _ _ Ew Eh) in E1. injection E1 as <-. exists o'. split; [exact E2|].
  destruct H as (H1 & H2 & H3 & H4 & H5). split; [auto|split; [auto|split; [auto|split; auto]]].
  intros x y I. rewrite H4 by auto. apply ieee_sum_ext. intros i. now apply fsample_extended.
Qed.
Lemma f_vertical_call : fkernel1_ok k -> f_line_fits bd (ji_height inp) k ->
  exists V' out', f_java_vertical 32 32 V k inp out bd = Ok (V', out') /\ feffect V inp out V' out' (fun x y =>
    ieee_sum F32 (S754_zero false) (fk_data k) (fun i => fsample bd V inp x (y - fk_offset k + i)) 0).
Proof.
  intros Hk Hf. apply (f_convolve_call f_kernel1 _ V k K); auto. { intros; now apply f_kernel1_extract. }
  intros g o Sg Wo _ Ew Eh. assert (Sg' := Sg). destruct Sg' as (Wg & G1 & G2 & G3).
  destruct (bits_all F32 K (f_border_of bd) g o Wg Wo ltac:(lia) ltac:(lia) (or_intror (conj Ew Eh))) as (_ & H & _).
  destruct H as (o1 & o' & E1 & E2 & H); [destruct Hk as (? & ? & ?); unfold kernel1_ok; cbn; lia|rewrite G2; now apply f_fits_of|].
  rewrite (sized _ o _ _ Ew Eh) in E1. injection E1 as <-. exists o'. split; [exact E2|].
  destruct H as (H1 & H2 & H3 & H4 & H5). split; [auto|split; [auto|split; [auto|split; auto]]].
  intros x y I. rewrite H4 by auto. apply ieee_sum_ext. intros i. now apply fsample_extended.
Qed.
Lemma f_convolve2_call : fkernel2_ok k -> f_line_fits bd (ji_width inp) k -> f_line_fits bd (ji_height inp) k ->
  exists V' out', f_java_convolve2 32 32 V k inp out bd = Ok (V', out') /\ feffect V inp out V' out' (fun x y =>
    ieee_sum F32 (S754_zero false) (fk_data k) (fun i =>
      fsample bd V inp (x - fk_offset k + i mod fk_width k) (y - fk_offset k + i / fk_width k)) 0).
Proof.
  intros Hk Hf Hf'. apply (f_convolve_call f_kernel2 _ V k K); auto. { intros; now apply f_kernel2_extract. }
  intros g o Sg Wo _ Ew Eh. assert (Sg' := Sg). destruct Sg' as (Wg & G1 & G2 & G3).
  destruct (bits_all F32 K (f_border_of bd) g o Wg Wo ltac:(lia) ltac:(lia) (or_intror (conj Ew Eh))) as (_ & _ & H).
  destruct H as (o1 & o' & E1 & E2 & H); [destruct Hk as (? & ? & ?); unfold kernel2_ok; cbn; lia|rewrite G1; now apply f_fits_of|rewrite G2; now apply f_fits_of|].
  rewrite (sized _ o _ _ Ew Eh) in E1. injection E1 as <-. exists o'. split; [exact E2|].
  destruct H as (H1 & H2 & H3 & H4 & H5). split; [auto|split; [auto|split; [auto|split; auto]]].
  intros x y I. rewrite H4 by auto. apply ieee_sum_ext. intros i. now apply fsample_extended.
Qed.
End Conv.

(** ** Normalized convolution *)
Section Norm.
Variables (V : fvm) (k : fkernel) (inp out : jimage) (M : R).
Hypotheses (A : fargs V inp out) (Ew : ji_width out = ji_width inp) (Eh : ji_height out = ji_height inp) (Hk : fkernel1_ok k)
  (Hw : 0 < ji_width inp <= 1073741824) (Hh : 0 < ji_height inp <= 1073741824)
  (Nk : nonneg_numbers F32 (fk_data k)) (Bn : fbounded V inp M) (Fw : few F32 (length (fk_data k))).
Let K := mkKernel (fk_width k) (fk_offset k) (fk_data k).
Let K_ok : kernel1_ok K. Proof. destruct Hk as (? & ? & ?). unfold kernel1_ok; cbn. lia. Qed.

Lemma near_of g o o' D e : approximates F32 g o o' D e -> holds g o o' (pixel o').
Proof. intros (H1 & H2 & (H3 & H4) & _). split; [auto|split; [auto|split; [auto|split; auto]]]. Qed.
Lemma fnear_of g D e F : fshows V inp g ->
  (forall x y, inside g x y -> exists v, F x y = Some v /\ finite F32 v /\ (Rabs (val v - D x y) <= e x y)%R) -> fnear inp F D e.
Proof. intros (_ & G1 & G2 & _) H x y [I1 I2]. apply H. split; lia. Qed.

Lemma f_norm_h_call :
  (forall x, 0 <= x < ji_width inp -> safe_mean F32 (length (fk_data k)) M (line_weight K (ji_width inp) x)) ->
  exists V' g F, f_java_normalized_h V k inp out = Ok V' /\ feffect V inp out V' out F /\ fshows V inp g /\
    fnear inp F (row_mean K g) (fun x _ => mean_error F32 (length (fk_data k)) M (line_weight K (ji_width inp) x)).
Proof.
  intros Sm. destruct (f_normalized_some (normalized_h (float_narith F32)) V k inp out (fun g F => fnear inp F (row_mean K g)
    (fun x _ => mean_error F32 (length (fk_data k)) M (line_weight K (ji_width inp) x))) A Ew Eh Hk) as (V' & g & F & E & Sg & R & Ee).
  - intros g o Sg Lg Wo _ Dw Dh. assert (Sg' := Sg). destruct Sg' as (Wg & G1 & G2 & G3).
    destruct (fnorm_h F32 St32 K g o M) as (o' & E & Ap); auto; try lia. { eapply fbounded_of; eauto. } { rewrite G1. exact Sm. }
    exists o', (pixel o'). split; [exact E|]. split; [|eapply near_of; eauto]. apply (fnear_of g); auto. destruct Ap as (_ & _ & _ & H).
    rewrite G1 in H. exact H.
  - exists V', g, F. auto.
Qed.
Lemma f_norm_v_call :
  (forall y, 0 <= y < ji_height inp -> safe_mean F32 (length (fk_data k)) M (line_weight K (ji_height inp) y)) ->
  exists V' g F, f_java_normalized_v V k inp out = Ok V' /\ feffect V inp out V' out F /\ fshows V inp g /\
    fnear inp F (col_mean K g) (fun _ y => mean_error F32 (length (fk_data k)) M (line_weight K (ji_height inp) y)).
Proof.
  intros Sm. destruct (f_normalized_some (normalized_v (float_narith F32)) V k inp out (fun g F => fnear inp F (col_mean K g)
    (fun _ y => mean_error F32 (length (fk_data k)) M (line_weight K (ji_height inp) y))) A Ew Eh Hk) as (V' & g & F & E & Sg & R & Ee).
  - intros g o Sg Lg Wo _ Dw Dh. assert (Sg' := Sg). destruct Sg' as (Wg & G1 & G2 & G3).
    destruct (fnorm_v F32 St32 K g o M) as (o' & E & Ap); auto; try lia. { eapply fbounded_of; eauto. } { rewrite G2. exact Sm. }
    exists o', (pixel o'). split; [exact E|]. split; [|eapply near_of; eauto]. apply (fnear_of g); auto. destruct Ap as (_ & _ & _ & H).
    rewrite G2 in H. exact H.
  - exists V', g, F. auto.
Qed.
End Norm.

(** ** Blur *)
Lemma f_mean_call pinned r M V inp out storage :
  fargs3 V inp out storage -> 0 < r -> 2 * r + 1 <= 1073741824 ->
  0 < ji_width inp <= 1073741824 -> 0 < ji_height inp <= 1073741824 ->
  ji_width inp < 2 * r + 1 \/ 2 * r + 1 <= ji_height inp ->
  fbounded V inp M -> safe_line F32 r M (ji_width inp) ->
  safe_line F32 r (M + longest_error F32 r M (ji_width inp)) (ji_height inp) ->
  exists V' out' storage' g F, f_java_mean pinned r V inp out storage = Ok (V', out', storage') /\
    fblurred V inp out storage V' out' storage' F /\ fshows V inp g /\
    fnear inp F (fun x y => average (square g r x y)) (fun _ _ => blur_error F32 r M g).
Proof.
  intros A Hr Hr2 Hw Hh Hv Bn L1 L2.
  destruct (f_blur_some pinned (blur_mean (float_narith F32) (float_marith F32) (S754_zero false) (mean_coefficient F32 (u32 (u32 r * 2 + 1))) (u32 r))
    (fun g F => fnear inp F (fun x y => average (square g r x y)) (fun _ _ => blur_error F32 r M g)) V inp out storage A ltac:(lia))
    as (V' & out' & st' & g & F & E & Sg & R & Ee).
  - intros g o s Sg Lg Wo _ Ow Oh Ws _ Sw Sh Ls Lt. assert (Sg' := Sg). destruct Sg' as (Wg & G1 & G2 & G3).
    rewrite (u32_id r) by lia. replace (u32 (r * 2 + 1)) with (2 * r + 1) by (rewrite u32_id; lia).
    destruct (blur_mean_float F32 St32 r M g o s) as (o1 & w1 & o' & s' & E1 & E2 & E3 & (Lv & _) & Ap); rewrite ?G1, ?G2; auto; try lia.
    { eapply fbounded_of; eauto. }
    rewrite (sized _ o _ _ Ow Oh) in E1. injection E1 as <-. rewrite (sized _ s _ _ Sw Sh) in E2. injection E2 as <-.
    exists o', s', (pixel o'). split; [exact E3|]. split; [|split; [eapply near_of; eauto|exact Lv]].
    apply (fnear_of V inp g); auto. destruct Ap as (_ & _ & _ & H). intros x y I. destruct (H x y I) as (v & P & Fv & Er). exists v. split; auto. split; auto.
    destruct I as [I1 I2]. rewrite <- (square_mean g r x Wg I1 ltac:(lia) y I2). exact Er.
  - exists V', out', st', g, F. auto.
Qed.

Lemma f_gaussian_call pinned (K : kernel spec_float) M w0 w1 V inp out storage :
  fargs3 V inp out storage -> kernel1_ok K ->
  0 < ji_width inp <= 1073741824 -> 0 < ji_height inp <= 1073741824 ->
  nonneg_numbers F32 (k_data K) -> fbounded V inp M -> few F32 (length (k_data K)) ->
  line_weights K (ji_width inp) w0 w1 -> line_weights K (ji_height inp) w0 w1 ->
  safe_passes F32 (length (k_data K)) M w0 w1 ->
  exists V' out' storage' g F, f_java_gaussian pinned K V inp out storage = Ok (V', out', storage') /\
    fblurred V inp out storage V' out' storage' F /\ fshows V inp g /\
    fnear inp F (both_mean K g) (fun _ _ => two_pass_error F32 (length (k_data K)) M w0).
Proof.
  intros A Hk Hw Hh Nk Bn Fw L1 L2 Sp.
  destruct (f_blur_some pinned (blur_gaussian (float_narith F32) (S754_zero false) K)
    (fun g F => fnear inp F (both_mean K g) (fun _ _ => two_pass_error F32 (length (k_data K)) M w0)) V inp out storage A ltac:(lia))
    as (V' & out' & st' & g & F & E & Sg & R & Ee).
  - intros g o s Sg Lg Wo _ Ow Oh Ws _ Sw Sh Ls Lt. assert (Sg' := Sg). destruct Sg' as (Wg & G1 & G2 & G3).
    destruct (fgauss F32 St32 K g o s M w0 w1) as (o1 & ww & o' & s' & E1 & E2 & E3 & (Lv & _) & Ap); rewrite ?G1, ?G2; auto; try lia.
    { eapply fbounded_of; eauto. }
    rewrite (sized _ o _ _ Ow Oh) in E1. injection E1 as <-. rewrite (sized _ s _ _ Sw Sh) in E2. injection E2 as <-.
    exists o', s', (pixel o'). split; [exact E3|]. split; [|split; [eapply near_of; eauto|exact Lv]].
    apply (fnear_of V inp g); auto. destruct Ap as (_ & _ & _ & H). exact H.
  - exists V', out', st', g, F. auto.
Qed.

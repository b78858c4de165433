(** Lemmas about convolution called from Java. *)
From Verif Require Import BaseFacts M_Image S_Image L_Image M_Border S_Border L_Border M_Convolve S_Convolve L_ConvolveInt M_Kernel M_Native
  S_Native L_Native.
Open Scope Z_scope.

Definition border_of (bd : jborder) : border Z :=
  match bd with
  | JLines LExtend _ => BExtend
  | JLines LReflect _ => BReflect
  | JLines LWrap _ => BWrap
  | _ => BValue 0
  end.

Lemma border_passed bd : passed_on bd -> exists n bt, border_to_type bd = Ok n /\ border_java n = Ok bt /\ create_SB 0 bt = Ok (border_of bd).
Proof. intros [->|([| | |] & -> & N)]; try (do 2 eexists; repeat split; reflexivity). easy. Qed.

Lemma convolve_call extract conv te J k K bd inp out F :
  te = JShort \/ te = JInt -> jargs JByte te J inp out -> (forall J1, jv_held J1 = [] -> extract J1 k = Ok K) -> passed_on bd ->
  (forall g o, shows JByte J inp g -> wf o -> g_sub o = true -> g_width o = g_width g -> g_height o = g_height g ->
     exists o', conv (out_type te) K (border_of bd) g o = Ok o' /\ holds g o o' F) ->
  (forall x y v, jinside inp x y -> F x y = Some v -> jvalue_range te v) ->
  exists J' out', java_convolve extract conv (out_bits te) J k inp out bd = Ok (J', out') /\ jeffect te J inp out J' out' F.
Proof.
  intros Te A Hx Hb Hf HF. destruct (border_passed bd Hb) as (n & bt & B1 & B2 & B3).
  destruct (reshape_ok _ _ _ _ _ A) as (J1 & out1 & Er & A1 & Ew & Eh & _ & _ & Hp & _).
  destruct A1 as [Vi Vo Fr Ap _ Ar].
  assert (Vi' := Vi). destruct Vi' as [_ _ _ _ (b & Eb & _)]. assert (Vo' := Vo). destruct Vo' as [_ _ _ _ (a & Ea & _)].
  destruct (wrap_get te J1 (mkJvm (jv_arrays J1) (ji_array inp :: jv_held J1)) out1 a Fr eq_refl Vo Ea) as (o0 & W1 & G1).
  destruct (wrap_get JByte J1 J1 inp b Fr eq_refl Vi Eb) as (i0 & W2 & G2).
  pose proof (view_shows _ _ _ _ Vi Eb) as Si.
  destruct (Hf (view JByte inp b) (view te out1 a)) as (o' & Ef & Hw & Hh & Hl & Hpx & Hout).
  { destruct Si as (S1 & S2 & S3 & S4). split; auto. split; auto. split; auto. intros x y. rewrite S4. apply Hp. }
  { eapply view_wf; eauto. } { reflexivity. } { cbn; lia. } { cbn; lia. }
  unfold java_convolve. rewrite Er. cbn [bind]. rewrite B1. cbn [bind]. unfold native_convolve. unfold jni at 1. rewrite Fr. cbn [bind].
  rewrite B2. cbn [bind]. rewrite Hx by auto. cbn [bind]. rewrite B3. cbn [bind]. rewrite W2. cbn [bind].
  assert (Eb' : (if out_bits te =? 16 then Ok (JShort, S16) else if out_bits te =? 32 then Ok (JInt, S32) else Throw) = Ok (te, out_type te))
    by (destruct Te as [-> | ->]; reflexivity).
  rewrite Eb'. cbn [bind]. rewrite W1. cbn [bind]. rewrite G2. cbn [bind]. rewrite G1. cbn [bind]. rewrite Ef. cbn [bind].
  rewrite Fr.
  destruct (commit_effect te J1 (mkJvm (jv_arrays J1) [ji_array out1; ji_array inp])
    (mkJvm (upd (jv_arrays J1) (Z.to_nat (ji_array out1)) (map (of_c te) (g_data o'))) []) inp out1 a o' F [ji_array inp]) as [Ec Ee]; auto.
  { cbn. now rewrite Z.eqb_refl. }
  cbn [jv_held]. rewrite Ec. cbn [bind jv_arrays]. unfold j_abort. cbn [jv_held unhold]. rewrite Z.eqb_refl. cbn [bind uncaught].
  do 2 eexists. split; [reflexivity|]. eapply effect_reshape; eauto.
Qed.

(** ** The continued image *)
Lemma jpixel_byte J im x y v : jvalid JByte J im -> jpixel JByte J im x y = Some v -> 0 <= v <= 255.
Proof.
  intros [_ _ _ _ (a & Ea & _ & R & _)]. unfold jpixel. rewrite Ea. destruct (_ && _); [|discriminate].
  destruct (znth a _) as [w|] eqn:E; [|discriminate]. intros [= <-]. rewrite Forall_forall in R. specialize (R w (znth_In _ _ _ E)). cbn in *.
  destruct (Z.ltb_spec w 0); lia.
Qed.
Lemma sample_extended J im bd g x y : jvalid JByte J im -> shows JByte J im g -> passed_on bd -> 0 < ji_width im -> 0 < ji_height im ->
  extended (border_of bd) g x y = Some (jsample bd J im x y) /\ Z.abs (jsample bd J im x y) <= 255.
Proof.
  intros V (W & Ew & Eh & P) Hb Hw Hh.
  destruct (extended_exists (border_of bd) g x y W) as [v Ev]; try lia.
  assert (E : jsample bd J im x y = v /\ 0 <= v <= 255).
  { destruct Hb as [->|([| | |] & -> & N)]; try easy; cbn in Ev |- *.
    - destruct (_ && _) eqn:C.
      + rewrite P in Ev. rewrite Ev. split; auto. eapply jpixel_byte; eauto.
      + injection Ev as <-. split; [|lia]. rewrite Ew, Eh in C. unfold jpixel. now rewrite C.
    - rewrite P, Ew, Eh in Ev. rewrite Ev. split; auto. eapply jpixel_byte; eauto.
    - rewrite P, Ew, Eh in Ev. rewrite Ev. split; auto. eapply jpixel_byte; eauto.
    - rewrite P, Ew, Eh in Ev. rewrite Ev. split; auto. eapply jpixel_byte; eauto. }
  destruct E as [-> R]. split; [auto|lia].
Qed.

Lemma kernel1_extract k J1 : jkernel1_ok k -> jv_held J1 = [] -> j_kernel1 J1 k = Ok (mkKernel (jk_width k) (jk_offset k) (jk_data k)).
Proof.
  intros (H1 & H2 & H3) F. unfold j_kernel1, jni, kernel1_new. rewrite F. cbn [bind]. rewrite !u32_id by lia.
  replace (jk_width k <=? jk_offset k) with false by lia. reflexivity.
Qed.
Lemma kernel2_extract k J1 : jkernel2_ok k -> jv_held J1 = [] -> j_kernel2 J1 k = Ok (mkKernel (jk_width k) (jk_offset k) (jk_data k)).
Proof.
  intros (H1 & H2 & H3) F. unfold j_kernel2, jni, kernel2_new. rewrite F. cbn [bind]. rewrite !u32_id by lia.
  replace (jk_width k <=? jk_offset k) with false by lia. reflexivity.
Qed.
Lemma cast_value te v : te = JShort \/ te = JInt -> jvalue_range te (cast (out_type te) v).
Proof.
  intros [-> | ->]; cbn.
  - pose proof (cast_range S16 v) as R. cbn in R. lia.
  - pose proof (cast_range S32 v) as R. cbn in R. lia.
Qed.

Lemma fits_of bd n k : line_fits bd n k -> passed_on bd -> fits (border_of bd) n (mkKernel (jk_width k) (jk_offset k) (jk_data k)).
Proof. intros H [->|([| | |] & -> & N)]; cbn in *; auto. Qed.

Section Conv.
  Context (te : jelem) (J : jvm) (k : jkernel) (bd : jborder) (inp out : jimage).
  Context (Te : te = JShort \/ te = JInt) (A : jargs JByte te J inp out) (Hb : passed_on bd).
  Context (Hw : 0 < ji_width inp <= 1073741824) (Hh : 0 < ji_height inp <= 1073741824) (Hs : zabs_sum (jk_data k) * 255 <= 2147483647).

  Lemma horizontal_ok : jkernel1_ok k -> line_fits bd (ji_width inp) k -> exists J' out',
    java_horizontal (out_bits te) J k inp out bd = Ok (J', out') /\
    jeffect te J inp out J' out' (fun x y => Some (cast (out_type te)
      (zdot (jk_data k) (fun i => jsample bd J inp (x - jk_offset k + i) y) 0))).
  Proof.
    intros Hk Hf. pose proof (ja_in _ _ _ _ _ A) as V. unfold java_horizontal.
    apply (convolve_call _ _ te J k (mkKernel (jk_width k) (jk_offset k) (jk_data k)) bd inp out); auto.
    - intros J1. now apply kernel1_extract.
    - intros g o S Wo So Ow Oh. assert (S' := S). destruct S' as (W & Ew & Eh & P).
      destruct (convolve_h_int U8 (out_type te) 0 (mkKernel (jk_width k) (jk_offset k) (jk_data k)) (border_of bd) g o (jsample bd J inp) 255)
        as (o1 & o' & E1 & E2 & E3); auto; try lia.
      + intros x y. apply sample_extended; auto; lia.
      + rewrite Ew. now apply fits_of.
      + rewrite (same_size 0 g o Ow Oh) in E1. injection E1 as <-. exists o'. split; auto.
    - intros x y v _ [= <-]. now apply cast_value.
  Qed.

  Lemma vertical_ok : jkernel1_ok k -> line_fits bd (ji_height inp) k -> exists J' out',
    java_vertical (out_bits te) J k inp out bd = Ok (J', out') /\
    jeffect te J inp out J' out' (fun x y => Some (cast (out_type te)
      (zdot (jk_data k) (fun i => jsample bd J inp x (y - jk_offset k + i)) 0))).
  Proof.
    intros Hk Hf. pose proof (ja_in _ _ _ _ _ A) as V. unfold java_vertical.
    apply (convolve_call _ _ te J k (mkKernel (jk_width k) (jk_offset k) (jk_data k)) bd inp out); auto.
    - intros J1. now apply kernel1_extract.
    - intros g o S Wo So Ow Oh. assert (S' := S). destruct S' as (W & Ew & Eh & P).
      destruct (convolve_v_int U8 (out_type te) 0 (mkKernel (jk_width k) (jk_offset k) (jk_data k)) (border_of bd) g o (jsample bd J inp) 255)
        as (o1 & o' & E1 & E2 & E3); auto; try lia.
      + intros x y. apply sample_extended; auto; lia.
      + rewrite Eh. now apply fits_of.
      + rewrite (same_size 0 g o Ow Oh) in E1. injection E1 as <-. exists o'. split; auto.
    - intros x y v _ [= <-]. now apply cast_value.
  Qed.

  Lemma convolve2_ok : jkernel2_ok k -> line_fits bd (ji_width inp) k -> line_fits bd (ji_height inp) k -> exists J' out',
    java_convolve2 (out_bits te) J k inp out bd = Ok (J', out') /\
    jeffect te J inp out J' out' (fun x y => Some (cast (out_type te)
      (zdot (jk_data k) (fun i => jsample bd J inp (x - jk_offset k + i mod jk_width k) (y - jk_offset k + i / jk_width k)) 0))).
  Proof.
    intros Hk Hf1 Hf2. pose proof (ja_in _ _ _ _ _ A) as V. unfold java_convolve2.
    apply (convolve_call _ _ te J k (mkKernel (jk_width k) (jk_offset k) (jk_data k)) bd inp out); auto.
    - intros J1. now apply kernel2_extract.
    - intros g o S Wo So Ow Oh. assert (S' := S). destruct S' as (W & Ew & Eh & P).
      destruct (convolve_2_int U8 (out_type te) 0 (mkKernel (jk_width k) (jk_offset k) (jk_data k)) (border_of bd) g o (jsample bd J inp) 255)
        as (o1 & o' & E1 & E2 & E3); auto; try lia.
      + intros x y. apply sample_extended; auto; lia.
      + rewrite Ew. now apply fits_of.
      + rewrite Eh. now apply fits_of.
      + rewrite (same_size 0 g o Ow Oh) in E1. injection E1 as <-. exists o'. split; auto.
    - intros x y v _ [= <-]. now apply cast_value.
  Qed.
End Conv.

Lemma border_refused extract conv bits J k inp out bd : jargs JByte JShort J inp out ->
  match bd with JValue v => v <> 0 | JLines row _ => row = LOther | JBorder => True end ->
  java_convolve extract conv bits J k inp out bd = Throw.
Proof.
  intros A H. unfold java_convolve. destruct (reshape_ok _ _ _ _ _ A) as (J1 & out1 & -> & _). cbn [bind].
  destruct bd as [v|row column|]; cbn [border_to_type].
  - now replace (v =? 0) with false by lia.
  - now rewrite H.
  - reflexivity.
Qed.

Lemma other_code extract conv bits J k inp out code : code <> 1 -> code <> 3 -> code <> 4 -> code <> 5 ->
  native_convolve extract conv bits J k inp out code = Undef.
Proof.
  intros A B C D. unfold native_convolve. destruct (jni J) as [[]| | |] eqn:E.
  - cbn [bind]. unfold border_java.
    rewrite (proj2 (Z.eqb_neq code 1) A), (proj2 (Z.eqb_neq code 3) B), (proj2 (Z.eqb_neq code 4) C), (proj2 (Z.eqb_neq code 5) D). reflexivity.
  - reflexivity.
  - reflexivity.
  - unfold jni in E. destruct (jv_held J); discriminate.
Qed.
Lemma offset_undef conv bits te J k inp out bd : jargs JByte te J inp out -> passed_on bd ->
  0 <= jk_width k < 2147483648 -> -2147483648 <= jk_offset k < 2147483648 -> ~ 0 <= jk_offset k < jk_width k ->
  java_convolve j_kernel1 conv bits J k inp out bd = Undef.
Proof.
  intros A Hb Hw Ho N. unfold java_convolve. destruct (reshape_ok _ _ _ _ _ A) as (J1 & out1 & -> & A1 & _). cbn [bind].
  assert (E : exists t b, border_to_type bd = Ok t /\ border_java t = Ok b).
  { destruct Hb as [->|([| | |] & -> & M)]; try easy; do 2 eexists; split; reflexivity. }
  destruct E as (t & b & -> & Eb). cbn [bind]. unfold native_convolve. unfold jni.
  assert (F : jv_held J1 = []) by (eapply ja_free; eauto). rewrite F. cbn [bind]. rewrite Eb. cbn [bind].
  unfold j_kernel1, jni. rewrite F. cbn [bind]. unfold kernel1_new.
  replace (u32 (jk_width k) <=? u32 (jk_offset k)) with true; [reflexivity|].
  unfold u32. change (2 ^ 32) with 4294967296. symmetry. apply Z.leb_le. rewrite Z.mod_small by lia.
  destruct (Z_lt_le_dec (jk_offset k) 0).
  - replace (jk_offset k) with (jk_offset k + 4294967296 + (-1) * 4294967296) by lia. rewrite Z.mod_add, Z.mod_small; lia.
  - rewrite Z.mod_small; lia.
Qed.

Lemma width_kept J k : jv_held J = [] -> -2147483648 <= jk_width k < 0 -> 0 <= jk_offset k < 2147483648 ->
  j_kernel1 J k = Ok (mkKernel (jk_width k + 4294967296) (jk_offset k) (jk_data k)).
Proof.
  intros F Hw Ho. unfold j_kernel1, jni. rewrite F. cbn [bind]. unfold kernel1_new. rewrite (u32_id (jk_offset k)) by lia.
  replace (u32 (jk_width k)) with (jk_width k + 4294967296).
  - now replace (_ <=? _) with false by lia.
  - unfold u32. replace (jk_width k) with (jk_width k + 4294967296 + (-1) * 4294967296) at 2 by lia. rewrite Z.mod_add, Z.mod_small; lia.
Qed.

(** Calls from Java on images of floats: C115 to C117. *)
From Coq Require Import QArith Reals Lia Lra Floats.SpecFloat.
From Flocq Require Import Core BinarySingleNaN.
From Verif Require Import Base BaseFacts M_Image S_Image L_Image M_Border S_Border M_Convolve S_Convolve M_Normalized M_Blur M_Binary M_Otsu M_Config M_Local
  M_Float S_Ieee L_PointF S_FConv S_FNorm S_FBlur S_FLocal M_Kernel M_Native S_Native M_NativeF S_NativeF L_NativeF L_NativeFNum.
From Verif Require Import L_NormalizedInt.
From Verif Require P_FNorm P_FBlur P_FLocal P_Native.
Open Scope Z_scope.

(** ** C115: threshold filters *)

(** Whatever the filter computes on the image that shows the input arrives in Java's output, and nothing else changes. *)
Theorem C115_any : forall S (f : S -> gray spec_float -> gray Z -> outcome (S * gray Z)) (after : S * list Z) (s : S) (Q : S -> Prop) V inp out F,
  fbargs V inp out ->
  (forall g o, fshows V inp g -> zlen (g_data g) <= 2147483647 -> wf o -> g_sub o = true -> g_width o = g_width g -> g_height o = g_height g ->
     exists s' o', f s g o = Ok (s', o') /\ Q s' /\ holds g o o' F) ->
  (forall x y v, jinside inp x y -> F x y = Some v -> 0 <= v <= 255) ->
  exists s' V' out', f_java_filter f after s V inp out = Ok (s', V', out') /\ Q s' /\ fbeffect V inp out V' out' F.
Proof. exact @f_filter_call. Qed.
Print Assumptions C115_any.

(** The threshold, a double, becomes the nearest float. *)
Theorem C115_narrow : forall x, finite F64 x -> (Rabs (val x) <= val largest)%R ->
  finite F32 (to_single x) /\ forall y, finite F32 y -> (Rabs (val (to_single x) - val x) <= Rabs (val y - val x))%R.
Proof. exact narrow_ok. Qed.
Print Assumptions C115_narrow.

(** Pixels are compared with that float, infinities and pixels that are no numbers included. *)
Theorem C115_bits : forall th down V inp out, fbargs V inp out -> forall after, exists V' out',
  f_java_filter f_fixed_process after (th, down) V inp out = Ok ((th, down), V', out') /\
  fbeffect V inp out V' out' (fun x y => match fpixel V inp x y with
     | Some v => Some (if (if down then SFleb v th else SFltb th v) then 1 else 0) | None => None end).
Proof. exact f_fixed_call. Qed.
Print Assumptions C115_bits.

(** So a pixel is on the side of the double on which it is, unless it is equal to the float; then it counts as at most the threshold. *)
Theorem C115_fixed : forall x down V inp out, fbargs V inp out -> finite F64 x -> (Rabs (val x) <= val largest)%R ->
  forall after, exists V' out' F,
  f_java_filter f_fixed_process after (f_fixed_new x down) V inp out = Ok (f_fixed_new x down, V', out') /\ fbeffect V inp out V' out' F /\
  forall i j v, jinside inp i j -> fpixel V inp i j = Some v -> finite F32 v -> exists b, F i j = Some b /\ (b = 0 \/ b = 1) /\
    (val v <> val (to_single x) -> (b = 1 <-> if down then (val v <= val x)%R else (val x < val v)%R)) /\
    (val v = val (to_single x) -> b = if down then 1 else 0).
Proof. exact f_fixed_double. Qed.
Print Assumptions C115_fixed.

Theorem C115_local : forall length fraction scale down n r M V inp out s after,
  let '(width, L, fresh) := f_local_new length fraction scale in f_storage_ok fresh /\ (
  fbargs V inp out -> clen_computeI double (mkClen length fraction) (d_of double (Z.min (ji_width inp) (ji_height inp))) = Ok n ->
  r = n / 2 -> 0 < r -> 2 * r + 1 <= 1073741824 ->
  f_storage_ok s -> zlen (g_data (snd s)) < 2147483648 ->
  0 < ji_width inp <= 1073741824 -> 0 < ji_height inp <= 1073741824 ->
  ji_width inp < 2 * r + 1 \/ 2 * r + 1 <= ji_height inp ->
  finite F32 (to_single scale) -> fbounded V inp M -> safe_line F32 r M (ji_width inp) ->
  safe_line F32 r (M + longest_error F32 r M (ji_width inp)) (ji_height inp) ->
  (forall g, fshows V inp g -> 2 * (Rabs (val (to_single scale)) * (M + blur_error F32 r M g)) + 1 < huge F32)%R ->
  exists s' V' out' g F, f_java_filter (f_local_process double L width down) after s V inp out = Ok (s', V', out') /\
    fbeffect V inp out V' out' F /\ fshows V inp g /\ f_storage_ok s' /\
    forall x y, jinside inp x y -> exists v b, fpixel V inp x y = Some v /\ F x y = Some b /\ (b = 0 \/ b = 1) /\
      let m := average (square g r x y) in let c := val (to_single scale) in
      (tipping F32 down c (val v) m (blur_error F32 r M g) < clearance down c (val v) m)%R -> (b = 1 <-> is_set down c (val v) m)).
Proof. exact f_local_double. Qed.
Print Assumptions C115_local.

(** Views of a 4x3 and of a 3x2 image; arrays for results. *)
Definition z32 := P_FBlur.z32.
Definition fV : fvm := mkFvm (mkJvm [repeat 7 16] [])
  [g_data P_FBlur.eg; repeat (z32 7) 16; repeat (z32 5) 12; g_data P_FNorm.eg] [].
Definition fin : jimage := mkJimage 4 3 1 5 true 0.
Definition fin3 : jimage := mkJimage 3 2 1 4 true 3.
Definition fbin : jimage := mkJimage 4 3 1 5 true 0.
Definition fout : jimage := mkJimage 4 3 1 5 true 1.
Definition fout3 : jimage := mkJimage 3 2 1 4 true 1.
Definition fown : jimage := mkJimage 1 1 0 1 false 1.
Definition fstore : jimage := mkJimage 4 3 0 4 false 2.
Ltac farray := eexists; split; [reflexivity|]; split; [vm_compute; discriminate|intros _ _; vm_compute; discriminate].
Ltac fvalid_tac := split; [cbn; lia|cbn; lia|cbn; lia|cbn; try discriminate; auto|farray].
Lemma fbargs_ex : fbargs fV fin fbin.
Proof. split; [fvalid_tac|P_Native.jvalid_tac|split; reflexivity|split; cbn; [auto|lia]]. Qed.
Lemma fargs_ex : fargs fV fin fout /\ fargs fV fin fown /\ fargs fV fin3 fout3.
Proof. split; [|split]; (split; [fvalid_tac|fvalid_tac|split; reflexivity|discriminate|split; cbn; [auto|lia]]). Qed.
Lemma fshows_ex : fshows fV fin P_FBlur.eg.
Proof. split; [exact P_FBlur.eg_wf|]. split; [reflexivity|]. split; [reflexivity|]. intros x y. unfold pixel, fpixel. cbn [fin ji_width ji_height P_FBlur.eg g_width g_height]. destruct (_ && _); reflexivity. Qed.
Lemma fshows_ex3 : fshows fV fin3 P_FNorm.eg.
Proof. split; [exact P_FNorm.eg_wf|]. split; [reflexivity|]. split; [reflexivity|]. intros x y. unfold pixel, fpixel. cbn [fin3 ji_width ji_height P_FNorm.eg g_width g_height]. destruct (_ && _); reflexivity. Qed.
Lemma shown_inside V im g x y p : fshows V im g -> fpixel V im x y = Some p -> inside g x y /\ pixel g x y = Some p.
Proof.
  intros (_ & E1 & E2 & E3) P. rewrite E3. split; auto. unfold fpixel in P. destruct (_ && _) eqn:B; [|discriminate]. split; lia.
Qed.
Lemma fbounded_ex : fbounded fV fin 90.
Proof. intros x y p P. destruct (shown_inside _ _ _ _ _ _ fshows_ex P). eapply P_FBlur.eg_num; eauto. Qed.
Lemma fbounded_ex3 : fbounded fV fin3 60.
Proof. intros x y p P. destruct (shown_inside _ _ _ _ _ _ fshows_ex3 P). eapply P_FNorm.eg_num; eauto. Qed.

(** The double nearest to 1/10. *)
Definition tenth : spec_float := S754_finite false 7205759403792794 (-56).
Lemma tenth_fin : finite F64 tenth /\ (Rabs (val tenth) <= val largest)%R.
Proof.
  split; [split; reflexivity|]. unfold val, SF2R, F2R, tenth, largest. cbn [cond_Zopp Fnum Fexp]. unfold bpow.
  change (Z.pow_pos radix2 56) with 72057594037927936. change (Z.pow_pos radix2 104) with 20282409603651670423947251286016.
  rewrite Rabs_pos_eq; lra.
Qed.
Example C115_ex : fbargs fV fin fbin /\ finite F64 tenth /\ (Rabs (val tenth) <= val largest)%R /\
  finite F64 (float_of_Z F64 30) /\
  (forall after, exists V', f_java_filter f_fixed_process after (f_fixed_new (float_of_Z F64 30) true) fV fin fbin =
     Ok (f_fixed_new (float_of_Z F64 30) true, V', fbin) /\
     jv_arrays (fv_int V') = [[7; 1;1;1;0; 7; 0;0;0;0; 7; 0;0;0;0; 7]] /\ fv_floats V' = fv_floats fV).
Proof.
  split; [exact fbargs_ex|]. split; [apply tenth_fin|]. split; [apply tenth_fin|]. split; [split; reflexivity|].
  intros after. eexists. split; [vm_compute; reflexivity|]. split; reflexivity.
Qed.
Lemma fshown_error V im g r M : fshows V im g -> blur_error F32 r M g =
  (longest_error F32 r M (ji_width im) + longest_error F32 r (M + longest_error F32 r M (ji_width im)) (ji_height im))%R.
Proof. intros (_ & E1 & E2 & _). unfold blur_error. now rewrite E1, E2. Qed.
Example C115_local_ex : fbargs fV fin fbin /\
  clen_computeI double (mkClen (float_of_Z F64 3) (float_of_Z F64 (-1))) (d_of double (Z.min (ji_width fin) (ji_height fin))) = Ok 3 /\
  f_storage_ok (snd (f_local_new (float_of_Z F64 3) (float_of_Z F64 (-1)) (float_of_Z F64 1))) /\
  finite F32 (to_single (float_of_Z F64 1)) /\ fbounded fV fin 90 /\ safe_line F32 1 90 (ji_width fin) /\
  safe_line F32 1 (90 + longest_error F32 1 90 (ji_width fin)) (ji_height fin) /\
  (forall g, fshows fV fin g -> 2 * (Rabs (val (to_single (float_of_Z F64 1))) * (90 + blur_error F32 1 90 g)) + 1 < huge F32)%R /\
  forall after, exists s' V', f_java_filter (f_local_process double (float_lcmp F32 (to_single (float_of_Z F64 1)))
      (clen_fixed double (d_of double 3)) true) after
      (gray_new (S754_zero false) 0 0, gray_new (S754_zero false) 0 0) fV fin fbin = Ok (s', V', fbin) /\
    jv_arrays (fv_int V') = [[7; 1;1;1;0; 7; 1;1;0;0; 7; 0;0;0;1; 7]].
Proof.
  split; [exact fbargs_ex|]. split; [reflexivity|]. split; [repeat split; try (apply wf_new; lia)|].
  assert (E : to_single (float_of_Z F64 1) = z32 1) by reflexivity. rewrite E.
  split; [apply P_FBlur.z32_ok; lia|]. split; [exact fbounded_ex|]. split; [apply P_FBlur.line_safe; [lra|cbn; lia]|].
  pose proof (P_FBlur.longest_small 90 (ji_width fin) ltac:(lra) ltac:(cbn; lia)) as L.
  split; [apply P_FBlur.line_safe; [lra|cbn; lia]|]. split.
  - intros g Sg. rewrite (fshown_error _ _ _ _ _ Sg). unfold z32. rewrite (proj2 (P_FBlur.z32_ok 1 ltac:(lia))), (Rabs_pos_eq 1) by lra.
    pose proof (P_FBlur.longest_small (90 + longest_error F32 1 90 (ji_width fin)) (ji_height fin) ltac:(lra) ltac:(cbn; lia)).
    pose proof (huge_big F32 (or_introl eq_refl)). lra.
  - intros after. do 2 eexists. split; [vm_compute; reflexivity|]. reflexivity.
Qed.

(** A pixel above the threshold, which is a double, is marked as at most the threshold. *)
Theorem C115_fixed_refuted : exists x V inp out i j v, fbargs V inp out /\ finite F64 x /\ fpixel V inp i j = Some v /\ finite F32 v /\
  (val x < val v)%R /\
  forall after, exists V' out', f_java_filter f_fixed_process after (f_fixed_new x true) V inp out = Ok (f_fixed_new x true, V', out') /\
    jpixel JByte (fv_int V') out' i j = Some 1.
Proof.
  exists tenth, (mkFvm (mkJvm [[0]] []) [[S754_finite false 13421773 (-27)]] []), (mkJimage 1 1 0 1 false 0), (mkJimage 1 1 0 1 false 0), 0, 0,
    (S754_finite false 13421773 (-27)).
  split; [split; [fvalid_tac|P_Native.jvalid_tac|split; reflexivity|split; cbn; [auto|lia]]|].
  split; [apply tenth_fin|]. split; [reflexivity|]. split; [split; reflexivity|]. split.
  - unfold val, SF2R, F2R, tenth. cbn [cond_Zopp Fnum Fexp]. unfold bpow.
    change (Z.pow_pos radix2 56) with 72057594037927936. change (Z.pow_pos radix2 27) with 134217728. lra.
  - intros after. do 2 eexists. split; [vm_compute; reflexivity|]. reflexivity.
Qed.
Print Assumptions C115_fixed_refuted.

(** The filter refuses its arguments; Java is not told.  The array of the input is not given back, and the next call is undefined. *)
Theorem C115_failure_refuted : exists width V inp out s, fbargs V inp out /\ f_storage_ok s /\ clen_checkValidity double width = Ok tt /\
  (forall g o, fshows V inp g -> g_width o = g_width g -> g_height o = g_height g -> f_local_process double (float_lcmp F32 (z32 1)) width true s g o = Throw) /\
  forall after, exists V', f_java_filter (f_local_process double (float_lcmp F32 (z32 1)) width true) after s V inp out = Ok (fst after, V', out) /\
    fv_held V' <> [] /\
    forall after' s', f_java_filter (f_local_process double (float_lcmp F32 (z32 1)) width true) after' s' V' inp out = Undef.
Proof.
  exists (clen_fixed double (d_of double 1)), fV, fin, fbin, (gray_new (S754_zero false) 0 0, gray_new (S754_zero false) 0 0).
  split; [exact fbargs_ex|]. split; [repeat split; try (apply wf_new; lia)|]. split; [reflexivity|]. split.
  - intros g o (Wg & Gw & Gh & _) Ow Oh. unfold f_local_process, local_mean. cbn [fst snd].
    rewrite (sized 0 o (g_width g) (g_height g)) by auto. cbn [bind]. rewrite Gw, Gh. reflexivity.
  - intros after. eexists. split; [vm_compute; reflexivity|]. split; [discriminate|]. intros after' s'. vm_compute. reflexivity.
Qed.
Print Assumptions C115_failure_refuted.

(** ** C116: convolution *)
Theorem C116_horizontal : forall V k bd inp out, fargs V inp out -> f_passed_on bd -> ji_width inp <= 1073741824 -> ji_height inp <= 1073741824 ->
  fkernel1_ok k -> f_line_fits bd (ji_width inp) k ->
  exists V' out', f_java_horizontal 32 32 V k inp out bd = Ok (V', out') /\ feffect V inp out V' out' (fun x y =>
    ieee_sum F32 (S754_zero false) (fk_data k) (fun i => fsample bd V inp (x - fk_offset k + i) y) 0).
Proof. exact f_horizontal_call. Qed.
Print Assumptions C116_horizontal.
Theorem C116_vertical : forall V k bd inp out, fargs V inp out -> f_passed_on bd -> ji_width inp <= 1073741824 -> ji_height inp <= 1073741824 ->
  fkernel1_ok k -> f_line_fits bd (ji_height inp) k ->
  exists V' out', f_java_vertical 32 32 V k inp out bd = Ok (V', out') /\ feffect V inp out V' out' (fun x y =>
    ieee_sum F32 (S754_zero false) (fk_data k) (fun i => fsample bd V inp x (y - fk_offset k + i)) 0).
Proof. exact f_vertical_call. Qed.
Print Assumptions C116_vertical.
Theorem C116_square : forall V k bd inp out, fargs V inp out -> f_passed_on bd -> ji_width inp <= 1073741824 -> ji_height inp <= 1073741824 ->
  fkernel2_ok k -> f_line_fits bd (ji_width inp) k -> f_line_fits bd (ji_height inp) k ->
  exists V' out', f_java_convolve2 32 32 V k inp out bd = Ok (V', out') /\ feffect V inp out V' out' (fun x y =>
    ieee_sum F32 (S754_zero false) (fk_data k) (fun i =>
      fsample bd V inp (x - fk_offset k + i mod fk_width k) (y - fk_offset k + i / fk_width k)) 0).
Proof. exact f_convolve2_call. Qed.
Print Assumptions C116_square.

Definition fk : fkernel := mkFkernel 2 0 [z32 2; z32 (-1)].
Definition fk2 : fkernel := mkFkernel 2 1 (map z32 [1; 0; 0; -1]).
Example C116_ex : fargs fV fin fout /\ fargs fV fin fown /\ f_passed_on (FLines LReflect LReflect) /\ f_passed_on (FValue (S754_zero false)) /\
  fkernel1_ok fk /\ fkernel2_ok fk2 /\
  f_line_fits (FLines LReflect LReflect) (ji_width fin) fk /\ f_line_fits (FLines LReflect LReflect) (ji_height fin) fk2 /\
  (exists V', f_java_horizontal 32 32 fV fk fin fout (FLines LReflect LReflect) = Ok (V', fout) /\
     znth (fv_floats V') 1 = Some (map z32 [7; 0;10;-1;92; 7; 30;40;58;64; 7; 60;70;117;36; 7])) /\
  (exists V', f_java_vertical 32 32 fV fk fin fown (FValue (S754_zero false)) = Ok (V', mkJimage 4 3 0 4 false 1) /\
     znth (fv_floats V') 1 = Some (map z32 [-20;-10;0;60; 10;20;30;61; 140;160;180;126; 7;7;7;7])) /\
  (exists V', f_java_convolve2 32 32 fV fk2 fin fout (FLines LExtend LExtend) = Ok (V', fout) /\
     znth (fv_floats V') 1 = Some (map z32 [7; 0;-10;-10;-31; 7; -30;-40;-40;-32; 7; -30;-40;-40;-3; 7])).
Proof.
  split; [apply fargs_ex|]. split; [apply fargs_ex|]. split; [right; exists LReflect; split; [reflexivity|discriminate]|]. split; [left; reflexivity|].
  split; [split; [cbn; lia|split; [cbn; lia|reflexivity]]|]. split; [split; [cbn; lia|split; [cbn; lia|reflexivity]]|].
  split; [cbn; lia|]. split; [cbn; lia|].
  split; [|split]; (eexists; split; [vm_compute; reflexivity|]; vm_compute; reflexivity).
Qed.

(** Borders that cannot be passed on are refused. *)
Theorem C116_refused : forall extract conv ib ob V k inp out bd, fargs V inp out ->
  match bd with FValue v => SFeqb v (S754_zero false) = false | FLines row _ => row = LOther | FBorder => True end ->
  f_java_convolve extract conv ib ob V k inp out bd = Throw.
Proof. exact f_border_refused. Qed.
Print Assumptions C116_refused.
Example C116_refused_ex : f_java_horizontal 32 32 fV fk fin fout (FValue (z32 3)) = Throw /\ f_java_horizontal 32 32 fV fk fin fout (FValue S754_nan) = Throw.
Proof. split; reflexivity. Qed.

(** Images of doubles end in undefined behaviour, not in an exception for Java: for any kernel and any border that is passed on. *)
Theorem C116_double : forall extract conv ib ob V k inp out bd, fargs V inp out -> f_passed_on bd -> ib <> 32 \/ ob <> 32 ->
  f_java_convolve extract conv ib ob V k inp out bd = Undef.
Proof. exact f_bits_undef. Qed.
Print Assumptions C116_double.
Example C116_double_ex : fargs fV fin fout /\ f_passed_on (FValue (S754_zero false)) /\
  f_java_horizontal 64 64 fV fk fin fout (FValue (S754_zero false)) = Undef.
Proof. split; [apply fargs_ex|]. split; [left; reflexivity|reflexivity]. Qed.

(** The rule for columns is not used. *)
Theorem C116_columns_refuted : exists V k row column inp out V' out' x y, fargs V inp out /\
  row <> LOther /\ column <> LOther /\ fkernel1_ok k /\ f_line_fits (FLines column column) (ji_height inp) k /\
  f_java_vertical 32 32 V k inp out (FLines row column) = Ok (V', out') /\ jinside inp x y /\
  fpixel V' out' x y <> ieee_sum F32 (S754_zero false) (fk_data k) (fun i => fsample (FLines row column) V inp x (y - fk_offset k + i)) 0.
Proof.
  exists fV, fk, LExtend, LReflect, fin, fout. do 2 eexists. exists 0, 2.
  split; [apply fargs_ex|]. split; [discriminate|]. split; [discriminate|].
  split; [split; [cbn; lia|split; [cbn; lia|reflexivity]]|]. split; [cbn; lia|]. split; [vm_compute; reflexivity|].
  split; [split; cbn; lia|]. vm_compute. discriminate.
Qed.
Print Assumptions C116_columns_refuted.

(** ** C117: normalized convolution and blur *)
Theorem C117_horizontal : forall V k inp out M, fargs V inp out -> ji_width out = ji_width inp -> ji_height out = ji_height inp -> fkernel1_ok k ->
  0 < ji_width inp <= 1073741824 -> 0 < ji_height inp <= 1073741824 ->
  nonneg_numbers F32 (fk_data k) -> fbounded V inp M -> few F32 (length (fk_data k)) ->
  let K := mkKernel (fk_width k) (fk_offset k) (fk_data k) in
  (forall x, 0 <= x < ji_width inp -> safe_mean F32 (length (fk_data k)) M (line_weight K (ji_width inp) x)) ->
  exists V' g F, f_java_normalized_h V k inp out = Ok V' /\ feffect V inp out V' out F /\ fshows V inp g /\
    fnear inp F (row_mean K g) (fun x _ => mean_error F32 (length (fk_data k)) M (line_weight K (ji_width inp) x)).
Proof. exact f_norm_h_call. Qed.
Print Assumptions C117_horizontal.
Theorem C117_vertical : forall V k inp out M, fargs V inp out -> ji_width out = ji_width inp -> ji_height out = ji_height inp -> fkernel1_ok k ->
  0 < ji_width inp <= 1073741824 -> 0 < ji_height inp <= 1073741824 ->
  nonneg_numbers F32 (fk_data k) -> fbounded V inp M -> few F32 (length (fk_data k)) ->
  let K := mkKernel (fk_width k) (fk_offset k) (fk_data k) in
  (forall y, 0 <= y < ji_height inp -> safe_mean F32 (length (fk_data k)) M (line_weight K (ji_height inp) y)) ->
  exists V' g F, f_java_normalized_v V k inp out = Ok V' /\ feffect V inp out V' out F /\ fshows V inp g /\
    fnear inp F (col_mean K g) (fun _ y => mean_error F32 (length (fk_data k)) M (line_weight K (ji_height inp) y)).
Proof. exact f_norm_v_call. Qed.
Print Assumptions C117_vertical.
Theorem C117_mean : forall pinned r M V inp out storage,
  fargs3 V inp out storage -> 0 < r -> 2 * r + 1 <= 1073741824 ->
  0 < ji_width inp <= 1073741824 -> 0 < ji_height inp <= 1073741824 ->
  ji_width inp < 2 * r + 1 \/ 2 * r + 1 <= ji_height inp ->
  fbounded V inp M -> safe_line F32 r M (ji_width inp) ->
  safe_line F32 r (M + longest_error F32 r M (ji_width inp)) (ji_height inp) ->
  exists V' out' storage' g F, f_java_mean pinned r V inp out storage = Ok (V', out', storage') /\
    fblurred V inp out storage V' out' storage' F /\ fshows V inp g /\
    fnear inp F (fun x y => average (square g r x y)) (fun _ _ => blur_error F32 r M g).
Proof. exact f_mean_call. Qed.
Print Assumptions C117_mean.
(** For the kernel that the Gaussian blur makes, or any other. *)
Theorem C117_gaussian : forall pinned (K : kernel spec_float) M w0 w1 V inp out storage,
  fargs3 V inp out storage -> kernel1_ok K ->
  0 < ji_width inp <= 1073741824 -> 0 < ji_height inp <= 1073741824 ->
  nonneg_numbers F32 (k_data K) -> fbounded V inp M -> few F32 (length (k_data K)) ->
  line_weights K (ji_width inp) w0 w1 -> line_weights K (ji_height inp) w0 w1 ->
  safe_passes F32 (length (k_data K)) M w0 w1 ->
  exists V' out' storage' g F, f_java_gaussian pinned K V inp out storage = Ok (V', out', storage') /\
    fblurred V inp out storage V' out' storage' F /\ fshows V inp g /\
    fnear inp F (both_mean K g) (fun _ _ => two_pass_error F32 (length (k_data K)) M w0).
Proof. exact f_gaussian_call. Qed.
Print Assumptions C117_gaussian.

Definition fk3 : fkernel := mkFkernel 3 1 (k_data P_FNorm.ek).
Lemma fargs3_ex : fargs3 fV fin fout (Some fstore) /\ fargs3 fV fin fown None /\ fargs3 fV fin3 fout3 None.
Proof.
  split; [|split]; (split; [apply fargs_ex|]); auto. split; [fvalid_tac|]. split; [discriminate|]. split; [discriminate|]. cbn; auto.
Qed.
Example C117_ex : fargs fV fin3 fout3 /\ fkernel1_ok fk3 /\ nonneg_numbers F32 (fk_data fk3) /\ fbounded fV fin3 60 /\
  few F32 (length (fk_data fk3)) /\
  (forall x, 0 <= x < ji_width fin3 -> safe_mean F32 (length (fk_data fk3)) 60
     (line_weight (mkKernel (fk_width fk3) (fk_offset fk3) (fk_data fk3)) (ji_width fin3) x)) /\
  exists V' v, f_java_normalized_h fV fk3 fin3 fout3 = Ok V' /\ fpixel V' fout3 1 0 = Some v /\ val v = 20%R /\
    znth (fv_floats V') 1 <> znth (fv_floats fV) 1 /\ znth (fv_floats V') 2 = znth (fv_floats fV) 2.
Proof.
  split; [apply fargs_ex|]. split; [split; [cbn; lia|split; [cbn; lia|reflexivity]]|]. split; [exact P_FNorm.ek_num|]. split; [exact fbounded_ex3|].
  split; [exact P_FNorm.ek_few|]. split; [exact (proj1 (proj2 (proj2 (proj2 (proj2 (proj2 P_FNorm.C105_example)))))) |].
  eexists. exists (z32 20). split; [vm_compute; reflexivity|]. split; [vm_compute; reflexivity|]. split; [apply P_FBlur.z32_ok; lia|].
  split; [vm_compute; discriminate|reflexivity].
Qed.
Example C117_mean_ex : fargs3 fV fin fout (Some fstore) /\ fargs3 fV fin fown None /\ 2 * 1 + 1 <= ji_height fin /\ fbounded fV fin 90 /\
  safe_line F32 1 90 (ji_width fin) /\ safe_line F32 1 (90 + longest_error F32 1 90 (ji_width fin)) (ji_height fin) /\
  exists V' st v, f_java_mean true 1 fV fin fout (Some fstore) = Ok (V', fout, st) /\ fpixel V' fout 1 1 = Some v /\ (Rabs (val v - 50) <= / 100000)%R /\
    fpixel V' st 1 1 <> fpixel fV fstore 1 1.
Proof.
  split; [apply fargs3_ex|]. split; [apply fargs3_ex|]. split; [cbn; lia|]. split; [exact fbounded_ex|]. split; [apply P_FBlur.line_safe; [lra|cbn; lia]|].
  split. { pose proof (P_FBlur.longest_small 90 (ji_width fin) ltac:(lra) ltac:(cbn; lia)). apply P_FBlur.line_safe; [lra|cbn; lia]. }
  do 2 eexists. exists (S754_finite false 13107200 (-18)). split; [vm_compute; reflexivity|]. split; [vm_compute; reflexivity|]. split; [|vm_compute; discriminate].
  unfold val, SF2R, F2R. cbn [cond_Zopp Fnum Fexp]. unfold bpow. change (Z.pow_pos radix2 18) with 262144.
  replace (13107200 * / 262144 - 50)%R with 0%R by lra. rewrite Rabs_R0. lra.
Qed.
Example C117_gaussian_ex : fargs3 fV fin3 fout3 None /\ kernel1_ok P_FNorm.ek /\ nonneg_numbers F32 (k_data P_FNorm.ek) /\ fbounded fV fin3 60 /\
  line_weights P_FNorm.ek (ji_width fin3) 3 4 /\ line_weights P_FNorm.ek (ji_height fin3) 3 4 /\
  safe_passes F32 (length (k_data P_FNorm.ek)) 60 3 4 /\
  exists V' st, f_java_gaussian false P_FNorm.ek fV fin3 fout3 None = Ok (V', fout3, st) /\ ji_array st = 4.
Proof.
  split; [apply fargs3_ex|]. split; [unfold kernel1_ok; cbn; unfold zlen; cbn [length]; lia|]. split; [exact P_FNorm.ek_num|].
  split; [exact fbounded_ex3|]. split; [apply P_FNorm.ek_weights; cbn; lia|]. split; [apply P_FNorm.ek_weights; cbn; lia|].
  split; [apply P_FNorm.ek_safe; lra|]. do 2 eexists. split; [vm_compute; reflexivity|]. reflexivity.
Qed.

(** The blur refuses its radius, the normalized convolution an output of another size, with an exception that leaves the native
    code. *)
Theorem C117_failure_refuted : exists V inp out storage k r, fargs3 V inp out storage /\ fkernel1_ok k /\
  (forall c g o s, blur_mean (float_narith F32) (float_marith F32) (S754_zero false) c (u32 r) g o s = Throw) /\
  (forall pinned, f_java_mean pinned r V inp out storage = Undef) /\ ji_sub out = false /\
  (forall g o, fshows V inp g -> g_width o = ji_width out ->
     normalized_h (float_narith F32) (mkKernel (fk_width k) (fk_offset k) (fk_data k)) g o = Throw) /\
  f_java_normalized_h V k inp out = Undef /\ f_java_normalized_v V k inp out = Undef.
Proof.
  exists fV, fin, fown, None, fk3, 0. split; [apply fargs3_ex|]. split; [split; [cbn; lia|split; [cbn; lia|reflexivity]]|].
  split; [reflexivity|]. split; [intros [|]; vm_compute; reflexivity|]. split; [reflexivity|]. split; [|split; vm_compute; reflexivity].
  intros g o (_ & Gw & _) Ow. apply normalized_throws. left. now rewrite Gw, Ow.
Qed.
Print Assumptions C117_failure_refuted.

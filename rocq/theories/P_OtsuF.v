(** Otsu's method on images of floats: C124. *)
From Coq Require Import QArith Reals Lia Lra Floats.SpecFloat.
From Flocq Require Import Core BinarySingleNaN.
From Verif Require Import Base BaseFacts M_Image S_Image L_Image M_Float S_Ieee M_Native S_Native M_NativeF S_NativeF S_Stats S_Convolve S_Binary S_FOtsu M_OtsuF S_OtsuF L_OtsuF.
From Verif Require P_Native P_FBlur P_NativeF.
Open Scope Z_scope.

(** The threshold is a split of the counts per unit interval that no other beats by much. *)
Theorem C124_index : forall f, standard f -> forall g mn mx,
  wf g -> finite f mn -> val mn = 0%R -> finite f mx -> (0 <= val mx < 16777215)%R -> within f g (val mx) ->
  exists n th, f_image_otsu f g mn mx false = Ok th /\ near_best (unit_counts g n) th /\ 0 <= th < n /\
    (n = Zfloor (val mx) + 1 \/ n = Zfloor (val mx) + 2) /\ (IZR (Zfloor (val mx)) = val mx -> n = Zfloor (val mx) + 1).
Proof. exact f_otsu_index. Qed.
Print Assumptions C124_index.

(** Pixels are compared with the number of the interval, not with its end. *)
Theorem C124_filter : forall f, standard f -> forall g mn mx down out o,
  wf g -> finite f mn -> val mn = 0%R -> finite f mx -> (0 <= val mx < 16777215)%R -> within f g (val mx) ->
  wf out -> gray_reshape 0 out (g_width g) (g_height g) = Ok o ->
  exists n th out' F, f_global_otsu f g mn mx down out = Ok out' /\ near_best (unit_counts g n) th /\ 0 <= th < n /\
    (n = Zfloor (val mx) + 1 \/ n = Zfloor (val mx) + 2) /\ (IZR (Zfloor (val mx)) = val mx -> n = Zfloor (val mx) + 1) /\
    holds g o out' F /\
    forall x y v, pixel g x y = Some v -> exists b, F x y = Some b /\ (b = 0 \/ b = 1) /\
      (b = 1 <-> if down then (val v <= IZR th)%R else (IZR th < val v)%R).
Proof. exact f_otsu_filter. Qed.
Print Assumptions C124_filter.

(** For whole numbers that is the same: the two classes of the split are told apart. *)
Theorem C124_whole : forall f, standard f -> forall g mn mx down out o,
  wf g -> finite f mn -> val mn = 0%R -> finite f mx -> (0 <= val mx < 16777215)%R -> within f g (val mx) -> whole g ->
  wf out -> gray_reshape 0 out (g_width g) (g_height g) = Ok o ->
  exists n th out' F, f_global_otsu f g mn mx down out = Ok out' /\ near_best (unit_counts g n) th /\ 0 <= th < n /\
    (n = Zfloor (val mx) + 1 \/ n = Zfloor (val mx) + 2) /\ holds g o out' F /\
    forall x y v, pixel g x y = Some v -> exists b, F x y = Some b /\ (b = 0 \/ b = 1) /\
      (b = 1 <-> if down then Zfloor (val v) <= th else th < Zfloor (val v)).
Proof. exact f_otsu_whole. Qed.
Print Assumptions C124_whole.

Theorem C124_java : forall mn mx down V inp out, fbargs V inp out ->
  finite F32 (to_single mn) -> val (to_single mn) = 0%R -> finite F32 (to_single mx) -> (0 <= val (to_single mx) < 16777215)%R ->
  (forall x y v, fpixel V inp x y = Some v -> finite F32 v /\ (0 <= val v <= val (to_single mx))%R) ->
  let s := f_otsu_new mn mx down in
  forall after, exists n th g V' out' F, f_java_filter f_otsu_process after s V inp out = Ok (s, V', out') /\ fbeffect V inp out V' out' F /\
    fshows V inp g /\ near_best (unit_counts g n) th /\ 0 <= th < n /\
    (n = Zfloor (val (to_single mx)) + 1 \/ n = Zfloor (val (to_single mx)) + 2) /\
    forall x y v, fpixel V inp x y = Some v -> exists b, F x y = Some b /\ (b = 0 \/ b = 1) /\
      (b = 1 <-> if down then (val v <= IZR th)%R else (IZR th < val v)%R).
Proof. exact f_otsu_java. Qed.
Print Assumptions C124_java.

(** A 2x2 view of whole numbers, and the same from Java. *)
Notation z32 := P_FBlur.z32.
Definition qdata : list spec_float := [z32 99; z32 1; z32 2; z32 99; z32 8; z32 9; z32 99].
Definition qimg : gray spec_float := mkGray 2 2 1 3 true qdata.
Definition qV : fvm := mkFvm (mkJvm [repeat 7 7] []) [qdata] [].
Definition qin : jimage := mkJimage 2 2 1 3 true 0.
Lemma qimg_wf : wf qimg.
Proof. unfold wf; cbn; unfold zlen; cbn [length]; repeat split; try lia; intros; discriminate. Qed.
Lemma qshows : fshows qV qin qimg.
Proof. split; [exact qimg_wf|]. split; [reflexivity|]. split; [reflexivity|]. intros x y. unfold pixel, fpixel. cbn [qin ji_width ji_height qimg g_width g_height]. destruct (_ && _); reflexivity. Qed.
Lemma four (P : spec_float -> Prop) g a b c d : g_width g = 2 -> g_height g = 2 -> pixel g 0 0 = Some a -> pixel g 1 0 = Some b -> pixel g 0 1 = Some c -> pixel g 1 1 = Some d ->
  P a -> P b -> P c -> P d -> forall x y v, pixel g x y = Some v -> P v.
Proof.
  intros W H A B C D Pa Pb Pc Pd x y v E. pose proof (pixel_Some _ _ _ _ E) as [H1 H2]. rewrite W in H1. rewrite H in H2.
  assert (x = 0 \/ x = 1) as [-> | ->] by lia; assert (y = 0 \/ y = 1) as [-> | ->] by lia; congruence.
Qed.
Lemma small_num z m : 0 <= z <= m -> Z.abs z <= 16777216 -> finite F32 (z32 z) /\ (0 <= val (z32 z) <= IZR m)%R.
Proof. intros Hz Ha. destruct (P_FBlur.z32_ok z Ha) as [F V]. split; auto. rewrite V. split; apply IZR_le; lia. Qed.
Lemma ten : finite F32 (z32 10) /\ val (z32 10) = 10%R.
Proof. apply P_FBlur.z32_ok. lia. Qed.
Lemma zero : finite F32 (z32 0) /\ val (z32 0) = 0%R.
Proof. apply P_FBlur.z32_ok. lia. Qed.
Lemma qwithin : within F32 qimg 10.
Proof. unfold within. apply (four (fun v => finite F32 v /\ (0 <= val v <= 10)%R) qimg (z32 1) (z32 2) (z32 8) (z32 9)); try reflexivity; (apply small_num; lia). Qed.
Lemma qwhole : whole qimg.
Proof.
  unfold whole. apply (four (fun v => exists z, val v = IZR z) qimg (z32 1) (z32 2) (z32 8) (z32 9)); try reflexivity;
    [exists 1|exists 2|exists 8|exists 9]; apply P_FBlur.z32_ok; lia.
Qed.
Example C124_ex : wf qimg /\ finite F32 (z32 0) /\ val (z32 0) = 0%R /\ finite F32 (z32 10) /\ (0 <= val (z32 10) < 16777215)%R /\
  within F32 qimg (val (z32 10)) /\ whole qimg /\ wf (gray_new 7 1 1) /\ gray_reshape 0 (gray_new 7 1 1) 2 2 = Ok (gray_new 0 2 2) /\
  f_image_otsu F32 qimg (z32 0) (z32 10) false = Ok 2 /\
  f_global_otsu F32 qimg (z32 0) (z32 10) true (gray_new 7 1 1) = Ok (mkGray 2 2 0 2 false [1;1;0;0]) /\
  f_global_otsu F32 qimg (z32 0) (z32 10) false (gray_new 7 1 1) = Ok (mkGray 2 2 0 2 false [0;0;1;1]).
Proof.
  destruct ten as [T1 T2], zero as [Z1 Z2]. rewrite T2. split; [exact qimg_wf|]. split; [exact Z1|]. split; [exact Z2|]. split; [exact T1|].
  split; [lra|]. split; [exact qwithin|]. split; [exact qwhole|]. split; [apply wf_new; lia|]. split; [reflexivity|].
  split; [vm_compute; reflexivity|]. split; vm_compute; reflexivity.
Qed.
Lemma ten_single : to_single (float_of_Z F64 10) = z32 10 /\ to_single (float_of_Z F64 0) = z32 0.
Proof. split; vm_compute; reflexivity. Qed.
Example C124_java_ex : fbargs qV qin qin /\ finite F32 (to_single (float_of_Z F64 0)) /\ val (to_single (float_of_Z F64 0)) = 0%R /\
  finite F32 (to_single (float_of_Z F64 10)) /\ (0 <= val (to_single (float_of_Z F64 10)) < 16777215)%R /\
  (forall x y v, fpixel qV qin x y = Some v -> finite F32 v /\ (0 <= val v <= val (to_single (float_of_Z F64 10)))%R) /\
  forall after, exists V', let s := f_otsu_new (float_of_Z F64 0) (float_of_Z F64 10) false in
    f_java_filter f_otsu_process after s qV qin qin = Ok (s, V', qin) /\
    jv_arrays (fv_int V') = [[7; 0;0; 7; 1;1; 7]] /\ fv_floats V' = fv_floats qV.
Proof.
  destruct ten_single as [-> ->]. destruct ten as [T1 T2], zero as [Z1 Z2]. rewrite T2.
  split; [split; [P_NativeF.fvalid_tac|P_Native.jvalid_tac|split; reflexivity|split; cbn; [auto|lia]]|].
  split; [exact Z1|]. split; [exact Z2|]. split; [exact T1|]. split; [lra|].
  split; [intros x y v E; apply (qwithin x y v); destruct qshows as (_ & _ & _ & P); now rewrite P|].
  intros after. eexists. cbv zeta. split; [vm_compute; reflexivity|]. split; reflexivity.
Qed.

(** Where the claim fails. *)

(** Fractions: of the pixels 0.5, 0.5, 10.5, 10.5 the split puts the first two in the low class, but 0.5 is above the threshold 0, so
    nothing is marked as low. *)
Definition half (z : Z) : spec_float := fdiv F32 (float_of_Z F32 z) (float_of_Z F32 2).
Definition himg : gray spec_float := mkGray 2 2 0 2 false [half 1; half 1; half 21; half 21].
Lemma half_1 : finite F32 (half 1) /\ val (half 1) = (1 / 2)%R.
Proof.
  split; [split; vm_compute; reflexivity|]. replace (half 1) with (S754_finite false 8388608 (-24)) by (vm_compute; reflexivity).
  unfold val, SF2R, F2R. cbn [cond_Zopp Fnum Fexp]. unfold bpow. change (Z.pow_pos radix2 24) with 16777216. lra.
Qed.
Lemma half_21 : finite F32 (half 21) /\ val (half 21) = (21 / 2)%R.
Proof.
  split; [split; vm_compute; reflexivity|]. replace (half 21) with (S754_finite false 11010048 (-20)) by (vm_compute; reflexivity).
  unfold val, SF2R, F2R. cbn [cond_Zopp Fnum Fexp]. unfold bpow. change (Z.pow_pos radix2 20) with 1048576. lra.
Qed.
Theorem C124_split_refuted : exists g mx th out, wf g /\ finite F32 mx /\ (0 <= val mx < 16777215)%R /\ within F32 g (val mx) /\
  near_best (unit_counts g (Zfloor (val mx) + 1)) th /\ f_image_otsu F32 g (z32 0) mx false = Ok th /\
  f_global_otsu F32 g (z32 0) mx true (gray_new 7 1 1) = Ok out /\
  (exists v, pixel g 0 0 = Some v /\ Zfloor (val v) <= th) /\ (exists v, pixel g 0 1 = Some v /\ th < Zfloor (val v)) /\
  forall x y b, pixel out x y = Some b -> b = 0.
Proof.
  assert (T : finite F32 (z32 11) /\ val (z32 11) = 11%R) by (apply P_FBlur.z32_ok; lia). destruct T as [T1 T2], zero as [Z1 Z2].
  assert (Wg : wf himg) by (unfold wf; cbn; unfold zlen; cbn [length]; repeat split; lia).
  assert (Win : within F32 himg 11).
  { destruct half_1 as [A1 A2], half_21 as [B1 B2].
    unfold within. apply (four (fun v => finite F32 v /\ (0 <= val v <= 11)%R) himg (half 1) (half 1) (half 21) (half 21)); try reflexivity; (split; [assumption|lra]). }
  destruct (C124_index F32 (or_introl eq_refl) himg (z32 0) (z32 11)) as (n & th & E & B & _ & _ & D); rewrite ?T2; auto; [lra|].
  assert (th = 0). { assert (E0 : f_image_otsu F32 himg (z32 0) (z32 11) false = Ok 0) by (vm_compute; reflexivity). congruence. }
  subst th. specialize (D ltac:(rewrite T2, Zfloor_IZR; reflexivity)). subst n.
  exists himg, (z32 11), 0, (mkGray 2 2 0 2 false [0;0;0;0]). split; [exact Wg|]. split; [exact T1|]. split; [rewrite T2; lra|].
  split; [rewrite T2; exact Win|]. split; [exact B|]. split; [exact E|]. split; [vm_compute; reflexivity|].
  split; [|split].
  - eexists. split; [reflexivity|]. rewrite (proj2 half_1). rewrite (Zfloor_imp 0); [lia|]. change (0 + 1) with 1. lra.
  - eexists. split; [reflexivity|]. rewrite (proj2 half_21). rewrite (Zfloor_imp 10); [lia|]. change (10 + 1) with 11. lra.
  - intros x y b P. unfold pixel in P. destruct (_ && _); [|discriminate]. apply znth_In in P. cbn in P. intuition.
Qed.
Print Assumptions C124_split_refuted.

(** A smallest value other than 0: the threshold counts from it, the pixels do not. *)
Theorem C124_min_refuted : exists g mn mx th out, wf g /\ finite F32 mn /\ finite F32 mx /\ (0 < val mn)%R /\
  (forall x y v, pixel g x y = Some v -> finite F32 v /\ (val mn <= val v <= val mx)%R) /\ f_image_otsu F32 g mn mx false = Ok th /\
  f_global_otsu F32 g mn mx true (gray_new 7 1 1) = Ok out /\
  (exists v, pixel g 0 0 = Some v /\ (val v - val mn <= IZR th)%R) /\ (exists v, pixel g 0 1 = Some v /\ (IZR th < val v - val mn)%R) /\
  forall x y b, pixel out x y = Some b -> b = 0.
Proof.
  assert (V : forall z, 0 <= z <= 10 -> finite F32 (z32 z) /\ val (z32 z) = IZR z) by (intros; apply P_FBlur.z32_ok; lia).
  exists (mkGray 2 2 0 2 false [z32 6; z32 6; z32 9; z32 9]), (z32 5), (z32 10), 1, (mkGray 2 2 0 2 false [0;0;0;0]).
  destruct (V 5) as [A1 A2]; [lia|]. destruct (V 6) as [B1 B2]; [lia|]. destruct (V 9) as [C1 C2]; [lia|]. destruct (V 10) as [D1 D2]; [lia|].
  split; [unfold wf; cbn; unfold zlen; cbn [length]; repeat split; lia|]. split; [exact A1|]. split; [exact D1|]. rewrite A2, D2. split; [lra|].
  split; [apply (four (fun v => finite F32 v /\ (5 <= val v <= 10)%R) _ (z32 6) (z32 6) (z32 9) (z32 9)); try reflexivity; (split; [assumption|lra])|].
  split; [vm_compute; reflexivity|]. split; [vm_compute; reflexivity|].
  split; [eexists; split; [reflexivity|]; rewrite B2; lra|]. split; [eexists; split; [reflexivity|]; rewrite C2; lra|].
  intros x y b P. unfold pixel in P. destruct (_ && _); [|discriminate]. apply znth_In in P. cbn in P. intuition.
Qed.
Print Assumptions C124_min_refuted.

(** One pixel that is no number, or one well above the largest value, makes the call undefined. *)
Theorem C124_undefined_refuted : exists g g' mx, wf g /\ wf g' /\ finite F32 mx /\
  pixel g 1 1 = Some S754_nan /\ (exists v, pixel g' 1 1 = Some v /\ finite F32 v /\ (val mx < val v)%R) /\
  (forall x y v, (x, y) <> (1, 1) -> pixel g x y = Some v \/ pixel g' x y = Some v -> finite F32 v /\ (0 <= val v <= val mx)%R) /\
  forall two, f_image_otsu F32 g (z32 0) mx two = Undef /\ f_image_otsu F32 g' (z32 0) mx two = Undef.
Proof.
  assert (V : forall z, 0 <= z <= 12 -> finite F32 (z32 z) /\ val (z32 z) = IZR z) by (intros; apply P_FBlur.z32_ok; lia).
  exists (mkGray 2 2 0 2 false [z32 6; z32 6; z32 9; S754_nan]), (mkGray 2 2 0 2 false [z32 6; z32 6; z32 9; z32 12]), (z32 10).
  destruct (V 6) as [B1 B2]; [lia|]. destruct (V 9) as [C1 C2]; [lia|]. destruct (V 10) as [D1 D2]; [lia|]. destruct (V 12) as [E1 E2]; [lia|].
  split; [unfold wf; cbn; unfold zlen; cbn [length]; repeat split; lia|]. split; [unfold wf; cbn; unfold zlen; cbn [length]; repeat split; lia|].
  split; [exact D1|]. split; [reflexivity|]. rewrite D2. split; [eexists; split; [reflexivity|]; split; [exact E1|rewrite E2; lra]|]. split.
  - assert (Q : forall l x y v, (x, y) <> (1, 1) -> pixel (mkGray 2 2 0 2 false [z32 6; z32 6; z32 9; l]) x y = Some v -> v = z32 6 \/ v = z32 9).
    { intros l x y v N P. pose proof (pixel_Some _ _ _ _ P) as [P1 P2]. cbn [g_width g_height] in P1, P2.
      assert (x = 0 \/ x = 1) as [-> | ->] by lia; assert (y = 0 \/ y = 1) as [-> | ->] by lia; injection P as <-; auto. now destruct N. }
    intros x y v N [P|P]; (destruct (Q _ _ _ _ N P) as [-> | ->]; split; [assumption|lra|assumption|lra]).
  - intros two. split; destruct two; vm_compute; reflexivity.
Qed.
Print Assumptions C124_undefined_refuted.

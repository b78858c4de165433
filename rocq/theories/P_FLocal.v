(** Thresholding of float and double images by local means: C110. *)
From Coq Require Import Reals QArith Lia Lra.
From Coq Require Import Floats.SpecFloat.
From Verif Require Import Base BaseFacts M_Image S_Image L_Image M_Convolve S_Convolve M_Normalized M_Blur M_Float M_Otsu M_Config M_Local.
From Verif Require Import S_Ieee S_FConv S_FNorm S_FBlur S_FLocal L_Ieee L_PointF L_FBlur L_FLocal P_FBlur.
Open Scope Z_scope.

(** C107.  The mean that the two passes of the mean blur approach is the mean of the pixels of the square. *)
Theorem C107_square : forall (g : gray spec_float) r x y, wf g -> inside g x y -> 0 <= r ->
  box_both g r x y = average (square g r x y).
Proof. intros g r x y W [Hx Hy] Hr. exact (square_mean g r x W Hx Hr y Hy). Qed.
Print Assumptions C107_square.
Example C107_square_ex : wf eg /\ inside eg 0 0 /\ average (square eg 1 0 0) = 30%R.
Proof.
  split; [exact eg_wf|]. split; [split; cbn; lia|].
  assert (E : square eg 1 0 0 = map val [z32 10; z32 20; z32 40; z32 50]) by reflexivity. rewrite E.
  unfold average. cbn [map fold_right length INR].
  rewrite (proj2 (z32_ok 10 ltac:(lia))), (proj2 (z32_ok 20 ltac:(lia))), (proj2 (z32_ok 40 ltac:(lia))), (proj2 (z32_ok 50 ltac:(lia))). lra.
Qed.

(** C110.  Every pixel of the output is 0 or 1, and it is the right one unless the pixel is so close to the scaled mean of
    its square that rounding can tip the decision. *)
Theorem C110_threshold : forall f, standard f -> forall D (O : dops D) (width : clen D) down (scale : spec_float) n r M
    (g : gray spec_float) (out : gray Z) (s1 s2 : gray spec_float),
  clen_computeI O width (d_of O (Z.min (g_width g) (g_height g))) = Ok n -> r = n / 2 -> 0 < r -> 2 * r + 1 <= 1073741824 ->
  wf g -> wf out -> wf s1 -> wf s2 -> g_sub s1 = false -> g_sub s2 = false ->
  g_sub out = false \/ (g_width out = g_width g /\ g_height out = g_height g) ->
  0 < g_width g <= 1073741824 -> 0 < g_height g <= 1073741824 ->
  zlen (g_data g) < 2147483648 -> zlen (g_data s2) < 2147483648 -> g_width g * (g_height g + 1) <= 4294967296 ->
  g_width g < 2 * r + 1 \/ 2 * r + 1 <= g_height g ->
  finite f scale -> bounded_numbers f g M -> safe_line f r M (g_width g) ->
  safe_line f r (M + longest_error f r M (g_width g)) (g_height g) ->
  (2 * (Rabs (val scale) * (M + blur_error f r M g)) + 1 < huge f)%R ->
  exists o out' s1' s2', gray_reshape 0 out (g_width g) (g_height g) = Ok o /\
    local_mean O (float_narith f) (float_marith f) (S754_zero false) (mean_coefficient f) (float_lcmp f scale) width down g out s1 s2
      = Ok (out', (s1', s2')) /\
    g_width out' = g_width g /\ g_height out' = g_height g /\ same_layout o out' /\
    (forall j, outside_window o j -> znth (g_data out') j = znth (g_data o) j) /\
    (forall x y, inside g x y -> exists v b, pixel g x y = Some v /\ pixel out' x y = Some b /\ (b = 0 \/ b = 1) /\
       let m := average (square g r x y) in
       (tipping f down (val scale) (val v) m (blur_error f r M g) < clearance down (val scale) (val v) m)%R ->
       (b = 1 <-> is_set down (val scale) (val v) m)) /\
    wf s1' /\ wf s2' /\ g_sub s1' = false /\ g_sub s2' = false.
Proof. exact @local_mean_float. Qed.
Print Assumptions C110_threshold.

Lemma blur_small : (0 <= blur_error F32 1 90 eg <= 2)%R.
Proof.
  unfold blur_error. pose proof (longest_small 90 (g_width eg) ltac:(lra) ltac:(cbn; lia)) as A.
  pose proof (longest_small (90 + longest_error F32 1 90 (g_width eg)) (g_height eg) ltac:(lra) ltac:(cbn; lia)). lra.
Qed.
Example C110_example : clen_computeI exact (clen_fixed exact 3%Q) (d_of exact (Z.min (g_width eg) (g_height eg))) = Ok 3 /\
  2 * 1 + 1 <= g_height eg /\ finite F32 (z32 1) /\ bounded_numbers F32 eg 90 /\ safe_line F32 1 90 (g_width eg) /\
  safe_line F32 1 (90 + longest_error F32 1 90 (g_width eg)) (g_height eg) /\
  (2 * (Rabs (val (z32 1)) * (90 + blur_error F32 1 90 eg)) + 1 < huge F32)%R /\
  (tipping F32 true (val (z32 1)) (val (z32 10)) (average (square eg 1 0 0)) (blur_error F32 1 90 eg)
     < clearance true (val (z32 1)) (val (z32 10)) (average (square eg 1 0 0)))%R /\
  exists out' st, local_mean exact (float_narith F32) (float_marith F32) (S754_zero false) (mean_coefficient F32)
      (float_lcmp F32 (z32 1)) (clen_fixed exact 3%Q) true eg (gray_new 0 1 1) (gray_new (z32 0) 0 0) (gray_new (z32 0) 0 0)
      = Ok (out', st) /\
    g_data out' = [1; 1; 1; 0; 1; 1; 0; 0; 0; 0; 0; 1].
Proof.
  split; [reflexivity|]. split; [cbn; lia|]. split; [apply z32_ok; lia|]. split; [exact eg_num|].
  split; [apply line_safe; [lra|cbn; lia]|]. split.
  { pose proof (longest_small 90 (g_width eg) ltac:(lra) ltac:(cbn; lia)). apply line_safe; [lra|cbn; lia]. }
  pose proof blur_small as B. rewrite (proj2 (proj2 C107_square_ex)).
  rewrite (proj2 (z32_ok 1 ltac:(lia))), (proj2 (z32_ok 10 ltac:(lia))). unfold tipping, clearance.
  rewrite (Rabs_pos_eq 1), (Rabs_pos_eq 30) by lra.
  destruct (unit_small F32 (or_introl eq_refl)) as [U0 U]. destruct (tiny_small F32 (or_introl eq_refl)) as [T0 T].
  pose proof (huge_big F32 (or_introl eq_refl)).
  split; [lra|]. split; [rewrite (Rabs_left (10 - 30 * 1)) by lra; nra|].
  do 2 eexists. split; [vm_compute; reflexivity|]. vm_compute. reflexivity.
Qed.

(** A pixel that is not a number spoils the rest of its row: the decision at a pixel changes although nothing in its square
    does. *)
Theorem C110_nan_refuted : exists (a b : gray spec_float) (ra rb : gray Z) st st' x y va vb,
  wf a /\ wf b /\ g_width a = g_width b /\ g_height a = g_height b /\
  (forall i j, i <> 0 -> pixel a i j = pixel b i j) /\ 1 < x /\
  local_mean exact (float_narith F32) (float_marith F32) (S754_zero false) (mean_coefficient F32)
    (float_lcmp F32 (z32 1)) (clen_fixed exact 3%Q) true a (gray_new 0 0 0) (gray_new (z32 0) 0 0) (gray_new (z32 0) 0 0) = Ok (ra, st) /\
  local_mean exact (float_narith F32) (float_marith F32) (S754_zero false) (mean_coefficient F32)
    (float_lcmp F32 (z32 1)) (clen_fixed exact 3%Q) true b (gray_new 0 0 0) (gray_new (z32 0) 0 0) (gray_new (z32 0) 0 0) = Ok (rb, st') /\
  pixel ra x y = Some va /\ pixel rb x y = Some vb /\ va <> vb.
Proof.
  exists (mkGray 5 3 0 5 false (repeat (z32 1) 15)), (mkGray 5 3 0 5 false (repeat (z32 1) 5 ++ S754_nan :: repeat (z32 1) 9)).
  do 4 eexists. exists 3, 1, 1, 0.
  split; [unfold wf; cbn; unfold zlen; cbn [length]; repeat split; lia|].
  split; [unfold wf; cbn; unfold zlen; cbn [length]; repeat split; lia|].
  split; [reflexivity|]. split; [reflexivity|]. split.
  { intros i j Hi. unfold pixel. cbn [g_width g_height g_data g_offset g_stride].
    destruct (_ && _) eqn:C; [|reflexivity].
    assert (i = 1 \/ i = 2 \/ i = 3 \/ i = 4) as I by lia. assert (j = 0 \/ j = 1 \/ j = 2) as J by lia.
    destruct I as [->|[->|[->| ->]]]; destruct J as [->|[->| ->]]; reflexivity. }
  split; [lia|]. split; [vm_compute; reflexivity|]. split; [vm_compute; reflexivity|]. split; [reflexivity|].
  split; [reflexivity|]. discriminate.
Qed.
Print Assumptions C110_nan_refuted.

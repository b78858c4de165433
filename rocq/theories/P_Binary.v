(** Properties of pixel-wise logic, morphology and thresholds: C31, C32, C33, C34, C59. *)
From Verif Require Import BaseFacts M_Image S_Image L_Image M_Convolve S_Convolve M_Heap S_Heap M_Binary S_Binary L_Heap L_Binary.

(** C31.  [good H a g]: object [a] shows image [g] in heap [H].  The output has the shape of the inputs and shares memory
    with them at most pixel on pixel (for instance it is one of them), or it owns other memory. *)
Theorem C31_logicAnd : forall H a b out ga gb go,
  good H a ga -> good H b gb -> good H out go ->
  h_width b = h_width a -> h_height b = h_height a ->
  (h_width out = h_width a /\ h_height out = h_height a /\ aligned a out /\ aligned b out) \/
  (h_sub out = false /\ h_block a <> h_block out /\ h_block b <> h_block out) ->
  exists H' o' g1 g', gray_reshape 0 go (h_width a) (h_height a) = Ok g1 /\
    logicAnd H a b out = Ok (H', o') /\ good H' o' g' /\
    (h_width out = h_width a /\ h_height out = h_height a -> o' = out) /\
    (forall k, k <> h_block out -> (k < length H)%nat -> nth_error H' k = nth_error H k) /\
    holds g1 g1 g' (both ga gb).
Proof. exact logicAnd_ok. Qed.
Print Assumptions C31_logicAnd.

Theorem C31_logicOr : forall H a b out ga gb go,
  good H a ga -> good H b gb -> good H out go ->
  h_width b = h_width a -> h_height b = h_height a ->
  (h_width out = h_width a /\ h_height out = h_height a /\ aligned a out /\ aligned b out) \/
  (h_sub out = false /\ h_block a <> h_block out /\ h_block b <> h_block out) ->
  exists H' o' g1 g', gray_reshape 0 go (h_width a) (h_height a) = Ok g1 /\
    logicOr H a b out = Ok (H', o') /\ good H' o' g' /\
    (h_width out = h_width a /\ h_height out = h_height a -> o' = out) /\
    (forall k, k <> h_block out -> (k < length H)%nat -> nth_error H' k = nth_error H k) /\
    holds g1 g1 g' (either ga gb).
Proof. exact logicOr_ok. Qed.
Print Assumptions C31_logicOr.

(** An object is aligned with itself: in-place use is covered. *)
Theorem C31_in_place : forall H a (g : gray Z), good H a g -> aligned a a.
Proof. exact aligned_self. Qed.
Print Assumptions C31_in_place.

(** Different shapes are rejected; nothing is written since the heap is not returned. *)
Theorem C31_shape : forall H a b out, h_width b <> h_width a \/ h_height b <> h_height a ->
  logicAnd H a b out = Throw /\ logicOr H a b out = Throw.
Proof. exact logic_shape. Qed.
Print Assumptions C31_shape.

(** Block 0 holds the first input, which is also the output, block 1 a sub-image used as second input. *)
Definition heap0 : heap Z := [Some [0;7;1;1;0;0]; Some [9;9;1;0;1;9;0;5;0;9]].
Definition obj_a : himg := mkHimg 3 2 0 3 false 0 6.
Definition obj_b : himg := mkHimg 3 2 2 4 true 1 10.
Example C31_hypotheses :
  good heap0 obj_a (mkGray 3 2 0 3 false [0;7;1;1;0;0]) /\
  good heap0 obj_b (mkGray 3 2 2 4 true [9;9;1;0;1;9;0;5;0;9]) /\
  h_width obj_b = h_width obj_a /\ h_height obj_b = h_height obj_a /\ aligned obj_a obj_a /\ aligned obj_b obj_a /\
  logicAnd heap0 obj_a obj_b obj_a = Ok ([Some [0;0;1;0;0;0]; Some [9;9;1;0;1;9;0;5;0;9]], obj_a) /\
  logicOr heap0 obj_a obj_b obj_a = Ok ([Some [1;1;1;1;1;0]; Some [9;9;1;0;1;9;0;5;0;9]], obj_a).
Proof.
  assert (G : good heap0 obj_a (mkGray 3 2 0 3 false [0;7;1;1;0;0])).
  { split; [reflexivity|]. split; [|reflexivity]. unfold wf; cbn; repeat split; try lia; intros; discriminate. }
  split; [exact G|]. split.
  { split; [reflexivity|]. split; [|reflexivity]. unfold wf; cbn; repeat split; try lia; intros; discriminate. }
  split; [reflexivity|]. split; [reflexivity|]. split; [exact (aligned_self _ _ _ G)|]. split; [intros E; discriminate|].
  split; reflexivity.
Qed.

(** C32: the interior of the result is the erosion / dilation by the cross, edge pixels and memory outside the window keep
    their contents.  [o] is the output after it was given the shape of the input. *)
Theorem C32_erode : forall (g out o : gray Z), wf g -> wf out -> binary g ->
  gray_reshape 0 out (g_width g) (g_height g) = Ok o ->
  0 < g_width g <= 2147483648 -> 0 < g_height g <= 2147483648 ->
  exists out', erode4 g out = Ok out' /\ same_layout o out' /\
  (forall x y, interior g x y -> pixel out' x y = Some (if all_set g (cross x y) then 1 else 0)) /\
  (forall x y, inside g x y -> ~ interior g x y -> pixel out' x y = pixel o x y) /\
  (forall j, outside_window o j -> znth (g_data out') j = znth (g_data o) j).
Proof. exact erode4_ok. Qed.
Print Assumptions C32_erode.

Theorem C32_dilate : forall (g out o : gray Z), wf g -> wf out -> binary g ->
  gray_reshape 0 out (g_width g) (g_height g) = Ok o ->
  0 < g_width g <= 2147483648 -> 0 < g_height g <= 2147483648 ->
  exists out', dilate4 g out = Ok out' /\ same_layout o out' /\
  (forall x y, interior g x y -> pixel out' x y = Some (if some_set g (cross x y) then 1 else 0)) /\
  (forall x y, inside g x y -> ~ interior g x y -> pixel out' x y = pixel o x y) /\
  (forall j, outside_window o j -> znth (g_data out') j = znth (g_data o) j).
Proof. exact dilate4_ok. Qed.
Print Assumptions C32_dilate.

(** Duality: eroding an image and dilating its complement give complementary pixels. *)
Theorem C32_duality : forall (g g' out out' o o' r r' : gray Z) x y,
  wf g -> wf g' -> wf out -> wf out' -> binary g -> complement g g' ->
  gray_reshape 0 out (g_width g) (g_height g) = Ok o -> gray_reshape 0 out' (g_width g') (g_height g') = Ok o' ->
  0 < g_width g <= 2147483648 -> 0 < g_height g <= 2147483648 -> interior g x y ->
  erode4 g out = Ok r -> dilate4 g' out' = Ok r' ->
  exists v, pixel r x y = Some v /\ pixel r' x y = Some (1 - v).
Proof. exact erode_dilate_dual. Qed.
Print Assumptions C32_duality.

(** Erosion shrinks, dilation grows the interior. *)
Theorem C32_shrink_grow : forall (g out o r s : gray Z) x y, wf g -> wf out -> binary g ->
  gray_reshape 0 out (g_width g) (g_height g) = Ok o ->
  0 < g_width g <= 2147483648 -> 0 < g_height g <= 2147483648 -> interior g x y ->
  erode4 g out = Ok r -> dilate4 g out = Ok s ->
  (is_set r x y = true -> is_set g x y = true) /\ (is_set g x y = true -> is_set s x y = true).
Proof. exact erode_dilate_mono. Qed.
Print Assumptions C32_shrink_grow.

Definition b4 : gray Z := mkGray 5 4 0 5 false [1;1;1;1;0; 1;1;1;1;0; 1;1;1;1;1; 0;0;1;0;0].
Definition b4' : gray Z := mkGray 5 4 0 5 false [0;0;0;0;1; 0;0;0;0;1; 0;0;0;0;0; 1;1;0;1;1].
Lemma b4_wf : wf b4 /\ wf b4'.
Proof. split; unfold wf; cbn; repeat split; try lia; intros; discriminate. Qed.
Lemma b4_cases (P : Z -> Z -> Prop) : (forall x, In x [0;1;2;3;4] -> forall y, In y [0;1;2;3] -> P x y) ->
  forall x y, 0 <= x < 5 -> 0 <= y < 4 -> P x y.
Proof. intros H x y Hx Hy. apply H; cbn; lia. Qed.
Lemma b4_complement : complement b4 b4'.
Proof.
  split; [reflexivity|]. split; [reflexivity|]. intros x y [Hx Hy]. cbn in Hx, Hy. revert x y Hx Hy. apply b4_cases.
  intros x [<-|[<-|[<-|[<-|[<-|[]]]]]] y [<-|[<-|[<-|[<-|[]]]]]; reflexivity.
Qed.
Lemma b4_binary : binary b4.
Proof.
  intros x y v Hv. pose proof (pixel_Some _ _ _ _ Hv) as [Hx Hy]. cbn in Hx, Hy. revert x y Hx Hy Hv. apply (b4_cases (fun x y => pixel b4 x y = Some v -> v = 0 \/ v = 1)).
  intros x [<-|[<-|[<-|[<-|[<-|[]]]]]] y [<-|[<-|[<-|[<-|[]]]]] Hv; injection Hv as <-; auto.
Qed.
Example C32_hypotheses : wf b4 /\ wf b4' /\ wf (gray_new 7 1 1) /\ binary b4 /\ complement b4 b4' /\
  (exists o, gray_reshape 0 (gray_new 7 1 1) (g_width b4) (g_height b4) = Ok o) /\
  0 < g_width b4 <= 2147483648 /\ 0 < g_height b4 <= 2147483648 /\ interior b4 3 1 /\
  (exists r, erode4 b4 (gray_new 7 1 1) = Ok r /\ g_data r = [0;0;0;0;0; 0;1;1;0;0; 0;0;1;0;0; 0;0;0;0;0]) /\
  (exists r, dilate4 b4' (gray_new 7 1 1) = Ok r /\ g_data r = [0;0;0;0;0; 0;0;0;1;0; 0;1;0;1;0; 0;0;0;0;0]).
Proof.
  split; [exact (proj1 b4_wf)|]. split; [exact (proj2 b4_wf)|]. split; [apply wf_new; lia|]. split; [exact b4_binary|].
  split; [exact b4_complement|]. split; [eexists; reflexivity|]. split; [cbn; lia|]. split; [cbn; lia|].
  split; [split; cbn; lia|]. split; eexists; split; reflexivity.
Qed.

(** C33: images without rows, and images without columns but at least three rows, make the loops leave the image. *)
Theorem C33_no_rows : forall test (g out : gray Z), wf g -> g_height g = 0 -> 2 < g_width g <= 2147483648 ->
  g_data g = [] -> g_sub g = false -> g_sub out = false -> morph4 test g out = Undef.
Proof. exact morph4_no_rows. Qed.
Print Assumptions C33_no_rows.
Theorem C33_no_columns : forall test (g out : gray Z), wf g -> g_width g = 0 -> 3 <= g_height g <= 2147483648 ->
  g_data g = [] -> g_sub g = false -> g_sub out = false -> morph4 test g out = Undef.
Proof. exact morph4_no_columns. Qed.
Print Assumptions C33_no_columns.
Example C33_hypotheses : wf (gray_new 0 5 0) /\ g_height (gray_new 0 5 0) = 0 /\ g_data (gray_new 0 5 0) = [] /\
  wf (gray_new 0 0 3) /\ g_width (gray_new 0 0 3) = 0 /\ g_data (gray_new 0 0 3) = [].
Proof. split; [apply wf_new; lia|]. split; [reflexivity|]. split; [reflexivity|]. split; [apply wf_new; lia|]. auto. Qed.

Theorem C33_refuted : exists g out : gray Z, wf g /\ wf out /\ erode4 g out = Undef /\ dilate4 g out = Undef.
Proof.
  exists (gray_new 0 5 0), (gray_new 0 1 1). split; [apply wf_new; lia|]. split; [apply wf_new; lia|].
  split; apply morph4_no_rows; try reflexivity; try (apply wf_new; lia); cbn; lia.
Qed.
Print Assumptions C33_refuted.

(** C34, for any pixel type and its comparisons. *)
Theorem C34_threshold : forall E (le gt : E -> E -> bool) (g : gray E) t down (out o : gray Z), wf g -> wf out ->
  gray_reshape 0 out (g_width g) (g_height g) = Ok o ->
  exists out', threshold le gt g t down out = Ok out' /\
    holds g o out' (fun x y => match pixel g x y with
      | Some v => Some (if (if down then le v t else gt v t) then 1 else 0) | None => None end).
Proof. exact @threshold_ok. Qed.
Print Assumptions C34_threshold.

(** Integer pixels: the two directions are complements. *)
Theorem C34_complement : forall (g out o r s : gray Z) t x y, wf g -> wf out ->
  gray_reshape 0 out (g_width g) (g_height g) = Ok o -> inside g x y ->
  threshold Z.leb Z.gtb g t true out = Ok r -> threshold Z.leb Z.gtb g t false out = Ok s ->
  exists v, pixel r x y = Some v /\ pixel s x y = Some (1 - v) /\ (v = 0 \/ v = 1).
Proof. exact threshold_complement. Qed.
Print Assumptions C34_complement.

Definition timg : gray Z := mkGray 4 3 1 5 true [9; 10;20;30;45; 9; 50;60;70;80; 9; 90;100;110;255; 9].
Lemma timg_wf : wf timg.
Proof. unfold wf; cbn; repeat split; try lia; intros; discriminate. Qed.
Example C34_hypotheses : wf timg /\ wf (gray_new 0 2 2) /\
  (exists o, gray_reshape 0 (gray_new 0 2 2) (g_width timg) (g_height timg) = Ok o) /\ inside timg 3 2 /\
  (exists r, threshold Z.leb Z.gtb timg 60 true (gray_new 0 2 2) = Ok r /\ g_data r = [1;1;1;1;1;1;0;0;0;0;0;0]) /\
  (exists r, threshold Z.leb Z.gtb timg 60 false (gray_new 0 2 2) = Ok r /\ g_data r = [0;0;0;0;0;0;1;1;1;1;1;1]).
Proof.
  split; [exact timg_wf|]. split; [apply wf_new; lia|]. split; [eexists; reflexivity|]. split; [split; cbn; lia|].
  split; eexists; split; reflexivity.
Qed.

(** C59: the documentation of threshold promises 1 for pixels equal to the threshold in both directions. *)
Theorem C59_threshold_equal_refuted : exists (g out r : gray Z) t, wf g /\ wf out /\ pixel g 0 0 = Some t /\
  threshold Z.leb Z.gtb g t false out = Ok r /\ pixel r 0 0 = Some 0.
Proof.
  exists (mkGray 1 1 0 1 false [60]), (gray_new 0 1 1), (mkGray 1 1 0 1 false [0]), 60.
  split; [unfold wf; cbn; repeat split; try lia; intros; discriminate|]. split; [apply wf_new; lia|]. split; [reflexivity|]. split; reflexivity.
Qed.
Print Assumptions C59_threshold_equal_refuted.

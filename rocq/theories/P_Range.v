(** Theorems about combining thresholds with logic (C145). *)
From Verif Require Import Base BaseFacts M_Image S_Image L_Image M_Heap S_Heap L_Heap M_Binary L_Binary S_Range L_Range.
Open Scope Z_scope.

(** C145: "and" of an upward and a downward threshold selects the pixels between the two. *)
Theorem C145_between : forall g lo hi o1 o2 r1 r2, wf g -> wf o1 -> wf o2 ->
  gray_reshape 0 o1 (g_width g) (g_height g) = Ok r1 -> gray_reshape 0 o2 (g_width g) (g_height g) = Ok r2 ->
  exists ga gb, threshold Z.leb Z.gtb g lo false o1 = Ok ga /\ threshold Z.leb Z.gtb g hi true o2 = Ok gb /\
    forall H a b out go, good H a ga -> good H b gb -> good H out go -> may_combine a b out ->
      exists H' o' m, logicAnd H a b out = Ok (H', o') /\ good H' o' m /\ mask_of g m (fun v => lo < v <= hi).
Proof. exact range_and. Qed.
Print Assumptions C145_between.

(** C145: "or" of a downward and an upward threshold selects the pixels that are not between the two. *)
Theorem C145_outside : forall g lo hi o1 o2 r1 r2, wf g -> wf o1 -> wf o2 ->
  gray_reshape 0 o1 (g_width g) (g_height g) = Ok r1 -> gray_reshape 0 o2 (g_width g) (g_height g) = Ok r2 ->
  exists ga gb, threshold Z.leb Z.gtb g lo true o1 = Ok ga /\ threshold Z.leb Z.gtb g hi false o2 = Ok gb /\
    forall H a b out go, good H a ga -> good H b gb -> good H out go -> may_combine a b out ->
      exists H' o' m, logicOr H a b out = Ok (H', o') /\ good H' o' m /\ mask_of g m (fun v => v <= lo \/ hi < v).
Proof. exact range_or. Qed.
Print Assumptions C145_outside.

(** C145: masks of any two properties of pixels combine to the mask of both, or of either. *)
Theorem C145_masks : forall H a b out g ga gb go P Q, good H a ga -> good H b gb -> good H out go -> may_combine a b out -> mask_of g ga P -> mask_of g gb Q ->
  (exists H' o' m, logicAnd H a b out = Ok (H', o') /\ good H' o' m /\ mask_of g m (fun v => P v /\ Q v)) /\
  (exists H' o' m, logicOr H a b out = Ok (H', o') /\ good H' o' m /\ mask_of g m (fun v => P v \/ Q v)).
Proof. exact masks. Qed.
Print Assumptions C145_masks.

(** C145: an image combined with itself in place becomes the mask of its pixels other than zero. *)
Theorem C145_itself : forall H a g, good H a g -> exists H1 o1 m1 H2 o2 m2, logicAnd H a a a = Ok (H1, o1) /\ good H1 o1 m1 /\ mask_of g m1 (fun v => v <> 0) /\
  logicOr H a a a = Ok (H2, o2) /\ good H2 o2 m2 /\ mask_of g m2 (fun v => v <> 0).
Proof. exact itself. Qed.
Print Assumptions C145_itself.

(** Pixels 10, 40 and 90 in a window; the range 20 to 50 keeps the middle one; the result replaces the first mask. *)
Example C145_case : wf (mkGray 3 1 1 4 true [7; 10; 40; 90; 7]) /\ wf (gray_new 0 3 1) /\
  (exists r, gray_reshape 0 (gray_new 0 3 1) 3 1 = Ok r) /\
  threshold Z.leb Z.gtb (mkGray 3 1 1 4 true [7; 10; 40; 90; 7]) 20 false (gray_new 0 3 1) = Ok (mkGray 3 1 0 3 false [0; 1; 1]) /\
  threshold Z.leb Z.gtb (mkGray 3 1 1 4 true [7; 10; 40; 90; 7]) 50 true (gray_new 0 3 1) = Ok (mkGray 3 1 0 3 false [1; 1; 0]) /\
  good [Some [0; 1; 1]; Some [1; 1; 0]] (mkHimg 3 1 0 3 false 0 3) (mkGray 3 1 0 3 false [0; 1; 1]) /\
  good [Some [0; 1; 1]; Some [1; 1; 0]] (mkHimg 3 1 0 3 false 1 3) (mkGray 3 1 0 3 false [1; 1; 0]) /\
  may_combine (mkHimg 3 1 0 3 false 0 3) (mkHimg 3 1 0 3 false 1 3) (mkHimg 3 1 0 3 false 0 3) /\
  logicAnd [Some [0; 1; 1]; Some [1; 1; 0]] (mkHimg 3 1 0 3 false 0 3) (mkHimg 3 1 0 3 false 1 3) (mkHimg 3 1 0 3 false 0 3) =
    Ok ([Some [0; 1; 0]; Some [1; 1; 0]], mkHimg 3 1 0 3 false 0 3).
Proof.
  assert (G : good [Some [0; 1; 1]; Some [1; 1; 0]] (mkHimg 3 1 0 3 false 0 3) (mkGray 3 1 0 3 false [0; 1; 1])).
  { split; [reflexivity|]. split; [|reflexivity]. unfold wf; cbn; repeat split; try lia; intros; discriminate. }
  split; [unfold wf; cbn; repeat split; try lia; intros; discriminate|]. split; [apply wf_new; lia|]. split; [eexists; reflexivity|].
  split; [reflexivity|]. split; [reflexivity|]. split; [exact G|].
  split; [split; [reflexivity|]; split; [|reflexivity]; unfold wf; cbn; repeat split; try lia; intros; discriminate|].
  split; [|reflexivity]. split; [reflexivity|]. split; [reflexivity|]. left. split; [reflexivity|]. split; [reflexivity|]. split; [exact (aligned_self _ _ _ G)|].
  intros E; discriminate.
Qed.

(** C145: logic reads every value other than zero as true, erosion does not: an image of 255 survives erosion only after it was combined with itself. *)
Theorem C145_true_refuted : exists H a g H' m e, good H a g /\ (forall x y, inside g x y -> pixel g x y = Some 255) /\
  logicAnd H a a a = Ok (H', a) /\ good H' a m /\ erode4 m (gray_new 0 3 3) = Ok e /\ pixel e 1 1 = Some 1 /\
  exists e', erode4 g (gray_new 0 3 3) = Ok e' /\ pixel e' 1 1 = Some 0.
Proof. exact white_eroded. Qed.
Print Assumptions C145_true_refuted.

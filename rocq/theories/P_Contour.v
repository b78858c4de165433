(** Properties of contour tracing and labelling. *)
From Verif Require Import Base M_Image S_Image M_PackedSet S_PackedSet M_Contour S_Contour L_Contour L_ContourEx L_Image.

(** C39: a trace ends; the pixels it visited form a closed walk of bounded length that starts where the trace started. *)
Theorem C39_trace_ends : forall fuel cf bin lab s0 pts x y ext, trace_args fuel cf bin lab s0 pts x y ext ->
  exists t l, trace fuel cf bin lab pts x y ext = Ok t /\ closed_walk (adj (tc_rule cf)) l (x - 1, y - 1) /\
    zlen l <= 4 * g_width lab * g_height lab /\
    (forall p, inside lab (fst p) (snd p) -> ~ In p l -> pixel (tr_lab t) (fst p) (snd p) = pixel lab (fst p) (snd p)) /\
    (forall p, inside lab (fst p) (snd p) -> In p l -> pixel (tr_lab t) (fst p) (snd p) = Some (tc_label cf)).
Proof. exact trace_ends. Qed.
Print Assumptions C39_trace_ends.

(** C40: the trace touches nothing outside of the two windows, changes pixels of the binary image only from background to
    the mark 255 and gives the label to foreground pixels only. *)
Theorem C40_trace_marks : forall fuel cf bin lab s0 pts x y ext, trace_args fuel cf bin lab s0 pts x y ext ->
  exists t, trace fuel cf bin lab pts x y ext = Ok t /\
    same_layout bin (tr_bin t) /\ same_layout lab (tr_lab t) /\
    (forall j, outside_window bin j -> znth (g_data (tr_bin t)) j = znth (g_data bin) j) /\
    (forall j, outside_window lab j -> znth (g_data (tr_lab t)) j = znth (g_data lab) j) /\
    (forall p, fg bin p -> fg (tr_bin t) p) /\
    (forall p v, pixel bin (fst p) (snd p) = Some v -> pixel (tr_bin t) (fst p) (snd p) <> Some v ->
       bg bin p /\ pixel (tr_bin t) (fst p) (snd p) = Some 255) /\
    (forall p, inside lab (fst p) (snd p) -> pixel (tr_lab t) (fst p) (snd p) <> pixel lab (fst p) (snd p) ->
       fg bin (fst p + 1, snd p + 1) /\ pixel (tr_lab t) (fst p) (snd p) = Some (tc_label cf)).
Proof. exact trace_marks. Qed.
Print Assumptions C40_trace_marks.

(** C41: what is recorded is the start of a closed walk over foreground pixels next to background; the sets recorded before
    are kept. *)
Theorem C41_trace_points : forall fuel cf bin lab s0 pts x y ext, trace_args fuel cf bin lab s0 pts x y ext ->
  exists t l, trace fuel cf bin lab pts x y ext = Ok t /\ closed_walk (adj (tc_rule cf)) l (x - 1, y - 1) /\
    (forall p, In p l -> fg bin (fst p + 1, snd p + 1) /\ exists q, bg bin q /\ adj_bg (tc_rule cf) (fst p + 1, snd p + 1) q) /\
    ps_load (tr_pts t) (zlen s0) [] = Ok (firstn (Z.to_nat (tc_max cf)) l) /\
    (forall i l', znth s0 i = Some l' -> ps_load (tr_pts t) i [] = Ok l').
Proof. exact trace_points. Qed.
Print Assumptions C41_trace_points.

(** A ring of eight pixels in its frame: both kinds of trace, both rules. *)
Example C41_hypotheses :
  (forall r, exists ob ol, trace_args 36 (mkTC r ob ol 1 4294967295) ring5 (gray_new 0 3 3) [] ring_pts 1 1 true) /\
  (forall r, exists ob ol, trace_args 36 (mkTC r ob ol 1 2) ring5 (gray_new 0 3 3) [] ring_pts 2 1 false).
Proof. exact ring_args. Qed.

(** C42 *)
Theorem C42_labels : forall fuel st g lab, used st -> label_args fuel g lab ->
  exists st' lab', process fuel st g lab = Ok (st', lab') /\
    g_width lab' = g_width g /\ g_height lab' = g_height g /\
    (forall p, inside g (fst p) (snd p) -> exists k, pixel lab' (fst p) (snd p) = Some k /\
       0 <= k <= zlen (lb_contours st') /\ (k = 0 <-> bg g p)) /\
    (forall p q k k', fg g p -> fg g q -> pixel lab' (fst p) (snd p) = Some k -> pixel lab' (fst q) (snd q) = Some k' ->
       (k = k' <-> blob (lb_rule st) g p q)) /\
    (forall k, 1 <= k <= zlen (lb_contours st') -> exists p, first_of (adj (lb_rule st)) (fg g) p /\
       pixel lab' (fst p) (snd p) = Some k) /\
    (forall p q k k', first_of (adj (lb_rule st)) (fg g) p -> first_of (adj (lb_rule st)) (fg g) q ->
       pixel lab' (fst p) (snd p) = Some k -> pixel lab' (fst q) (snd q) = Some k' -> (k < k' <-> before p q)).
Proof. exact labels_theorem. Qed.
Print Assumptions C42_labels.

(** The labels depend on the rule: two pixels that touch at a corner. *)
Example C42_hypotheses : label_args 16 corners lab0 /\
  (exists st, process 16 (lb_new Four) corners lab0 = Ok (st, mkGray 2 2 0 2 false [0;1;2;0])) /\
  (exists st, process 16 (lb_new Eight) corners lab0 = Ok (st, mkGray 2 2 0 2 false [0;1;1;0])).
Proof. split; [exact args_corners|]. split; eexists; vm_compute; reflexivity. Qed.

(** C43: labelling never fails, whatever was done with the labeller before; what lies outside of the window of the label
    image is not touched.  (The input is an argument of [process] and not among its results.)  A label image that cannot be
    given the size of the input is refused. *)
Theorem C43_never_fails : forall fuel st g lab, used st -> label_args fuel g lab ->
  exists st' lab', process fuel st g lab = Ok (st', lab') /\ used st' /\
    (g_width lab = g_width g -> g_height lab = g_height g ->
       same_layout lab lab' /\ forall j, outside_window lab j -> znth (g_data lab') j = znth (g_data lab) j).
Proof. exact never_fails. Qed.
Print Assumptions C43_never_fails.
Theorem C43_refuses : forall fuel st g lab, g_sub lab = true -> g_width lab <> g_width g \/ g_height lab <> g_height g ->
  process fuel st g lab = Throw.
Proof. exact throw_lemma. Qed.
Print Assumptions C43_refuses.

(** A labeller that was used on another image with other settings before. *)
Example C43_hypotheses : exists st, used st /\ lb_contours st <> [] /\ label_args 112 rings lab0 /\
  exists st' lab', process 112 st rings lab0 = Ok (st', lab') /\ zlen (lb_contours st') = 2.
Proof. exact used_before. Qed.

(** C44: two labellers with the same settings but different pasts give the same labels, contours and points. *)
Theorem C44_history : forall fuel1 fuel2 st1 st2 g lab1 lab2 st1' lab1' st2' lab2',
  used st1 -> used st2 ->
  lb_rule st1 = lb_rule st2 -> lb_min st1 = lb_min st2 -> lb_max st1 = lb_max st2 -> lb_save st1 = lb_save st2 ->
  label_args fuel1 g lab1 -> label_args fuel2 g lab2 ->
  process fuel1 st1 g lab1 = Ok (st1', lab1') -> process fuel2 st2 g lab2 = Ok (st2', lab2') ->
  (forall p, inside g (fst p) (snd p) -> pixel lab1' (fst p) (snd p) = pixel lab2' (fst p) (snd p)) /\
  lb_contours st1' = lb_contours st2' /\ ps_count (lb_pts st1') = ps_count (lb_pts st2') /\
  (forall i l, has_points st1' i l <-> has_points st2' i l).
Proof. exact history_lemma. Qed.
Print Assumptions C44_history.

Example C44_hypotheses : exists st1, used st1 /\ lb_contours st1 <> [] /\ used (lb_new Eight) /\
  lb_rule st1 = lb_rule (lb_new Eight) /\ lb_min st1 = lb_min (lb_new Eight) /\ lb_max st1 = lb_max (lb_new Eight) /\
  lb_save st1 = lb_save (lb_new Eight) /\ label_args 112 rings lab0 /\
  (exists st1' lab1', process 112 st1 rings lab0 = Ok (st1', lab1')) /\
  (exists st2' lab2', process 112 (lb_new Eight) rings lab0 = Ok (st2', lab2')).
Proof. exact two_pasts. Qed.

(** C45: compared with a labeller without limits, limits only empty sets of points: external ones that have fewer than the
    minimal or at least the maximal number of points, and likewise internal ones, or all of these if they are not to be saved. *)
Theorem C45_limits : forall fuel1 fuel2 st1 st2 g lab1 lab2 st1' lab1' st2' lab2',
  used st1 -> used st2 -> lb_rule st1 = lb_rule st2 ->
  lb_min st2 = 0 -> lb_max st2 = 4294967295 -> lb_save st2 = true ->
  label_args fuel1 g lab1 -> label_args fuel2 g lab2 ->
  process fuel1 st1 g lab1 = Ok (st1', lab1') -> process fuel2 st2 g lab2 = Ok (st2', lab2') ->
  (forall p, inside g (fst p) (snd p) -> pixel lab1' (fst p) (snd p) = pixel lab2' (fst p) (snd p)) /\
  lb_contours st1' = lb_contours st2' /\
  (forall co, In co (lb_contours st1') -> exists l, has_points st2' (co_ext co) l /\ l <> [] /\
     has_points st1' (co_ext co) (limited true (lb_min st1) (lb_max st1) l)) /\
  (forall co j, In co (lb_contours st1') -> In j (co_int co) -> exists l, has_points st2' j l /\ l <> [] /\
     has_points st1' j (limited (lb_save st1) (lb_min st1) (lb_max st1) l)).
Proof. exact limits_lemma. Qed.
Print Assumptions C45_limits.

Example C45_hypotheses : used (lb_set (lb_new Four) Four 5 11 true) /\ used (lb_new Four) /\ label_args 112 rings lab0 /\
  (exists st lab, process 112 (lb_set (lb_new Four) Four 5 11 true) rings lab0 = Ok (st, lab) /\
     has_points st 0 [(0,0); (1,0); (2,0); (2,1); (2,2); (2,3); (1,3); (0,3); (0,2); (0,1)] /\
     lb_contours st = [mkCo 1 0 [2]; mkCo 2 1 [3]]) /\
  (exists st lab, process 112 (lb_set (lb_new Four) Four 5 10 true) rings lab0 = Ok (st, lab) /\
     has_points st 0 [] /\ lb_contours st = [mkCo 1 0 [2]; mkCo 2 1 [3]]).
Proof. exact limits_example. Qed.

(** C46: contour number [k] is that of the blob labelled [k]: its external set walks along the outer edge, and its internal
    sets match the holes one to one, each walking around its hole. *)
Theorem C46_contours : forall fuel st g lab st' lab', used st -> label_args fuel g lab -> process fuel st g lab = Ok (st', lab') ->
  forall k, 1 <= k <= zlen (lb_contours st') -> exists co p, znth (lb_contours st') (k - 1) = Some co /\ co_id co = k /\
    first_of (adj (lb_rule st)) (fg g) p /\ pixel lab' (fst p) (snd p) = Some k /\
    (exists l, has_points st' (co_ext co) (limited true (lb_min st) (lb_max st) l) /\
       traces (lb_rule st) l p (outer_edge (lb_rule st) g p)) /\
    exists qs, Forall2 (fun j q => hole (lb_rule st) g p q /\
        exists l, has_points st' j (limited (lb_save st) (lb_min st) (lb_max st) l) /\
          traces (lb_rule st) l (fst q, snd q - 1) (hole_edge (lb_rule st) g p q)) (co_int co) qs /\
      forall q, hole (lb_rule st) g p q -> exists i q', znth qs i = Some q' /\ space (lb_rule st) g q q' /\
        forall i' q'', znth qs i' = Some q'' -> space (lb_rule st) g q q'' -> i' = i.
Proof. intros * U A E. exact (proj1 (contours_lemma fuel st g lab st' lab' U A E)). Qed.
Print Assumptions C46_contours.

(** C46: every set of points is the external or an internal contour of exactly one blob. *)
Theorem C46_sets : forall fuel st g lab st' lab', used st -> label_args fuel g lab -> process fuel st g lab = Ok (st', lab') ->
  forall i, 0 <= i < ps_count (lb_pts st') -> exists k co, znth (lb_contours st') (k - 1) = Some co /\
    (i = co_ext co \/ In i (co_int co)) /\ ~ (i = co_ext co /\ In i (co_int co)) /\
    forall k' co', znth (lb_contours st') (k' - 1) = Some co' -> i = co_ext co' \/ In i (co_int co') -> k' = k.
Proof. intros * U A E. exact (proj2 (contours_lemma fuel st g lab st' lab' U A E)). Qed.
Print Assumptions C46_sets.

(** A blob inside of a hole of another one. *)
Example C46_hypotheses : used (lb_new Four) /\ label_args 100 nested lab0 /\ exists st' lab',
  process 100 (lb_new Four) nested lab0 = Ok (st', lab') /\ lb_contours st' = [mkCo 1 0 [1]; mkCo 2 2 []] /\
  has_points st' 1 [(1,0); (0,0); (0,1); (0,2); (0,3); (0,4); (1,4); (2,4); (3,4); (4,4); (4,3); (4,2); (4,1); (4,0); (3,0); (2,0)].
Proof. exact nested_example. Qed.

(** C61: the indexes of the internal contours do not follow that of the external one. *)
Theorem C61_refuted : exists fuel st g lab st' lab' co i j, used st /\ label_args fuel g lab /\ process fuel st g lab = Ok (st', lab') /\
  In co (lb_contours st') /\ znth (co_int co) i = Some j /\ j <> co_ext co + 1 + i.
Proof. exact not_consecutive. Qed.
Print Assumptions C61_refuted.

(** C62: a contour that does not exceed the maximum is dropped: the labeller [st2] with the maximum set to the number of
    points of [l] does not record [l]. *)
Theorem C62_refuted : exists fuel st1 st2 g lab st1' lab1' st2' lab2' co l, used st1 /\ used st2 /\ label_args fuel g lab /\
  st2 = lb_set st1 (lb_rule st1) 0 (zlen l) true /\
  process fuel st1 g lab = Ok (st1', lab1') /\ process fuel st2 g lab = Ok (st2', lab2') /\
  In co (lb_contours st1') /\ In co (lb_contours st2') /\
  has_points st1' (co_ext co) l /\ has_points st2' (co_ext co) [] /\ l <> [].
Proof. exact at_limit_dropped. Qed.
Print Assumptions C62_refuted.

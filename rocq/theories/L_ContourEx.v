(** Pictures for the examples and refutations of the contour properties. *)
From Verif Require Import Base M_Image S_Image M_PackedSet S_PackedSet M_Contour S_Contour BaseFacts L_Image.

(** An unshared image with the given rows, given as one list. *)
Definition pict (w h : Z) (d : list Z) : gray Z := mkGray w h 0 w false d.

Lemma binary_data g : forallb (fun v => (v =? 0) || (v =? 1)) (g_data g) = true -> binary g.
Proof.
  intros F x y v P. rewrite forallb_forall in F. pose proof (pixel_Some _ _ _ _ P) as I. rewrite pixel_inside in P by auto.
  apply znth_In, F in P. lia.
Qed.
Lemma args_pict w h d lab : 0 <= w <= 1000 -> 0 <= h <= 1000 -> zlen d = w * h ->
  forallb (fun v => (v =? 0) || (v =? 1)) d = true -> wf lab -> g_sub lab = false ->
  label_args (Z.to_nat (4 * w * h)) (pict w h d) lab.
Proof.
  intros Hw Hh L F W S. split; auto; try (cbn; nia).
  - unfold wf. cbn. repeat split; try lia; try nia.
  - now apply binary_data.
  - congruence.
Qed.

(** Two rings next to each other. *)
Definition rings : gray Z := pict 7 4
  [1;1;1;0;1;1;1;
   1;1;1;0;1;1;1;
   1;0;1;0;1;0;1;
   1;1;1;0;1;1;1].
Definition dot : gray Z := pict 1 1 [1].

Definition lab0 : gray Z := gray_new 9 1 1.
Lemma args_rings : label_args 112 rings lab0.
Proof. apply (args_pict 7 4); try lia; try reflexivity. apply wf_new; lia. Qed.
Lemma args_dot : label_args 4 dot lab0.
Proof. apply (args_pict 1 1); try lia; try reflexivity. apply wf_new; lia. Qed.

Definition corners : gray Z := pict 2 2 [0;1; 1;0].
Lemma args_corners : label_args 16 corners lab0.
Proof. apply (args_pict 2 2); try lia; try reflexivity. apply wf_new; lia. Qed.
(** A pixel inside of a ring. *)
Definition nested : gray Z := pict 5 5
  [1;1;1;1;1;
   1;0;0;0;1;
   1;0;1;0;1;
   1;0;0;0;1;
   1;1;1;1;1].
Lemma args_nested : label_args 100 nested lab0.
Proof. apply (args_pict 5 5); try lia; try reflexivity. apply wf_new; lia. Qed.
Lemma nested_example : used (lb_new Four) /\ label_args 100 nested lab0 /\ exists st' lab',
  process 100 (lb_new Four) nested lab0 = Ok (st', lab') /\ lb_contours st' = [mkCo 1 0 [1]; mkCo 2 2 []] /\
  has_points st' 1 [(1,0); (0,0); (0,1); (0,2); (0,3); (0,4); (1,4); (2,4); (3,4); (4,4); (4,3); (4,2); (4,1); (4,0); (3,0); (2,0)].
Proof.
  split; [constructor|]. split; [apply args_nested|]. eexists _, _. split; [vm_compute; reflexivity|].
  split; [vm_compute; reflexivity|]. split; [vm_compute; split; congruence|]. vm_compute. reflexivity.
Qed.

Lemma used_before : exists st, used st /\ lb_contours st <> [] /\ label_args 112 rings lab0 /\
  exists st' lab', process 112 st rings lab0 = Ok (st', lab') /\ zlen (lb_contours st') = 2.
Proof.
  assert (exists st lab, process 100 (lb_new Eight) nested lab0 = Ok (st, lab) /\ lb_contours st <> [] /\
    exists st' lab', process 112 (lb_set st Four 3 7 false) rings lab0 = Ok (st', lab') /\ zlen (lb_contours st') = 2)
    as (st & lab & E & N & X).
  { eexists _, _. split; [vm_compute; reflexivity|]. split; [discriminate|]. eexists _, _. split; vm_compute; reflexivity. }
  exists (lb_set st Four 3 7 false). split; [|split; [exact N|split; [exact args_rings|exact X]]].
  constructor; try lia. apply (used_process 100 (lb_new Eight) nested lab0 st lab); [constructor|exact args_nested|exact E].
Qed.
Lemma two_pasts : exists st1, used st1 /\ lb_contours st1 <> [] /\ used (lb_new Eight) /\
  lb_rule st1 = lb_rule (lb_new Eight) /\ lb_min st1 = lb_min (lb_new Eight) /\ lb_max st1 = lb_max (lb_new Eight) /\
  lb_save st1 = lb_save (lb_new Eight) /\ label_args 112 rings lab0 /\
  (exists st1' lab1', process 112 st1 rings lab0 = Ok (st1', lab1')) /\
  (exists st2' lab2', process 112 (lb_new Eight) rings lab0 = Ok (st2', lab2')).
Proof.
  assert (exists st lab, process 100 (lb_new Eight) nested lab0 = Ok (st, lab) /\ lb_contours st <> [] /\
    (exists st' lab', process 112 st rings lab0 = Ok (st', lab')) /\
    lb_rule st = Eight /\ lb_min st = 0 /\ lb_max st = 4294967295 /\ lb_save st = true)
    as (st & lab & E & N & X & S1 & S2 & S3 & S4).
  { eexists _, _. split; [vm_compute; reflexivity|]. split; [discriminate|]. split; [eexists _, _; vm_compute; reflexivity|]. repeat split. }
  exists st. split; [apply (used_process 100 (lb_new Eight) nested lab0 st lab); [constructor|exact args_nested|exact E]|].
  split; [exact N|]. split; [constructor|]. rewrite S1, S2, S3, S4. repeat (split; [first [reflexivity|exact args_rings|exact X]|]).
  eexists _, _; vm_compute; reflexivity.
Qed.
Lemma limits_example : used (lb_set (lb_new Four) Four 5 11 true) /\ used (lb_new Four) /\ label_args 112 rings lab0 /\
  (exists st lab, process 112 (lb_set (lb_new Four) Four 5 11 true) rings lab0 = Ok (st, lab) /\
     has_points st 0 [(0,0); (1,0); (2,0); (2,1); (2,2); (2,3); (1,3); (0,3); (0,2); (0,1)] /\
     lb_contours st = [mkCo 1 0 [2]; mkCo 2 1 [3]]) /\
  (exists st lab, process 112 (lb_set (lb_new Four) Four 5 10 true) rings lab0 = Ok (st, lab) /\
     has_points st 0 [] /\ lb_contours st = [mkCo 1 0 [2]; mkCo 2 1 [3]]).
Proof.
  split; [constructor; [constructor|lia|lia]|]. split; [constructor|]. split; [exact args_rings|].
  split; eexists _, _; (split; [vm_compute; reflexivity|]); (split; [|reflexivity]); (split; [vm_compute; split; congruence|vm_compute; reflexivity]).
Qed.

(** A ring of eight pixels in a frame, and a storage with one empty set. *)
Definition ring5 : gray Z := pict 5 5
  [0;0;0;0;0;
   0;1;1;1;0;
   0;1;0;1;0;
   0;1;1;1;0;
   0;0;0;0;0].
Definition ring_pts : pset (Z * Z) := match ps_start (ps_new 2000) with Ok p => p | _ => ps_new 2000 end.
Lemma ring_frame : framed ring5.
Proof.
  intros [x y] F. pose proof (pixel_Some _ _ _ _ F) as [I J]. cbn in I, J. cbn [fst snd g_width g_height ring5 pict].
  unfold fg in F. cbn [fst snd] in *.
  assert (x = 0 \/ x = 4 \/ (1 <= x < 4)) as [->|[->|X]] by lia; [exfalso|exfalso|].
  1,2: assert (y = 0 \/ y = 1 \/ y = 2 \/ y = 3 \/ y = 4) as [->|[->|[->|[->| ->]]]] by lia; discriminate.
  assert (y = 0 \/ y = 4 \/ (1 <= y < 4)) as [->|[->|Y]] by lia; [exfalso|exfalso|lia].
  1,2: assert (x = 1 \/ x = 2 \/ x = 3) as [->|[->| ->]] by lia; discriminate.
Qed.
Lemma ring_args :
  (forall r, exists ob ol, trace_args 36 (mkTC r ob ol 1 4294967295) ring5 (gray_new 0 3 3) [] ring_pts 1 1 true) /\
  (forall r, exists ob ol, trace_args 36 (mkTC r ob ol 1 2) ring5 (gray_new 0 3 3) [] ring_pts 2 1 false).
Proof.
  assert (exists (bs : Z) (hist : list (ps_op (Z * Z))), 1 <= bs < 4294967296 /\ Forall ps_op_ok hist /\ ll_fits [] hist /\
    ll_run [] hist = [] ++ [[]] /\ ps_run (ps_new bs) hist = Ok ring_pts) as P.
  { exists 2000, [P_start]. split; [lia|]. split; [constructor; [exact I|constructor]|]. split; [vm_compute; repeat split|].
    split; reflexivity. }
  assert (wf ring5) as W by (unfold wf, zlen; cbn; repeat split; lia).
  split; intros r; destruct r; eexists _, _; (split; [exact W|apply wf_new; lia|cbn; lia|exact ring_frame|cbn; lia|reflexivity|reflexivity|cbn; lia
    |exact P|reflexivity|cbn; lia|reflexivity|unfold bg, fg; cbn; discriminate]).
Qed.

Lemma not_consecutive : exists fuel st g lab st' lab' co i j, used st /\ label_args fuel g lab /\ process fuel st g lab = Ok (st', lab') /\
  In co (lb_contours st') /\ znth (co_int co) i = Some j /\ j <> co_ext co + 1 + i.
Proof.
  assert (exists st' lab' co, process 112 (lb_new Eight) rings lab0 = Ok (st', lab') /\ In co (lb_contours st') /\ znth (co_int co) 0 = Some 2 /\ co_ext co = 0)
    as (st' & lab' & co & E & I & Z & X).
  { eexists _, _, _. split; [vm_compute; reflexivity|]. split; [left; reflexivity|]. split; reflexivity. }
  exists 112%nat, (lb_new Eight), rings, lab0, st', lab', co, 0, 2. rewrite X.
  split; [constructor|]. split; [apply args_rings|]. repeat (split; auto). lia.
Qed.

Lemma at_limit_dropped : exists fuel st1 st2 g lab st1' lab1' st2' lab2' co l, used st1 /\ used st2 /\ label_args fuel g lab /\
  st2 = lb_set st1 (lb_rule st1) 0 (zlen l) true /\
  process fuel st1 g lab = Ok (st1', lab1') /\ process fuel st2 g lab = Ok (st2', lab2') /\
  In co (lb_contours st1') /\ In co (lb_contours st2') /\
  has_points st1' (co_ext co) l /\ has_points st2' (co_ext co) [] /\ l <> [].
Proof.
  assert (exists st1' lab1' st2' lab2' co, process 4 (lb_new Four) dot lab0 = Ok (st1', lab1') /\
    process 4 (lb_set (lb_new Four) Four 0 1 true) dot lab0 = Ok (st2', lab2') /\ In co (lb_contours st1') /\ In co (lb_contours st2') /\
    has_points st1' (co_ext co) [(0, 0)] /\ has_points st2' (co_ext co) []) as (st1' & lab1' & st2' & lab2' & co & E1 & E2 & I1 & I2 & H1 & H2).
  { eexists _, _, _, _, (mkCo 1 0 []). split; [vm_compute; reflexivity|]. split; [vm_compute; reflexivity|]. split; [left; reflexivity|].
    split; [left; reflexivity|]. split; (split; [vm_compute; split; congruence|reflexivity]). }
  exists 4%nat, (lb_new Four), (lb_set (lb_new Four) Four 0 1 true), dot, lab0, st1', lab1', st2', lab2', co, [(0, 0)].
  split; [constructor|]. split; [constructor; [constructor|lia|lia]|]. split; [apply args_dot|]. split; [reflexivity|]. repeat split; auto; try apply H1; try apply H2. discriminate.
Qed.

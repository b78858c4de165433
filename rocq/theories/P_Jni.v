(** Properties of the transfer of results to Java: C80, C81. *)
From Verif Require Import BaseFacts M_PackedSet S_PackedSet M_Contour M_Jni S_Jni L_Jni.

(** C80.  Whatever the queue that is used for the transfer holds. *)
Theorem C80_contours : forall grow q cs, growing grow -> queue_ok q -> Forall int_contour cs -> j_contours grow q cs = Ok cs.
Proof. exact j_contours_ok. Qed.
Print Assumptions C80_contours.

Definition C80_queue : jqueue := mkJq [[7; 7]] 0 1.
Definition C80_list : list contour := [mkCo 1 0 [1; 2; 3]; mkCo 2 4 []; mkCo 3 5 [6]].
Example C80_ex : growing (fun n => n) /\ queue_ok C80_queue /\ Forall int_contour C80_list /\
  j_contours (fun n => n) C80_queue C80_list = Ok C80_list.
Proof.
  split; [intros n H; lia|]. split; [exists [7; 7]; vm_compute; intuition congruence|]. split; [|reflexivity].
  repeat apply Forall_cons; try apply Forall_nil; unfold int_contour; cbn; repeat apply conj; try lia; try discriminate;
    intros v Hv; repeat (destruct Hv as [<-|Hv]; [lia|]); contradiction.
Qed.

(** C81.  After every history of a packed set.  The Java object may hold older sets. *)
Theorem C81_points : forall bs h dst, 1 <= bs <= 1073741823 -> Forall ps_op_ok h -> ll_fits [] h ->
  ll_total (ll_run [] h) <= 1000000000 ->
  jp_length dst = bs * 2 -> Forall (fun b => zlen b = jp_length dst) (jp_blocks dst) ->
  exists p dst', ps_run (ps_new bs) h = Ok p /\ copy_into_java p dst = Ok dst' /\
    zlen (jp_sets dst') = zlen (ll_run [] h) /\
    forall k l, znth (ll_run [] h) k = Some l -> java_set dst' k l.
Proof. exact copy_history. Qed.
Print Assumptions C81_points.

(** Objects with other block lengths are refused. *)
Theorem C81_mismatch : forall p dst, 0 <= ps_bs p <= 2147483647 -> 0 <= jp_length dst <= 2147483647 ->
  jp_length dst <> ps_bs p * 2 -> copy_into_java p dst = Throw.
Proof. exact copy_mismatch. Qed.
Print Assumptions C81_mismatch.

Definition C81_history : list (ps_op (Z * Z)) :=
  [P_push (1, 2); P_push (3, 4); P_push (5, 6); P_start; P_push (7, 8)].
Definition C81_dst : jpacked := mkJp 4 [[9; 9; 9; 9]] [(1, 2, 3); (4, 5, 6); (7, 8, 9)].
Example C81_ex : Forall ps_op_ok C81_history /\ ll_fits [] C81_history /\ ll_total (ll_run [] C81_history) <= 1000000000 /\
  jp_length C81_dst = 2 * 2 /\ Forall (fun b => zlen b = jp_length C81_dst) (jp_blocks C81_dst) /\
  exists p, ps_run (ps_new 2) C81_history = Ok p /\
    copy_into_java p C81_dst = Ok (mkJp 4 [[1; 2; 3; 4]; [5; 6; 7; 8]] [(0, 3, 0); (2, 1, 1)]) /\
    copy_into_java p (mkJp 6 [] []) = Throw.
Proof.
  split; [repeat constructor|]. split; [vm_compute; intuition congruence|]. split; [vm_compute; congruence|].
  split; [reflexivity|]. split; [repeat constructor|]. eexists. split; [vm_compute; reflexivity|]. split; reflexivity.
Qed.

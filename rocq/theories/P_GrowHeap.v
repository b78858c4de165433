(** Theorems about ownership of growable arrays (C96). *)
From Verif Require Import Base BaseFacts M_Heap M_GrowArray S_GrowArray M_GrowHeap S_GrowHeap L_GrowHeap.

(** A program that never copy-constructs runs without undefined behaviour, its arrays behave as independent sequences
    (assignment copies, every other call changes one array only), and there are exactly as many blocks of memory as living
    arrays: nothing is leaked. *)
Theorem C96_values : forall A (m : memtype A), 1 <= mt_size m -> mt_set m (mt_zero m) = mt_zero m ->
  forall cs, gdisciplined m (mkGworld [] []) cs ->
  exists W V, grun m (mkGworld [] []) cs = Ok W /\ shows_seqs W V /\ gcourse (mt_zero m) cs V /\
    existing (gw_heap W) = existing (gw_objs W) /\
    (forall i s k, nth_error V i = Some (Some s) -> 0 <= k ->
       (gread W i k = Throw <-> zlen s <= k) /\ forall v, gread W i k = Ok v <-> znth s k = Some (Some v)) /\
    forall c, gallowed V c -> (gstep m W c = Throw <-> gthrows V c) /\ gstep m W c <> Undef.
Proof. exact @arrays_are_values. Qed.
Print Assumptions C96_values.

Definition C96_program : list (gcmd Z) :=
  [GList [4; 5; 6]; GDefault; GAssign 1 0; GPut 0 1 9; GPut 1 3 7; GResize 1 30; GAssign 1 1; GNew 2; GAssign 2 1; GSetTo 0 [1; 2; 3; 4]; GDestroy 1; GGrow 2 50].
Example C96_ex : gdisciplined (int_mem S32) (mkGworld [] []) C96_program /\
  exists W, grun (int_mem S32) (mkGworld [] []) C96_program = Ok W /\ gread W 0 1 = Ok 2 /\ gread W 2 1 = Throw /\ existing (gw_heap W) = 2%nat /\
  exists W', grun (int_mem S32) (mkGworld [] []) (firstn 9 C96_program) = Ok W' /\ gread W' 0 1 = Ok 9 /\ gread W' 2 1 = Ok 5 /\ gread W' 2 29 = Ok 0.
Proof.
  split.
  - unfold C96_program.
    repeat (first [eapply gdisciplined_next; [|vm_compute; reflexivity|] | eapply gdisciplined_throw; [|vm_compute; reflexivity|]];
      [cbn [gallowed gw_objs]; repeat match goal with
      | |- _ /\ _ => split
      | |- gexists _ _ => eexists; reflexivity
      | |- True => exact I
      | |- _ <= _ => vm_compute; discriminate
      | |- _ < _ => vm_compute; reflexivity
      end|]).
    exact I.
  - eexists. split; [vm_compute; reflexivity|]. repeat (split; [vm_compute; reflexivity|]). eexists. split; [vm_compute; reflexivity|].
    repeat split; vm_compute; reflexivity.
Qed.

(** Copy construction of an array - and of a kernel, which contains one - leaves two owners of the same memory. *)
Theorem C96_copy_refuted : exists cs : list (gcmd Z),
  cs = [GList [1; 2; 3]; GCopyCtor 0; GDestroy 1; GDestroy 0] /\ grun (int_mem S32) (mkGworld [] []) cs = Undef.
Proof. exact array_copy. Qed.
Print Assumptions C96_copy_refuted.

(** Without destroying anything: the copy loses its elements when the original grows. *)
Theorem C96_stale_copy_refuted : exists (cs : list (gcmd Z)) W,
  cs = [GList [1; 2; 3]; GCopyCtor 0; GResize 0 4] /\ grun (int_mem S32) (mkGworld [] []) cs = Ok W /\ gread W 1 0 = Undef.
Proof. exact array_stale_copy. Qed.
Print Assumptions C96_stale_copy_refuted.

(** Assigning the original to its copy reads memory that is written at the same time. *)
Theorem C96_assign_copy_refuted : exists cs : list (gcmd Z),
  cs = [GList [1; 2; 3]; GCopyCtor 0; GAssign 1 0] /\ grun (int_mem S32) (mkGworld [] []) cs = Undef.
Proof. exact array_assign_copy. Qed.
Print Assumptions C96_assign_copy_refuted.

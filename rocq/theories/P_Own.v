(** Theorems about ownership of image memory (C50, C60). *)
From Verif Require Import BaseFacts M_Image S_Image M_Heap S_Heap L_Heap L_Own.

(** C50: a program that stays within the rules runs without undefined behaviour (in particular it frees nothing twice and
    uses nothing freed); at its end every buffer that has not been freed belongs to exactly one living object that will
    free it, and every owner's buffer exists. *)
Theorem C50_ownership : forall {A} (zero : A) (cs : list (cmd A)), disciplined zero (mkWorld [] []) cs ->
  exists W, run zero (mkWorld [] []) cs = Ok W /\
    (forall i b, owns W i b -> live (w_heap W) b) /\
    (forall i j b, owns W i b -> owns W j b -> i = j) /\
    (forall b, live (w_heap W) b -> exists i, owns W i b).
Proof. exact @ownership. Qed.
Print Assumptions C50_ownership.

(** C50: when all objects are gone, so is all memory. *)
Theorem C50_no_leak : forall {A} (zero : A) (cs : list (cmd A)) W, disciplined zero (mkWorld [] []) cs ->
  run zero (mkWorld [] []) cs = Ok W -> (forall i, ~ exists_obj W i) -> forall b, ~ live (w_heap W) b.
Proof. exact @no_leak. Qed.
Print Assumptions C50_no_leak.

(** A program that creates, enlarges, crops, copies and destroys; its sub-image is not used after its parent's end. *)
Definition C50_program : list (cmd Z) :=
  [CNew 3 2; CSet 0 1 1 7; CSub 0 1 0 3 2; CNew 1 1; CCopy 2 1; CGet 2 0 1; CReshape 2 9 9; CAssign 2 0; CDestroy 0;
   CDestroy 1; CDestroy 2].

Example C50_program_disciplined : disciplined 0 (mkWorld [] []) C50_program.
Proof.
  unfold C50_program.
  repeat (eapply disciplined_next;
    [ vm_compute; reflexivity
    | cbv beta iota delta [allowed exists_obj usable different_memory live is32]; cbn [w_objs w_heap nth_error];
      repeat match goal with
      | |- _ /\ _ => split
      | |- _ <= _ => discriminate
      | |- _ < _ => reflexivity
      | |- forall o s, _ => let E1 := fresh in let E2 := fresh in
                            intros ? ? E1 E2; injection E1 as <-; injection E2 as <-; discriminate
      | |- _ \/ _ => right
      | |- exists _, _ => eexists
      | |- _ = _ => reflexivity
      end
    | ]).
  exact I.
Qed.

Example C50_program_run : exists W, run 0 (mkWorld [] []) C50_program = Ok W /\ w_objs W = [None; None; None] /\
  w_heap W = [None; None; None; None].
Proof. eexists. split; [vm_compute; reflexivity|]. split; reflexivity. Qed.

(** Assignment: from an image that owns its pixels it is a copy; from a sub-image nothing is copied and the target
    becomes that sub-image. *)
Theorem C50_assign : forall {A} (zero : A) (H : heap A) (o other : himg),
  (h_sub other = true -> h_assign zero H o other = Ok (H, other)) /\
  (h_sub other = false -> h_assign zero H o other = h_copy zero H o other).
Proof. exact @assign_cases. Qed.
Print Assumptions C50_assign.
Example C50_assign_ex : exists s, h_subimage (mkHimg 4 3 0 4 false 0 12) 1 1 3 2 = Ok s /\ h_sub s = true /\ h_height s = 1.
Proof. eexists; split; [reflexivity|]. auto. Qed.

(** Sub-images: which rectangles are accepted, and that the sub-image looks at the pixels of its parent. *)
Theorem C50_subimage : forall o x0 y0 x1 y1, is32 x0 -> is32 y0 -> is32 x1 -> is32 y1 ->
  (h_subimage o x0 y0 x1 y1 = Throw <-> h_width o < x1 \/ h_height o < y1 \/ x1 < x0 \/ y1 < y0) /\
  (x0 <= x1 <= h_width o -> y0 <= y1 <= h_height o -> exists s, h_subimage o x0 y0 x1 y1 = Ok s /\ h_sub s = true /\
     h_width s = x1 - x0 /\ h_height s = y1 - y0 /\ forall {A} (H : heap A) x y, 0 <= x < x1 - x0 -> 0 <= y < y1 - y0 ->
       h_get H s x y = h_get H o (x0 + x) (y0 + y)).
Proof. exact subimage_cases. Qed.
Print Assumptions C50_subimage.
Example C50_subimage_ex : h_subimage (mkHimg 4 3 0 4 false 0 12) 4 1 4 3 = Ok (mkHimg 0 2 8 4 true 0 12) /\
  h_subimage (mkHimg 4 3 0 4 false 0 12) 3 1 5 3 = Throw.
Proof. split; reflexivity. Qed.

(** C50: copy construction (also by passing an image by value) breaks it: both objects free the same buffer. *)
Theorem C50_copy_construction_refuted : exists (cs : list (cmd Z)),
  cs = [CNew 2 2; CCopyCtor 0; CDestroy 1; CDestroy 0] /\ run 0 (mkWorld [] []) cs = Undef.
Proof. exact copy_construction. Qed.
Print Assumptions C50_copy_construction_refuted.

(** C50: assigning a sub-image to an image that owns memory loses that memory: all objects are destroyed, the buffer
    of the assigned image is never freed. *)
Theorem C50_assign_subimage_refuted : exists (cs : list (cmd Z)) W,
  cs = [CNew 2 2; CNew 5 5; CSub 1 0 0 1 1; CAssign 0 2; CDestroy 0; CDestroy 2; CDestroy 1] /\
  run 0 (mkWorld [] []) cs = Ok W /\ (forall i, ~ exists_obj W i) /\ live (w_heap W) 0.
Proof. exact assign_subimage. Qed.
Print Assumptions C50_assign_subimage_refuted.

(** C50: a sub-image must not be used after its parent has been destroyed or enlarged. *)
Theorem C50_dangling_refuted : exists (cs cs' : list (cmd Z)),
  cs = [CNew 2 2; CSub 0 0 0 1 1; CDestroy 0; CGet 1 0 0] /\ run 0 (mkWorld [] []) cs = Undef /\
  cs' = [CNew 2 2; CSub 0 0 0 1 1; CReshape 0 3 3; CGet 1 0 0] /\ run 0 (mkWorld [] []) cs' = Undef.
Proof. exact dangling. Qed.
Print Assumptions C50_dangling_refuted.

(** C60: an image cannot be cropped by copying a part of itself. *)
Theorem C60_self_crop_refuted : exists (cs : list (cmd Z)),
  cs = [CNew 3 1; CSub 0 1 0 3 1; CCopy 0 1] /\ run 0 (mkWorld [] []) cs = Undef.
Proof. exact self_crop. Qed.
Print Assumptions C60_self_crop_refuted.

(** C60: it works through a second image. *)
Example C60_detour : exists W, run 0 (mkWorld [] []) [CNew 3 1; CSet 0 1 0 5; CSub 0 1 0 3 1; CNew 0 0; CCopy 2 1; CCopy 0 2] = Ok W /\
  exists o g, nth_error (w_objs W) 0 = Some (Some o) /\ view (w_heap W) o = Some g /\ pixel g 0 0 = Some 5 /\ pixel g 1 0 = Some 0 /\
    g_width g = 2.
Proof. eexists. split; [vm_compute; reflexivity|]. eexists _, _. vm_compute. repeat split. Qed.

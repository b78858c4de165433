(** Theorems about ownership of packed sets (C101). *)
From Verif Require Import Base BaseFacts M_Heap M_PackedSet S_PackedSet M_PackHeap S_PackHeap L_PackHeap.

(** A program that never copies a packed set runs without undefined behaviour.  Its packed sets behave as independent
    lists of lists.  There is one array of pointers per living object, and the number of blocks is exactly what the largest
    number of elements held so far needs: nothing is leaked, nothing is freed before the object is destroyed. *)
Theorem C101_values : forall A (cs : list (pcmd A)), pdisciplined [] cs ->
  exists W, prun pstart cs = Ok W /\
    (forall i x, nth_error (lists_run [] cs) i = Some (Some x) ->
       pcount W i = Ok (zlen (l_sets x)) /\ ptail W i = Ok (zlen (last (l_sets x) [])) /\
       (forall k e, 0 <= k < 4294967296 -> 0 <= e < 4294967296 ->
          pread W i k e = match znth (l_sets x) k with
                          | Some l => match znth l e with Some v => Ok v | None => Throw end
                          | None => Throw
                          end) /\
       (forall k out, 0 <= k < 4294967296 -> pload W i k out = match znth (l_sets x) k with Some l => Ok (out ++ l) | None => Throw end)) /\
    held (pm_tabs (pw_mem W)) = held (lists_run [] cs) /\ held (pm_blks (pw_mem W)) = all_need (lists_run [] cs) /\
    (forall c, pallowed (lists_run [] cs) c -> (pstep W c = Throw <-> lists_step (lists_run [] cs) c = None) /\ pstep W c <> Undef).
Proof. exact @packed_programs. Qed.
Print Assumptions C101_values.

Definition C101_program : list (pcmd Z) :=
  [PNew 2; PNew 3; PCall 0 (P_push 1); PCall 0 (P_push 2); PCall 0 P_start; PCall 1 (P_push 7); PCall 0 (P_push 3); PCall 0 (P_push 4);
   PCall 0 (P_push 5); PCall 0 (P_at_set 1 2 9); PCall 0 (P_at_set 1 3 9); PCall 1 (P_write 0 [8]); PCall 0 P_remove; PDestroy 1].
Example C101_ex : pdisciplined [] C101_program /\
  lists_run [] C101_program = [Some (mkLists [[1; 2]] 2 5); None] /\ all_need (lists_run [] C101_program) = 3 /\
  lists_run [] (firstn 12 C101_program) = [Some (mkLists [[1; 2]; [3; 4; 9]] 2 5); Some (mkLists [[8]] 3 1)] /\
  exists W, prun pstart C101_program = Ok W /\ pread W 0 0 1 = Ok 2 /\ pread W 0 1 0 = Throw /\ held (pm_blks (pw_mem W)) = 3.
Proof.
  split; [|split; [vm_compute; reflexivity|split; [vm_compute; reflexivity|split; [vm_compute; reflexivity|]]]].
  - unfold C101_program.
    repeat (eapply pdisciplined_next; [|vm_compute; reflexivity|];
      [cbn [pallowed ps_op_ok]; first [split; [vm_compute; discriminate|vm_compute; reflexivity]
        | eexists; split; [reflexivity|]; split; [try exact I; repeat split; vm_compute; (reflexivity || discriminate)|];
          intros s Es; vm_compute in Es; (discriminate Es || (injection Es as <-; split; vm_compute; reflexivity))
        | eexists; reflexivity]|]).
    exact I.
  - eexists. split; [vm_compute; reflexivity|]. repeat split; vm_compute; reflexivity.
Qed.

(** A copy of a packed set - made when it is passed or returned by value, or stored in a vector - shares the blocks: they
    are freed twice. *)
Theorem C101_copy_refuted : exists cs : list (pcmd Z),
  cs = [PNew 3; PCall 0 (P_push 5); PCopyCtor 0; PDestroy 1; PDestroy 0] /\ prun pstart cs = Undef.
Proof. exact packed_copy. Qed.
Print Assumptions C101_copy_refuted.

(** Assignment shares the blocks and forgets those of the target: after one object is destroyed the other can neither be
    read nor destroyed, and a block is left that nobody frees. *)
Theorem C101_assign_refuted : exists (cs : list (pcmd Z)) W,
  cs = [PNew 3; PNew 4; PCall 0 (P_push 5); PAssign 1 0; PDestroy 1] /\ prun pstart cs = Ok W /\
  pread W 0 0 0 = Undef /\ pstep W (PDestroy 0) = Undef /\ held (pm_blks (pw_mem W)) = 1.
Proof. exact packed_assign. Qed.
Print Assumptions C101_assign_refuted.

(** The constructor accepts a block size of zero, the first element is then a division by zero. *)
Theorem C101_block_size_refuted : exists cs : list (pcmd Z), cs = [PNew 0; PCall 0 (P_push 5)] /\ prun pstart cs = Undef.
Proof. exact packed_no_block. Qed.
Print Assumptions C101_block_size_refuted.

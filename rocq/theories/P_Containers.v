(** Property theorems about GrowArray (C09, C10) and PackedSet (C11). *)
From Verif Require Import Base BaseFacts M_GrowArray S_GrowArray L_GrowArray M_PackedSet S_PackedSet L_PackedSet.

(** ** C09 *)
(** After every history [h] of calls on an owning array of any element type: size <= array_length, the sequence has
    exactly [size] elements, at throws exactly for i >= size, at returns the elements of the sequence, and the next
    call [o] throws exactly when it should and otherwise does to the sequence what [seq_step] says. *)
Theorem C09_growarray_sequence : forall (A : Type) (m : memtype A) (g0 : growarr A) (h : list (ga_op A)) (o : ga_op A),
  1 <= mt_size m ->
  (exists n, 0 <= n < 4294967296 /\ g0 = ga_new m n) \/ (exists l, zlen l < 4294967296 /\ g0 = ga_of_list m l) ->
  Forall ga_op_ok h -> ga_op_ok o ->
  exists g, ga_run m g0 h = Ok g /\
    ga_size g <= ga_len g /\ zlen (ga_seq g) = ga_size g /\
    (forall i, 0 <= i < 4294967296 -> (ga_at g i = Throw <-> ga_size g <= i)) /\
    (forall i v, 0 <= i -> (ga_at g i = Ok v <-> znth (ga_seq g) i = Some (Some v))) /\
    (seq_throws (ga_seq g) o -> ga_exec m g o = Throw) /\
    (~ seq_throws (ga_seq g) o -> exists g', ga_exec m g o = Ok g' /\ seq_step (ga_seq g) o (ga_seq g')).
Proof. exact ga_history_lemma. Qed.
Print Assumptions C09_growarray_sequence.
Example C09_ex :
  let h := [Op_setTo [1; 2; 3]; Op_put 1 7; Op_put 3 9; Op_resize 12; Op_assign (ga_of_list (int_mem U16) [4; 5])] in
  Forall ga_op_ok h /\ 1 <= mt_size (int_mem U16) /\
  exists g, ga_run (int_mem U16) (ga_new_default (int_mem U16)) h = Ok g /\ ga_seq g = [Some 4; Some 5] /\ ga_len g = 12.
Proof.
  split; [|split; [vm_compute; congruence|eexists; split; [vm_compute; reflexivity|vm_compute; auto]]].
  repeat (constructor; [vm_compute; intuition congruence|]). constructor.
Qed.

(** ** C10 *)
(** fill(v) sets every element to v exactly if all bytes of v are equal. *)
Theorem C10_fill_iff : forall t (g0 : growarr Z) h v,
  (exists n, 0 <= n < 4294967296 /\ g0 = ga_new (int_mem t) n) \/
  (exists l, zlen l < 4294967296 /\ g0 = ga_of_list (int_mem t) l) ->
  Forall ga_op_ok h -> ity_min t <= v <= ity_max t ->
  exists g g', ga_run (int_mem t) g0 h = Ok g /\ ga_fill (int_mem t) g v = Ok g' /\ ga_size g' = ga_size g /\
    (0 < ga_size g -> ((forall i, 0 <= i < ga_size g -> ga_at g' i = Ok v) <-> bytes_equal t v)).
Proof. exact ga_fill_lemma. Qed.
Print Assumptions C10_fill_iff.

(** In particular always for one-byte types and for 0. *)
Theorem C10_bytes_one_or_zero : forall t v, (ity_size t = 1 -> bytes_equal t v) /\ bytes_equal t 0.
Proof. exact (fun t v => conj (bytes_equal_one t v) (bytes_equal_0 t)). Qed.
Print Assumptions C10_bytes_one_or_zero.

Theorem C10_fill_refuted : exists t v g', ity_min t <= v <= ity_max t /\
  ga_fill (int_mem t) (ga_new (int_mem t) 3) v = Ok g' /\ ga_at g' 0 <> Ok v.
Proof.
  exists S32, 1. eexists. split; [vm_compute; intuition congruence|]. split; [vm_compute; reflexivity|].
  vm_compute. congruence.
Qed.
Print Assumptions C10_fill_refuted.

(** Elements added by resize. *)
Theorem C10_resize_default : forall t (g0 : growarr Z) h n,
  (exists n, 0 <= n < 4294967296 /\ g0 = ga_new (int_mem t) n) \/
  (exists l, zlen l < 4294967296 /\ g0 = ga_of_list (int_mem t) l) ->
  Forall ga_op_ok h -> 0 <= n < 4294967296 ->
  exists g g', ga_run (int_mem t) g0 h = Ok g /\ ga_resize (int_mem t) g n = Ok g' /\ ga_size g' = n /\
    (ga_len g < n -> ity_min t <= ga_default g <= ity_max t -> bytes_equal t (ga_default g) ->
       forall i, ga_size g <= i < n -> ga_at g' i = Ok (ga_default g)) /\
    (n <= ga_len g -> ga_data g' = ga_data g).
Proof. exact ga_resize_default_lemma. Qed.
Print Assumptions C10_resize_default.
Example C10_resize_default_ex : exists g g',
  ga_run (int_mem U8) (ga_new (int_mem U8) 2) [Op_default 9] = Ok g /\ ga_len g < 4 /\
  ga_resize (int_mem U8) g 4 = Ok g' /\ ga_at g' 1 = Ok 0 /\ ga_at g' 3 = Ok 9.
Proof.
  eexists; eexists. split; [vm_compute; reflexivity|]. split; [vm_compute; reflexivity|].
  split; [vm_compute; reflexivity|]. vm_compute; auto.
Qed.

(** Growing inside the existing storage shows stale elements instead of the default, for every element type. *)
Theorem C10_resize_stale_refuted : forall t, exists g g' i,
  ga_run (int_mem t) (ga_of_list (int_mem t) [1; 2; 3]) [Op_resize 1] = Ok g /\ ga_default g = 0 /\
  ga_resize (int_mem t) g 3 = Ok g' /\ ga_size g <= i < ga_size g' /\ ga_at g' i <> Ok (ga_default g).
Proof.
  intros t. destruct t; eexists; eexists; exists 1; (split; [vm_compute; reflexivity|]);
    (split; [reflexivity|]); (split; [vm_compute; reflexivity|]); vm_compute; intuition congruence.
Qed.
Print Assumptions C10_resize_stale_refuted.

(** ** C11 *)
(** After every history, everything observable is that of the list of lists [ll_run [] h]; the next call throws exactly
    when it does on the list of lists, and is otherwise defined. *)
Theorem C11_packed_set : forall (A : Type) (bs : Z) (h : list (ps_op A)),
  1 <= bs < 4294967296 -> Forall ps_op_ok h -> ll_fits [] h ->
  exists p, ps_run (ps_new bs) h = Ok p /\
    ps_count p = zlen (ll_run [] h) /\
    ps_tail_size p = zlen (last (ll_run [] h) []) /\
    (forall k i, 0 <= k < 4294967296 -> 0 <= i < 4294967296 ->
       ps_at p k i = match znth (ll_run [] h) k with
                     | Some l => match znth l i with Some v => Ok v | None => Throw end
                     | None => Throw
                     end) /\
    (forall k out, 0 <= k < 4294967296 ->
       ps_load p k out = match znth (ll_run [] h) k with Some l => Ok (out ++ l) | None => Throw end) /\
    (forall o, ps_op_ok o ->
       match ll_exec (ll_run [] h) o with
       | None => ps_exec p o = Throw
       | Some s' => ll_total s' < 4294967296 -> exists p', ps_exec p o = Ok p'
       end).
Proof. exact packed_set_lemma. Qed.
Print Assumptions C11_packed_set.
Definition C11_history : list (ps_op Z) :=
  [P_push 1; P_push 2; P_push 3; P_start; P_start; P_push 4; P_write 0 [7; 8; 9]; P_write 1 [1]; P_at_set 0 1 5;
   P_remove; P_push 6].
Example C11_ex : Forall ps_op_ok C11_history /\ ll_fits [] C11_history /\
  ll_run [] C11_history = [[7; 5; 9]; [6]] /\
  exists p, ps_run (ps_new 2) C11_history = Ok p /\ zlen (ps_blocks p) = 2 /\ ps_at p 1 0 = Ok 6.
Proof.
  split; [repeat (constructor; [vm_compute; intuition congruence|]); constructor|].
  split; [vm_compute; intuition congruence|]. split; [reflexivity|].
  eexists; split; [vm_compute; reflexivity|]. vm_compute; auto.
Qed.

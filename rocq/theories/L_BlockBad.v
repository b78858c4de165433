(** Runs of the block filters that show defects. *)
From Coq Require Import QArith Floats.SpecFloat.
From Verif Require Import BaseFacts M_Image S_Image L_Image M_Float M_Otsu M_Config M_Block S_Blur S_Block.
Open Scope Z_scope.

(** A float from a quotient of integers. *)
Definition fl (a b : Z) : spec_float := fdiv F32 (float_of_Z F32 a) (float_of_Z F32 b).
Definition db (a b : Z) : spec_float := fdiv F64 (float_of_Z F64 a) (float_of_Z F64 b).

Lemma zero_block : exists (c : clen spec_float) (g o : gray Z) st,
  clen_checkValidity double c = Ok tt /\ wf g /\ wf o /\ 0 < g_width g /\ 0 < g_height g /\ g_width o = g_width g /\ g_height o = g_height g /\
  block_init (block_mean (int_bmean single U8 (fl 1 1)) 0 true true) = Ok st /\
  block_process (block_mean (int_bmean single U8 (fl 1 1)) 0 true true) double c st g o = Undef.
Proof.
  exists (clen_relative double (db 1 10) 0), (gray_new 7 4 4), (gray_new 0 4 4).
  eexists. split; [vm_compute; reflexivity|]. split; [unfold wf; vm_compute; intuition congruence|]. split; [unfold wf; vm_compute; intuition congruence|].
  repeat (split; [reflexivity|]). vm_compute; reflexivity.
Qed.

Definition neg_img : gray Z := mkGray 3 1 0 3 false [-30; 0; 0].
Lemma neg_img_typed : typed S16 neg_img.
Proof.
  intros x y v E. pose proof (pixel_Some _ _ _ _ E) as [[X1 X2] [Y1 Y2]]. cbn in X2, Y2. assert (y = 0) as -> by lia.
  assert (x = 0 \/ x = 1 \/ x = 2) as [->|[->| ->]] by lia; cbn in E; injection E as <-; cbn; lia.
Qed.
Lemma signed_mean : exists (g o out : gray Z) x y v,
  let l := near_pixels g 1 true (home g 1 x y) in
  typed S16 g /\ fits exact (clen_fixed exact 1%Q) g o 1 /\
  (exists st0 st, block_init (block_mean (int_bmean exact S16 1%Q) 0 true true) = Ok st0 /\
    block_process (block_mean (int_bmean exact S16 1%Q) 0 true true) exact (clen_fixed exact 1%Q) st0 g o = Ok (st, out)) /\
  (exists st0 st, block_init (block_mean (int_bmean single S16 (fl 1 1)) 0 true true) = Ok st0 /\
    block_process (block_mean (int_bmean single S16 (fl 1 1)) 0 true true) double (clen_fixed double (db 1 1)) st0 g o = Ok (st, out)) /\
  pixel g x y = Some v /\ zsum l < (v - 9) * zlen l /\ pixel out x y = Some 1.
Proof.
  exists neg_img, (gray_new 0 3 1), (mkGray 3 1 0 3 false [1; 1; 1]), 1, 0, 0. cbn zeta.
  split; [exact neg_img_typed|]. split.
  { unfold fits. repeat split; try (vm_compute; congruence); unfold wf; vm_compute; intuition congruence. }
  split; [eexists _, _; split; [vm_compute; reflexivity|]; vm_compute; reflexivity|]. split; [eexists _, _; split; [vm_compute; reflexivity|]; vm_compute; reflexivity|].
  repeat (split; [vm_compute; reflexivity|]). vm_compute; reflexivity.
Qed.

Lemma negative_flat : exists (g o out : gray _) st0 st,
  let F := block_minmax (float_bminmax F32 (fl 1 1) (fl 1 1)) (S754_zero false) true false in
  fits double (clen_fixed double (db 1 1)) g o 1 /\ (forall x y, inside g x y -> pixel g x y = Some (fl (-5) 1)) /\
  block_init F = Ok st0 /\ block_process F double (clen_fixed double (db 1 1)) st0 g o = Ok (st, out) /\ pixel out 0 0 = Some 0.
Proof.
  exists (gray_new (fl (-5) 1) 2 1), (gray_new 7 2 1), (mkGray 2 1 0 2 false [0; 0]). eexists _, _. cbn zeta. split.
  { unfold fits. repeat split; try (vm_compute; congruence); unfold wf; vm_compute; intuition congruence. }
  split. { intros x y [[X1 X2] [Y1 Y2]]. cbn in X2, Y2. assert (y = 0) as -> by lia. assert (x = 0 \/ x = 1) as [->| ->] by lia; vm_compute; reflexivity. }
  repeat (split; [vm_compute; reflexivity|]). vm_compute; reflexivity.
Qed.

Lemma disabled_spread : exists (g o : gray Z) st0 st1,
  typed U8 g /\ fits exact (clen_fixed exact 1%Q) g o 1 /\ fits double (clen_fixed double (db 1 1)) g o 1 /\
  block_init (block_minmax (int_bminmax exact U8 (-1)%Q 1%Q) 0 true true) = Ok st0 /\
  block_process (block_minmax (int_bminmax exact U8 (-1)%Q 1%Q) 0 true true) exact (clen_fixed exact 1%Q) st0 g o = Undef /\
  block_init (block_minmax (int_bminmax single U8 (fl (-1) 1) (fl 1 1)) 0 true true) = Ok st1 /\
  block_process (block_minmax (int_bminmax single U8 (fl (-1) 1) (fl 1 1)) 0 true true) double (clen_fixed double (db 1 1)) st1 g o = Undef.
Proof.
  exists (gray_new 9 2 1), (gray_new 0 2 1). eexists _, _. split.
  { intros x y v E. pose proof (pixel_Some _ _ _ _ E) as [[X1 X2] [Y1 Y2]]. cbn in X2, Y2. assert (y = 0) as -> by lia.
    assert (x = 0 \/ x = 1) as [->| ->] by lia; cbn in E; injection E as <-; cbn; lia. }
  split; [|split].
  1,2: unfold fits; repeat split; try (vm_compute; congruence); unfold wf; vm_compute; intuition congruence.
  repeat (split; [vm_compute; reflexivity|]). vm_compute; reflexivity.
Qed.

Lemma large_scale : exists (g o out : gray Z) x y v,
  let l := near_pixels g 1 true (home g 1 x y) in
  typed U8 g /\ fits exact (clen_fixed exact 1%Q) g o 1 /\
  (exists st0 st, block_init (block_mean (int_bmean exact U8 (3 # 2)%Q) 0 true true) = Ok st0 /\
    block_process (block_mean (int_bmean exact U8 (3 # 2)%Q) 0 true true) exact (clen_fixed exact 1%Q) st0 g o = Ok (st, out)) /\
  (exists st0 st, block_init (block_mean (int_bmean single U8 (fl 3 2)) 0 true true) = Ok st0 /\
    block_process (block_mean (int_bmean single U8 (fl 3 2)) 0 true true) double (clen_fixed double (db 1 1)) st0 g o = Ok (st, out)) /\
  pixel g x y = Some v /\ (inject_Z v * inject_Z (zlen l) < (3 # 2) * inject_Z (zsum l))%Q /\ pixel out x y = Some 0.
Proof.
  exists (gray_new 255 2 1), (gray_new 7 2 1), (mkGray 2 1 0 2 false [0; 0]), 0, 0, 255. cbn zeta. split.
  { intros x y v E. pose proof (pixel_Some _ _ _ _ E) as [[X1 X2] [Y1 Y2]]. cbn in X2, Y2. assert (y = 0) as -> by lia.
    assert (x = 0 \/ x = 1) as [->| ->] by lia; cbn in E; injection E as <-; cbn; lia. }
  split. { unfold fits; repeat split; try (vm_compute; congruence); unfold wf; vm_compute; intuition congruence. }
  split; [eexists _, _; split; [vm_compute; reflexivity|]; vm_compute; reflexivity|]. split; [eexists _, _; split; [vm_compute; reflexivity|]; vm_compute; reflexivity|].
  repeat (split; [vm_compute; reflexivity|]). vm_compute; reflexivity.
Qed.

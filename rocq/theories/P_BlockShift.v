(** Theorems about thresholding by blocks and brightness (C138). *)
From Coq Require Import QArith.
From Verif Require Import BaseFacts M_Image M_PackedSet S_Image L_Image S_Convolve M_Float S_Blur S_Stats M_Otsu S_Otsu M_Config M_Block S_Block L_BlockInt S_Symmetry S_Brightness S_BlockShift L_BlockShift.
Open Scope Z_scope.

(** C138, mean: two images that differ by a constant have the same result when the scale is 1. *)
Theorem C138_mean : forall t k local down c g o h o2 req st st2, t = U8 \/ t = U16 -> fits exact c g o req -> typed t g -> typed t h ->
  g_width g * g_height g * ity_max t < 4294967296 -> shifted k g h -> wf h -> wf o2 -> same_size g o2 ->
  ready (block_mean (int_bmean exact t 1%Q) 0 local down) st -> ready (block_mean (int_bmean exact t 1%Q) 0 local down) st2 ->
  exists s r s2 r2, block_process (block_mean (int_bmean exact t 1%Q) 0 local down) exact c st g o = Ok (s, r) /\
    block_process (block_mean (int_bmean exact t 1%Q) 0 local down) exact c st2 h o2 = Ok (s2, r2) /\ alike r r2.
Proof. exact block_mean_shift. Qed.
Print Assumptions C138_mean.

(** C138, min and max. *)
Theorem C138_minmax : forall t spread k local down c g o h o2 req st st2, t = U8 \/ t = U16 -> (0 <= spread)%Q -> (spread < inject_Z 4294967296)%Q ->
  fits exact c g o req -> typed t g -> typed t h ->
  cols g req * rows g req * 2 < 4294967296 -> shifted k g h -> wf h -> wf o2 -> same_size g o2 ->
  ready (block_minmax (int_bminmax exact t spread 1%Q) 0 local down) st -> ready (block_minmax (int_bminmax exact t spread 1%Q) 0 local down) st2 ->
  exists s r s2 r2, block_process (block_minmax (int_bminmax exact t spread 1%Q) 0 local down) exact c st g o = Ok (s, r) /\
    block_process (block_minmax (int_bminmax exact t spread 1%Q) 0 local down) exact c st2 h o2 = Ok (s2, r2) /\ alike r r2.
Proof. exact block_minmax_shift. Qed.
Print Assumptions C138_minmax.

(** C138, both Otsu methods, where the blocks around each block have two values. *)
Theorem C138_otsu : forall two k local down c g o h o2 req st st2, fits exact c g o req -> typed U8 g -> typed U8 h ->
  cols g req * rows g req * 256 < 4294967296 -> g_width g * g_height g < 2147483648 ->
  shifted k g h -> wf h -> wf o2 -> same_size g o2 -> varied g req local ->
  ready (block_otsu exact int_u8 two 0%Q 1%Q local down) st -> ready (block_otsu exact int_u8 two 0%Q 1%Q local down) st2 ->
  exists s r s2 r2, block_process (block_otsu exact int_u8 two 0%Q 1%Q local down) exact c st g o = Ok (s, r) /\
    block_process (block_otsu exact int_u8 two 0%Q 1%Q local down) exact c st2 h o2 = Ok (s2, r2) /\ alike r r2.
Proof. exact block_otsu_shift. Qed.
Print Assumptions C138_otsu.

(** 5 x 4 pixels in blocks of 2, the second image brighter by 15, each result in a window of a larger buffer. *)
Definition low_img : gray Z := mkGray 5 4 0 5 false [10;20;30;40;50; 60;70;80;90;100; 5;15;25;35;45; 200;210;220;230;240].
Definition high_img : gray Z := mkGray 5 4 0 5 false [25;35;45;55;65; 75;85;95;105;115; 20;30;40;50;60; 215;225;235;245;255].
Definition res_img : gray Z := mkGray 5 4 2 7 true (repeat 9 32).
Example C138_hypotheses : fits exact (clen_fixed exact 2%Q) low_img res_img 2 /\ typed U8 low_img /\ typed U8 high_img /\
  cols low_img 2 * rows low_img 2 * 256 < 4294967296 /\ g_width low_img * g_height low_img * ity_max U8 < 4294967296 /\
  varied low_img 2 false /\ shifted 15 low_img high_img /\ wf high_img /\ wf res_img /\ same_size low_img res_img.
Proof.
  assert (T : forall g : gray Z, g = low_img \/ g = high_img -> typed U8 g).
  { intros g Hg x y v E. pose proof (pixel_Some _ _ _ _ E) as [[X1 X2] [Y1 Y2]]. destruct Hg as [-> | ->]; cbn in X2, Y2;
    assert (x = 0 \/ x = 1 \/ x = 2 \/ x = 3 \/ x = 4) as [->|[->|[->|[->| ->]]]] by lia;
    assert (y = 0 \/ y = 1 \/ y = 2 \/ y = 3) as [->|[->|[->| ->]]] by lia; cbn in E; injection E as <-; cbn; lia. }
  split; [unfold fits; repeat split; try (vm_compute; congruence); vm_compute in *; congruence|].
  split; [auto|]. split; [auto|]. split; [vm_compute; reflexivity|]. split; [vm_compute; reflexivity|].
  split.
  { intros (bx, by') ((B1 & B2) & (B3 & B4)). change (cols low_img 2) with 2 in *. change (rows low_img 2) with 2 in *. cbn in B1, B2, B3, B4.
    assert (bx = 0 \/ bx = 1) as [->| ->] by lia; assert (by' = 0 \/ by' = 1) as [->| ->] by lia.
    - exists 10, 20. split; [vm_compute; auto 20|]. split; [vm_compute; auto 20|lia].
    - exists 5, 15. split; [vm_compute; auto 20|]. split; [vm_compute; auto 20|lia].
    - exists 30, 40. split; [vm_compute; auto 20|]. split; [vm_compute; auto 20|lia].
    - exists 25, 35. split; [vm_compute; auto 20|]. split; [vm_compute; auto 20|lia]. }
  split.
  { split; [split; reflexivity|]. intros x y v E. pose proof (pixel_Some _ _ _ _ E) as [[X1 X2] [Y1 Y2]]. cbn in X2, Y2.
    assert (x = 0 \/ x = 1 \/ x = 2 \/ x = 3 \/ x = 4) as [->|[->|[->|[->| ->]]]] by lia;
    assert (y = 0 \/ y = 1 \/ y = 2 \/ y = 3) as [->|[->|[->| ->]]] by lia; cbn in E; injection E as <-; reflexivity. }
  split; [unfold wf; vm_compute; intuition congruence|]. split; [unfold wf; vm_compute; intuition congruence|]. split; reflexivity.
Qed.
Example C138_ready : (exists st, ready (block_mean (int_bmean exact U8 1%Q) 0 false true) st) /\
  (exists st, ready (block_minmax (int_bminmax exact U8 10%Q 1%Q) 0 false true) st) /\
  (exists st, ready (block_otsu exact int_u8 false 0%Q 1%Q false true) st) /\ (exists st, ready (block_otsu exact int_u8 true 0%Q 1%Q false true) st).
Proof.
  split; [|split; [|split]].
  - destruct (block_init_ready (block_mean (int_bmean exact U8 1%Q) 0 false true)) as (st & _ & R); [cbn; lia|eauto].
  - destruct (block_init_ready (block_minmax (int_bminmax exact U8 10%Q 1%Q) 0 false true)) as (st & _ & R); [cbn; lia|eauto].
  - destruct (block_init_ready (block_otsu exact int_u8 false 0%Q 1%Q false true)) as (st & _ & R); [cbn; lia|eauto].
  - destruct (block_init_ready (block_otsu exact int_u8 true 0%Q 1%Q false true)) as (st & _ & R); [cbn; lia|eauto].
Qed.

(** C138: with another scale the result depends on the brightness. *)
Theorem C138_scale_refuted : exists k (g h o r r2 : gray Z) st s s2, shifted k g h /\ typed U8 g /\ typed U8 h /\
  fits exact (clen_fixed exact 1%Q) g o 1 /\ fits exact (clen_fixed exact 1%Q) h o 1 /\
  block_init (block_mean (int_bmean exact U8 (3 # 4)%Q) 0 true true) = Ok st /\
  block_process (block_mean (int_bmean exact U8 (3 # 4)%Q) 0 true true) exact (clen_fixed exact 1%Q) st g o = Ok (s, r) /\
  block_process (block_mean (int_bmean exact U8 (3 # 4)%Q) 0 true true) exact (clen_fixed exact 1%Q) st h o = Ok (s2, r2) /\
  pixel r 0 0 = Some 1 /\ pixel r2 0 0 = Some 0.
Proof. exact mean_scale_depends. Qed.
Print Assumptions C138_scale_refuted.

(** C138: the Otsu result for a region of a single value depends on that value. *)
Theorem C138_flat_refuted : exists k (g h o r r2 : gray Z) st s s2, shifted k g h /\ typed U8 g /\ typed U8 h /\
  fits exact (clen_fixed exact 1%Q) g o 1 /\ fits exact (clen_fixed exact 1%Q) h o 1 /\
  block_init (block_otsu exact int_u8 false 0%Q 1%Q true true) = Ok st /\
  block_process (block_otsu exact int_u8 false 0%Q 1%Q true true) exact (clen_fixed exact 1%Q) st g o = Ok (s, r) /\
  block_process (block_otsu exact int_u8 false 0%Q 1%Q true true) exact (clen_fixed exact 1%Q) st h o = Ok (s2, r2) /\
  pixel r 0 0 = Some 1 /\ pixel r2 0 0 = Some 0.
Proof. exact otsu_flat_depends. Qed.
Print Assumptions C138_flat_refuted.

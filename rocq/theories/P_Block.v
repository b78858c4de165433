(** Theorems about thresholding by blocks (C37, C38, C63-C67). *)
From Coq Require Import QArith Floats.SpecFloat.
From Verif Require Import BaseFacts M_Image M_PackedSet S_Image L_Image S_Convolve M_Float S_Blur S_Stats M_Otsu S_Otsu M_Config M_Block S_Block
  L_BlockInt L_BlockBad.
Open Scope Z_scope.

(** C37: along each axis every pixel is in exactly one block. *)
Theorem C37_partition : forall n req x, 1 <= req <= n -> 0 <= x < n ->
  exists b, (0 <= b < block_count n req /\ block_lo n req b <= x < block_hi n req b) /\
    forall b', 0 <= b' < block_count n req -> block_lo n req b' <= x < block_hi n req b' -> b' = b.
Proof. exact block_partition. Qed.
Print Assumptions C37_partition.

(** C37: no block is smaller than requested; none reaches four times the requested size. *)
Theorem C37_sizes : forall n req b, 1 <= req <= n -> 0 <= b < block_count n req ->
  0 <= block_lo n req b /\ block_lo n req b + req <= block_hi n req b <= n /\ block_hi n req b - block_lo n req b < 2 * block_len n req /\
  block_len n req < 2 * req.
Proof. exact block_sizes. Qed.
Print Assumptions C37_sizes.

(** C37: whatever is computed for a block, computeStatistics computes it once for each block, in reading order, with the
    bounds of that block and with its own place in the statistics. *)
Theorem C37_statistics : forall S (call : Z -> Z -> Z -> Z -> Z -> S -> outcome S) w h req bands s, 1 <= req <= w -> 1 <= req <= h ->
  w < 4294967296 -> h < 4294967296 -> 0 <= bands -> block_count w req * block_count h req * bands < 4294967296 ->
  exists bw bh iw ih, block_size w h req = Ok (bw, bh) /\
    udiv w bw = Ok (block_count w req) /\ udiv h bh = Ok (block_count h req) /\ block_inner w bw = Ok iw /\ block_inner h bh = Ok ih /\
    block_statistics call (block_count w req) (block_count h req) bands w h iw ih bw bh s =
    mfold (fun b s => call (block_lo w req (fst b)) (block_lo h req (snd b))
        (block_hi w req (fst b) - block_lo w req (fst b)) (block_hi h req (snd b) - block_lo h req (snd b))
        ((snd b * block_count w req + fst b) * bands) s) (all_blocks w h req) s.
Proof. exact @statistics_all. Qed.
Print Assumptions C37_statistics.

(** C37: the places of different blocks do not overlap and no place is left out. *)
Theorem C37_places : forall n m bands j, 0 < n -> 0 < m -> 0 < bands -> 0 <= j < n * m * bands ->
  exists x y k, (0 <= x < n /\ 0 <= y < m /\ 0 <= k < bands /\ j = (y * n + x) * bands + k) /\
    forall x' y' k', 0 <= x' < n -> 0 <= y' < m -> 0 <= k' < bands -> j = (y' * n + x') * bands + k' -> x' = x /\ y' = y /\ k' = k.
Proof. exact slot_all. Qed.
Print Assumptions C37_places.

(** 11 x 7 pixels and blocks of 3: columns of 3, 3 and 5 pixels, rows of 3 and 4. *)
Example C37_case : 1 <= 3 <= 11 /\ 1 <= 3 <= 7 /\ block_count 11 3 = 3 /\ block_count 7 3 = 2 /\
  map (fun b => (block_lo 11 3 b, block_hi 11 3 b)) [0; 1; 2] = [(0, 3); (3, 6); (6, 11)] /\
  block_statistics (fun x y w h i s => Ok (s ++ [(x, y, w, h, i)])) 3 2 2 11 7 6 3 3 3 [] =
    Ok [(0,0,3,3,0); (3,0,3,3,2); (6,0,5,3,4); (0,3,3,4,6); (3,3,3,4,8); (6,3,5,4,10)].
Proof. repeat (split; [(lia || vm_compute; reflexivity)|]). vm_compute. reflexivity. Qed.

(** ** C38 *)

(** The state after construction, from which the theorems below start; each of them leads to such a state again. *)
Theorem C38_initial : forall E T (F : bfilter E T), 0 <= bf_bands F < 4294967296 -> exists st, block_init F = Ok st /\ ready F st.
Proof. exact @block_init_ready. Qed.
Print Assumptions C38_initial.

(** C38, mean: all pixels are written; the threshold of a block is the mean of the (scaled and rounded) means of the blocks
    around it. *)
Theorem C38_mean : forall t scale local down c g o req st0, t = U8 \/ t = U16 -> (0 <= scale <= 1)%Q -> fits exact c g o req -> typed t g ->
  g_width g * g_height g * ity_max t < 4294967296 ->
  ready (block_mean (int_bmean exact t scale) 0 local down) st0 ->
  exists st out, block_process (block_mean (int_bmean exact t scale) 0 local down) exact c st0 g o = Ok (st, out) /\
    ready (block_mean (int_bmean exact t scale) 0 local down) st /\
    holds g o out (fun x y => match pixel g x y with
      | Some v => Some (side down (v <=? mean_level scale g req local (home g req x y))) | None => None end).
Proof. exact mean_fits. Qed.
Print Assumptions C38_mean.

(** C38, mean of floating point images with the rounding of IEEE 754. *)
Theorem C38_mean_float : forall f scale local down (c : clen spec_float) g o req st0, fits double c g o req ->
  ready (block_mean (float_bmean f scale) (S754_zero false) local down) st0 ->
  exists st out, block_process (block_mean (float_bmean f scale) (S754_zero false) local down) double c st0 g o = Ok (st, out) /\
    ready (block_mean (float_bmean f scale) (S754_zero false) local down) st /\
    holds g o out (fun x y => match pixel g x y with
      | Some v => Some (side down (SFleb v (float_level f scale g req local (home g req x y)))) | None => None end).
Proof. exact float_mean_fits. Qed.
Print Assumptions C38_mean_float.

(** C38, mean for any arithmetic in which the means are defined, IEEE floats with integer images included. *)
Theorem C38_mean_any : forall E S D (M : bmean E S) zero local down (O : dops D) c g o req st0, fits O c g o req ->
  (forall b, is_block g req b -> exists v, mean_stat M g req b = Ok v) ->
  (forall b, is_block g req b -> exists v, mean_threshold M g req local b = Ok v) ->
  ready (block_mean M zero local down) st0 ->
  exists st out, block_process (block_mean M zero local down) O c st0 g o = Ok (st, out) /\ ready (block_mean M zero local down) st /\
    holds g o out (fun x y => value (mean_value M g req local down x y)).
Proof. exact @mean_any. Qed.
Print Assumptions C38_mean_any.

(** C38, min and max: 1 where the region is flat, otherwise the pixel is compared with the middle of the region's range. *)
Theorem C38_minmax : forall t spread scale local down c g o req st0, t = U8 \/ t = U16 -> (0 <= scale)%Q ->
  (scale * inject_Z (ity_max t) < inject_Z 4294967296)%Q -> (0 <= spread)%Q -> (spread < inject_Z 4294967296)%Q ->
  fits exact c g o req -> typed t g -> cols g req * rows g req * 2 < 4294967296 ->
  ready (block_minmax (int_bminmax exact t spread scale) 0 local down) st0 ->
  exists st out, block_process (block_minmax (int_bminmax exact t spread scale) 0 local down) exact c st0 g o = Ok (st, out) /\
    ready (block_minmax (int_bminmax exact t spread scale) 0 local down) st /\
    holds g o out (fun x y => match pixel g x y with
      | Some v => Some (range_value spread scale down (near_pixels g req local (home g req x y)) v) | None => None end).
Proof. exact minmax_fits. Qed.
Print Assumptions C38_minmax.

(** C38, min and max for any arithmetic. *)
Theorem C38_minmax_any : forall E A D (M : bminmax E A) zero local down (O : dops D) c g o req st0, fits O c g o req ->
  cols g req * rows g req * 2 < 4294967296 ->
  (forall x y, inside g x y -> exists v, mm_value M g req local down x y = Ok v) ->
  ready (block_minmax M zero local down) st0 ->
  exists st out, block_process (block_minmax M zero local down) O c st0 g o = Ok (st, out) /\ ready (block_minmax M zero local down) st /\
    holds g o out (fun x y => value (mm_value M g req local down x y)).
Proof. exact @minmax_any. Qed.
Print Assumptions C38_minmax_any.

(** C38, Otsu: the threshold of a block is the best split of the histogram of the blocks around it. *)
Theorem C38_otsu : forall local down c g o req st0, fits exact c g o req -> typed U8 g ->
  cols g req * rows g req * 256 < 4294967296 -> g_width g * g_height g < 2147483648 ->
  ready (block_otsu exact int_u8 false 0%Q 1%Q local down) st0 ->
  exists st out (th : Z * Z -> Z), block_process (block_otsu exact int_u8 false 0%Q 1%Q local down) exact c st0 g o = Ok (st, out) /\
    ready (block_otsu exact int_u8 false 0%Q 1%Q local down) st /\
    (forall b, is_block g req b -> best_split (byte_counts (near_pixels g req local b)) (th b)) /\
    holds g o out (fun x y => match pixel g x y with Some v => Some (side down (v <=? th (home g req x y))) | None => None end).
Proof. exact otsu_fits. Qed.
Print Assumptions C38_otsu.

(** C38, the second Otsu method: the middle between the means of the two classes. *)
Theorem C38_otsu2 : forall local down c g o req st0, fits exact c g o req -> typed U8 g ->
  cols g req * rows g req * 256 < 4294967296 -> g_width g * g_height g < 2147483648 ->
  ready (block_otsu exact int_u8 true 0%Q 1%Q local down) st0 ->
  exists st out (th : Z * Z -> Z), block_process (block_otsu exact int_u8 true 0%Q 1%Q local down) exact c st0 g o = Ok (st, out) /\
    ready (block_otsu exact int_u8 true 0%Q 1%Q local down) st /\
    (forall b, is_block g req b -> let l := byte_counts (near_pixels g req local b) in
       exists s, best_split l s /\
         ((0 < separation l s)%Q -> nearest ((low_mean l s + high_mean l s) / 2) (th b)) /\ (~ (0 < separation l s)%Q -> th b = 0)) /\
    holds g o out (fun x y => match pixel g x y with Some v => Some (side down (v <=? th (home g req x y))) | None => None end).
Proof. exact otsu2_fits. Qed.
Print Assumptions C38_otsu2.

(** C38, Otsu for any arithmetic, tuning and scale. *)
Theorem C38_otsu_any : forall E D (O : dops D) (u8_of : E -> outcome Z) cv two tuning scale local down c g o req st0, fits O c g o req ->
  cols g req * rows g req * 256 < 4294967296 -> g_width g * g_height g < 2147483648 ->
  (forall x y v, pixel g x y = Some v -> u8_of v = Ok (cv v) /\ 0 <= cv v < 256) ->
  (forall b, is_block g req b -> exists v, otsu_threshold O cv two tuning scale g req local down b = Ok v) ->
  ready (block_otsu O u8_of two tuning scale local down) st0 ->
  exists st out, block_process (block_otsu O u8_of two tuning scale local down) O c st0 g o = Ok (st, out) /\
    ready (block_otsu O u8_of two tuning scale local down) st /\
    holds g o out (fun x y => value (otsu_value O cv two tuning scale g req local down x y)).
Proof. exact @otsu_any. Qed.
Print Assumptions C38_otsu_any.

(** An image of 5 x 4 pixels whose output is a window in a larger buffer; blocks of 2: 2 x 2 blocks. *)
Definition bg : gray Z := mkGray 5 4 0 5 false [10;20;30;40;50; 60;70;80;90;100; 5;15;25;35;45; 200;210;220;230;240].
Definition bo : gray Z := mkGray 5 4 2 7 true (repeat 9 32).
Example C38_hypotheses : fits exact (clen_fixed exact 2%Q) bg bo 2 /\ fits double (clen_fixed double (db 2 1)) bg bo 2 /\ typed U8 bg /\
  cols bg 2 * rows bg 2 * 256 < 4294967296 /\ g_width bg * g_height bg * ity_max U8 < 4294967296 /\
  (1 * inject_Z (ity_max U8) < inject_Z 4294967296)%Q.
Proof.
  split; [|split]; [| |split; [|split; [|split]; vm_compute; reflexivity]].
  1,2: unfold fits; repeat split; try (vm_compute; congruence); vm_compute in *; congruence.
  intros x y v E. pose proof (pixel_Some _ _ _ _ E) as [[X1 X2] [Y1 Y2]]. cbn in X2, Y2.
  assert (x = 0 \/ x = 1 \/ x = 2 \/ x = 3 \/ x = 4) as [->|[->|[->|[->| ->]]]] by lia;
  assert (y = 0 \/ y = 1 \/ y = 2 \/ y = 3) as [->|[->|[->| ->]]] by lia; cbn in E; injection E as <-; cbn; lia.
Qed.
Example C38_mean_case : map (mean_level 1 bg 2 false) [(0,0);(1,0);(0,1);(1,1)] = [40; 65; 108; 133] /\ mean_level 1 bg 2 true (0, 0) = 86 /\
  (exists st0 st out, block_init (block_mean (int_bmean exact U8 1%Q) 0 false true) = Ok st0 /\
    block_process (block_mean (int_bmean exact U8 1%Q) 0 false true) exact (clen_fixed exact 2%Q) st0 bg bo = Ok (st, out) /\
    map (fun x => pixel out x 1) [0;1;2;3;4] = map Some [0;0;0;0;0] /\ map (fun x => pixel out x 2) [0;1;2;3;4] = map Some [1;1;1;1;1]).
Proof.
  split; [vm_compute; reflexivity|]. split; [vm_compute; reflexivity|]. eexists _, _, _. split; [vm_compute; reflexivity|].
  split; [vm_compute; reflexivity|]. split; vm_compute; reflexivity.
Qed.
(** The same run with the float arithmetic of the program. *)
Example C38_mean_ieee : exists st0 st out, block_init (block_mean (int_bmean single U8 (fl 1 1)) 0 false true) = Ok st0 /\
    block_process (block_mean (int_bmean single U8 (fl 1 1)) 0 false true) double (clen_fixed double (db 2 1)) st0 bg bo = Ok (st, out) /\
    map (fun x => pixel out x 1) [0;1;2;3;4] = map Some [0;0;0;0;0] /\ map (fun x => pixel out x 2) [0;1;2;3;4] = map Some [1;1;1;1;1].
Proof.
  eexists _, _, _. split; [vm_compute; reflexivity|]. split; [vm_compute; reflexivity|]. split; vm_compute; reflexivity.
Qed.
Example C38_minmax_case : exists st0 st out, block_init (block_minmax (int_bminmax exact U8 10%Q 1%Q) 0 false true) = Ok st0 /\
    block_process (block_minmax (int_bminmax exact U8 10%Q 1%Q) 0 false true) exact (clen_fixed exact 2%Q) st0 bg bo = Ok (st, out) /\
    map (fun x => pixel out x 0) [0;1;2;3;4] = map Some [1;1;1;1;1] /\ map (fun x => pixel out x 3) [0;1;2;3;4] = map Some [0;0;0;0;0].
Proof.
  eexists _, _, _. split; [vm_compute; reflexivity|]. split; [vm_compute; reflexivity|]. split; vm_compute; reflexivity.
Qed.
Example C38_otsu_case : exists st0 st out, block_init (block_otsu exact int_u8 false 0%Q 1%Q false true) = Ok st0 /\
    block_process (block_otsu exact int_u8 false 0%Q 1%Q false true) exact (clen_fixed exact 2%Q) st0 bg bo = Ok (st, out) /\
    map (fun x => pixel out x 0) [0;1;2;3;4] = map Some [1;1;1;1;1] /\ map (fun x => pixel out x 1) [0;1;2;3;4] = map Some [0;0;0;0;0].
Proof.
  eexists _, _, _. split; [vm_compute; reflexivity|]. split; [vm_compute; reflexivity|]. split; vm_compute; reflexivity.
Qed.

(** C38: an output pixel depends on the pixels of the blocks around its own block, not on other pixels, on the earlier output
    or on earlier images. *)
Theorem C38_mean_local : forall t scale local down c g g' o o' req st st' s s' out out' x y, t = U8 \/ t = U16 -> (0 <= scale <= 1)%Q ->
  fits exact c g o req -> fits exact c g' o' req -> typed t g -> typed t g' ->
  g_width g * g_height g * ity_max t < 4294967296 ->
  ready (block_mean (int_bmean exact t scale) 0 local down) st -> ready (block_mean (int_bmean exact t scale) 0 local down) st' ->
  block_process (block_mean (int_bmean exact t scale) 0 local down) exact c st g o = Ok (s, out) ->
  block_process (block_mean (int_bmean exact t scale) 0 local down) exact c st' g' o' = Ok (s', out') ->
  inside g x y -> agree_near g g' req local (home g req x y) -> pixel out x y = pixel out' x y.
Proof. exact mean_near. Qed.
Print Assumptions C38_mean_local.

Theorem C38_minmax_local : forall t spread scale local down c g g' o o' req st st' s s' out out' x y, t = U8 \/ t = U16 -> (0 <= scale)%Q ->
  (scale * inject_Z (ity_max t) < inject_Z 4294967296)%Q -> (0 <= spread)%Q -> (spread < inject_Z 4294967296)%Q ->
  fits exact c g o req -> fits exact c g' o' req -> typed t g -> typed t g' -> cols g req * rows g req * 2 < 4294967296 ->
  ready (block_minmax (int_bminmax exact t spread scale) 0 local down) st -> ready (block_minmax (int_bminmax exact t spread scale) 0 local down) st' ->
  block_process (block_minmax (int_bminmax exact t spread scale) 0 local down) exact c st g o = Ok (s, out) ->
  block_process (block_minmax (int_bminmax exact t spread scale) 0 local down) exact c st' g' o' = Ok (s', out') ->
  inside g x y -> agree_near g g' req local (home g req x y) -> pixel out x y = pixel out' x y.
Proof. exact minmax_near. Qed.
Print Assumptions C38_minmax_local.

Theorem C38_otsu_local : forall local down c g g' o o' req st st' s s' out out' x y,
  fits exact c g o req -> fits exact c g' o' req -> typed U8 g -> typed U8 g' ->
  cols g req * rows g req * 256 < 4294967296 -> g_width g * g_height g < 2147483648 ->
  ready (block_otsu exact int_u8 false 0%Q 1%Q local down) st -> ready (block_otsu exact int_u8 false 0%Q 1%Q local down) st' ->
  block_process (block_otsu exact int_u8 false 0%Q 1%Q local down) exact c st g o = Ok (s, out) ->
  block_process (block_otsu exact int_u8 false 0%Q 1%Q local down) exact c st' g' o' = Ok (s', out') ->
  inside g x y -> agree_near g g' req local (home g req x y) -> pixel out x y = pixel out' x y.
Proof. exact otsu_near. Qed.
Print Assumptions C38_otsu_local.

(** Without the surrounding blocks a change in another block has no effect. *)
Definition bg' : gray Z := mkGray 5 4 0 5 false [10;20;30;40;50; 60;70;80;90;100; 5;15;25;35;45; 200;210;0;0;0].
Example C38_local_hypotheses : agree_near bg bg' 2 false (home bg 2 1 1) /\ inside bg 1 1 /\ pixel bg 3 3 <> pixel bg' 3 3.
Proof.
  split; [|split; [split; cbn; lia|vm_compute; congruence]]. split; [reflexivity|]. split; [reflexivity|]. intros x y I.
  destruct (pixel bg x y) as [v|] eqn:E.
  - pose proof (pixel_Some _ _ _ _ E) as [[X1 X2] [Y1 Y2]]. cbn in X2, Y2.
    assert (x = 0 \/ x = 1 \/ x = 2 \/ x = 3 \/ x = 4) as [->|[->|[->|[->| ->]]]] by lia;
    assert (y = 0 \/ y = 1 \/ y = 2 \/ y = 3) as [->|[->|[->| ->]]] by lia; rewrite <- E; vm_compute; try reflexivity; vm_compute in I; intuition congruence.
  - symmetry. destruct (pixel bg' x y) as [v|] eqn:E'; auto. exfalso. pose proof (pixel_Some _ _ _ _ E') as I'.
    assert (W : wf bg) by (unfold wf; vm_compute; intuition congruence). destruct (pixel_exists bg x y W I') as (w & Ew). congruence.
Qed.

(** C38: images of different size and blocks larger than the image are rejected. *)
Theorem C38_shape : forall E T D (F : bfilter E T) (O : dops D) c st g o,
  g_width g <> g_width o \/ g_height g <> g_height o -> block_process F O c st g o = Throw.
Proof. exact @block_throw_shape. Qed.
Print Assumptions C38_shape.
Theorem C38_small : forall E T D (F : bfilter E T) (O : dops D) c st g o req,
  g_width g = g_width o -> g_height g = g_height o ->
  clen_computeI O c (d_of O (Z.min (g_width g) (g_height g))) = Ok req ->
  g_width g < u32 req \/ g_height g < u32 req -> block_process F O c st g o = Throw.
Proof. exact @block_throw_small. Qed.
Print Assumptions C38_small.
Example C38_rejected : clen_computeI exact (clen_fixed exact 5%Q) (inject_Z (Z.min 5 4)) = Ok 5 /\ g_height bg < u32 5 /\
  clen_computeI exact (clen_default exact) (inject_Z (Z.min 5 4)) = Ok (-1) /\ g_height bg < u32 (-1) /\ g_width bg <> g_width neg_img.
Proof. repeat (split; [vm_compute; reflexivity|]). vm_compute. congruence. Qed.

(** ** Defects *)

(** C63: a relative length that is less than half a pixel divides by zero. *)
Theorem C63_refuted : exists (c : clen spec_float) (g o : gray Z) st,
  clen_checkValidity double c = Ok tt /\ wf g /\ wf o /\ 0 < g_width g /\ 0 < g_height g /\ g_width o = g_width g /\ g_height o = g_height g /\
  block_init (block_mean (int_bmean single U8 (fl 1 1)) 0 true true) = Ok st /\
  block_process (block_mean (int_bmean single U8 (fl 1 1)) 0 true true) double c st g o = Undef.
Proof. exact zero_block. Qed.
Print Assumptions C63_refuted.

(** C64: in a signed image a pixel far above the mean of its region is reported as below. *)
Theorem C64_refuted : exists (g o out : gray Z) x y v,
  let l := near_pixels g 1 true (home g 1 x y) in
  typed S16 g /\ fits exact (clen_fixed exact 1%Q) g o 1 /\
  (exists st0 st, block_init (block_mean (int_bmean exact S16 1%Q) 0 true true) = Ok st0 /\
    block_process (block_mean (int_bmean exact S16 1%Q) 0 true true) exact (clen_fixed exact 1%Q) st0 g o = Ok (st, out)) /\
  (exists st0 st, block_init (block_mean (int_bmean single S16 (fl 1 1)) 0 true true) = Ok st0 /\
    block_process (block_mean (int_bmean single S16 (fl 1 1)) 0 true true) double (clen_fixed double (db 1 1)) st0 g o = Ok (st, out)) /\
  pixel g x y = Some v /\ zsum l < (v - 9) * zlen l /\ pixel out x y = Some 1.
Proof. exact signed_mean. Qed.
Print Assumptions C64_refuted.

(** C65: an image with the same negative value everywhere is not treated as flat. *)
Theorem C65_refuted : exists (g o out : gray _) st0 st,
  let F := block_minmax (float_bminmax F32 (fl 1 1) (fl 1 1)) (S754_zero false) true false in
  fits double (clen_fixed double (db 1 1)) g o 1 /\ (forall x y, inside g x y -> pixel g x y = Some (fl (-5) 1)) /\
  block_init F = Ok st0 /\ block_process F double (clen_fixed double (db 1 1)) st0 g o = Ok (st, out) /\ pixel out 0 0 = Some 0.
Proof. exact negative_flat. Qed.
Print Assumptions C65_refuted.

(** C66: the documented way to switch off the check for flat regions is undefined for unsigned images. *)
Theorem C66_refuted : exists (g o : gray Z) st0 st1,
  typed U8 g /\ fits exact (clen_fixed exact 1%Q) g o 1 /\ fits double (clen_fixed double (db 1 1)) g o 1 /\
  block_init (block_minmax (int_bminmax exact U8 (-1)%Q 1%Q) 0 true true) = Ok st0 /\
  block_process (block_minmax (int_bminmax exact U8 (-1)%Q 1%Q) 0 true true) exact (clen_fixed exact 1%Q) st0 g o = Undef /\
  block_init (block_minmax (int_bminmax single U8 (fl (-1) 1) (fl 1 1)) 0 true true) = Ok st1 /\
  block_process (block_minmax (int_bminmax single U8 (fl (-1) 1) (fl 1 1)) 0 true true) double (clen_fixed double (db 1 1)) st1 g o = Undef.
Proof. exact disabled_spread. Qed.
Print Assumptions C66_refuted.

(** C67: a scale above 1 wraps around: a pixel below the scaled mean is reported as above. *)
Theorem C67_refuted : exists (g o out : gray Z) x y v,
  let l := near_pixels g 1 true (home g 1 x y) in
  typed U8 g /\ fits exact (clen_fixed exact 1%Q) g o 1 /\
  (exists st0 st, block_init (block_mean (int_bmean exact U8 (3 # 2)%Q) 0 true true) = Ok st0 /\
    block_process (block_mean (int_bmean exact U8 (3 # 2)%Q) 0 true true) exact (clen_fixed exact 1%Q) st0 g o = Ok (st, out)) /\
  (exists st0 st, block_init (block_mean (int_bmean single U8 (fl 3 2)) 0 true true) = Ok st0 /\
    block_process (block_mean (int_bmean single U8 (fl 3 2)) 0 true true) double (clen_fixed double (db 1 1)) st0 g o = Ok (st, out)) /\
  pixel g x y = Some v /\ (inject_Z v * inject_Z (zlen l) < (3 # 2) * inject_Z (zsum l))%Q /\ pixel out x y = Some 0.
Proof. exact large_scale. Qed.
Print Assumptions C67_refuted.

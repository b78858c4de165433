(** Otsu's method by blocks in [double], and the block filters on images of floats called from Java: C125 and C126. *)
From Coq Require Import QArith Reals Lia Lra Floats.SpecFloat.
From Flocq Require Import Core BinarySingleNaN.
From Verif Require Import Base BaseFacts M_Image S_Image L_Image M_Float M_Otsu M_Config M_Convolve S_Convolve M_Block S_Block S_Ieee S_FBlur S_FStats S_FOtsu S_FBlock
  M_Native S_Native M_NativeF S_NativeF M_BlockF L_BlockF.
From Verif Require P_Native P_FBlur P_FBlock P_NativeF P_OtsuF L_BlockInt L_PointF.
Open Scope Z_scope.

(** ** C125: Otsu by blocks, in the arithmetic of the processor *)

(** 8-bit images: every region gets a split of its own counts that no other split beats by much. *)
Theorem C125_bytes : forall two local down (c : clen spec_float) g o req st0, fits double c g o req -> typed U8 g ->
  cols g req * rows g req * 256 < 4294967296 -> g_width g * g_height g < 2147483648 ->
  ready (block_otsu double int_u8 two (d_of double 0) (d_of double 1) local down) st0 ->
  exists st out (th : Z * Z -> Z), block_process (block_otsu double int_u8 two (d_of double 0) (d_of double 1) local down) double c st0 g o = Ok (st, out) /\
    ready (block_otsu double int_u8 two (d_of double 0) (d_of double 1) local down) st /\
    (forall b, is_block g req b -> let l := byte_counts (near_pixels g req local b) in
       0 <= th b < 4294967296 /\ if two then near_middle l (th b) else near_best l (th b)) /\
    holds g o out (fun x y => match pixel g x y with Some v => Some (side down (v <=? th (home g req x y))) | None => None end).
Proof. exact otsu_bytes. Qed.
Print Assumptions C125_bytes.

(** Images of floats or doubles: pixels count, and are compared, by their whole part. *)
Theorem C125_floats : forall f two local down (c : clen spec_float) g o req st0, fits double c g o req ->
  cols g req * rows g req * 256 < 4294967296 -> g_width g * g_height g < 2147483648 ->
  (forall x y v, pixel g x y = Some v -> finite f v /\ (0 <= val v < 256)%R) ->
  ready (f_botsu_filter two (d_of double 0) (d_of double 1) local down) st0 ->
  exists st out (th : Z * Z -> Z), block_process (f_botsu_filter two (d_of double 0) (d_of double 1) local down) double c st0 g o = Ok (st, out) /\
    ready (f_botsu_filter two (d_of double 0) (d_of double 1) local down) st /\
    (forall b, is_block g req b -> let l := byte_counts (map (fun v => Zfloor (val v)) (near_pixels g req local b)) in
       0 <= th b < 4294967296 /\ if two then near_middle l (th b) else near_best l (th b)) /\
    holds g o out (fun x y => match pixel g x y with Some v => Some (side down (Zfloor (val v) <=? th (home g req x y))) | None => None end).
Proof. exact otsu_float. Qed.
Print Assumptions C125_floats.

Notation z32 := P_FBlur.z32.
(** A 4x3 view of floats and one of bytes, as one block. *)
Definition kimg : gray Z := mkGray 4 3 1 5 true [9; 10;20;30;40; 9; 50;60;70;80; 9; 200;201;202;255; 9].
Lemma bo_wf : wf P_FBlock.bo.
Proof. unfold wf; cbn; unfold zlen; cbn [length]; repeat split; lia. Qed.
Lemma one_block {E} (g : gray E) : wf g -> g_width g = 4 -> g_height g = 3 -> fits double (clen_fixed double (float_of_Z F64 3)) g P_FBlock.bo 3.
Proof.
  intros W A B. unfold fits. rewrite A, B. split; [exact W|]. split; [exact bo_wf|]. split; [reflexivity|]. split; [reflexivity|].
  split; [vm_compute; reflexivity|]. split; lia.
Qed.
Lemma kimg_wf : wf kimg.
Proof. unfold wf; cbn; unfold zlen; cbn [length]; repeat split; try lia; intros; discriminate. Qed.
Lemma kimg_typed : typed U8 kimg.
Proof. intros x y v P. unfold pixel in P. destruct (_ && _); [|discriminate]. apply znth_In in P. cbn in P. cbn. intuition lia. Qed.
Lemma eg_range x y v : pixel P_FBlur.eg x y = Some v -> finite F32 v /\ (0 <= val v < 256)%R.
Proof.
  intros P. unfold pixel in P. destruct (_ && _); [|discriminate]. apply znth_In in P.
  assert (Q : forall z, 0 <= z < 256 -> finite F32 (z32 z) /\ (0 <= val (z32 z) < 256)%R).
  { intros z Hz. destruct (P_FBlur.z32_ok z ltac:(lia)) as [F V]. split; auto. rewrite V. split; [apply IZR_le|apply IZR_lt]; lia. }
  revert P. unfold P_FBlur.eg, g_data. intros P. repeat (destruct P as [<-|P]; [apply Q; lia|]). destruct P.
Qed.
Example C125_ex : fits double (clen_fixed double (float_of_Z F64 3)) kimg P_FBlock.bo 3 /\ typed U8 kimg /\
  cols kimg 3 * rows kimg 3 * 256 < 4294967296 /\ near_pixels kimg 3 true (0, 0) = [10;20;30;40; 50;60;70;80; 200;201;202;255] /\
  fits double (clen_fixed double (float_of_Z F64 3)) P_FBlur.eg P_FBlock.bo 3 /\
  (forall x y v, pixel P_FBlur.eg x y = Some v -> finite F32 v /\ (0 <= val v < 256)%R) /\
  forall two local down, (exists st, block_init (f_botsu_filter two (d_of double 0) (d_of double 1) local down) = Ok st /\
    ready (f_botsu_filter two (d_of double 0) (d_of double 1) local down) st) /\
  exists st, ready (block_otsu double int_u8 two (d_of double 0) (d_of double 1) local down) st.
Proof.
  split; [apply one_block; [exact kimg_wf|reflexivity|reflexivity]|]. split; [exact kimg_typed|]. split; [vm_compute; reflexivity|]. split; [vm_compute; reflexivity|].
  split; [apply one_block; [exact P_FBlur.eg_wf|reflexivity|reflexivity]|]. split; [exact eg_range|].
  intros two local down. split; [apply L_BlockInt.block_init_ready; cbn; lia|].
  destruct (L_BlockInt.block_init_ready (block_otsu double int_u8 two (d_of double 0) (d_of double 1) local down)) as (st & _ & R); [cbn; lia|]. eauto.
Qed.

(** A pixel that is no number, or is not below 256, or is -1, is undefined behaviour. *)
Definition uimg (v : spec_float) : gray spec_float := mkGray 4 3 0 4 false (repeat (z32 6) 11 ++ [v]).
Theorem C125_undefined_refuted : exists v1 v2 v3, v1 = S754_nan /\ finite F32 v2 /\ val v2 = 256%R /\ finite F32 v3 /\ val v3 = (-1)%R /\
  forall v, v = v1 \/ v = v2 \/ v = v3 -> forall two local down, exists g c o req st0, fits double c g o req /\ pixel g 3 2 = Some v /\
    (forall x y w, (x, y) <> (3, 2) -> pixel g x y = Some w -> w = z32 6) /\
    ready (f_botsu_filter two (d_of double 0) (d_of double 1) local down) st0 /\
    block_process (f_botsu_filter two (d_of double 0) (d_of double 1) local down) double c st0 g o = Undef.
Proof.
  destruct (P_FBlur.z32_ok 256 ltac:(lia)) as [A1 A2], (P_FBlur.z32_ok (-1) ltac:(lia)) as [B1 B2].
  exists S754_nan, (z32 256), (z32 (-1)). do 5 (split; [auto|]). intros v Hv two local down.
  destruct (L_BlockInt.block_init_ready (f_botsu_filter two (d_of double 0) (d_of double 1) local down)) as (st & E & R); [cbn; lia|].
  exists (uimg v), (clen_fixed double (float_of_Z F64 3)), P_FBlock.bo, 3, st.
  split; [apply one_block; [|reflexivity|reflexivity]; unfold wf; cbn; unfold zlen; cbn [length]; repeat split; lia|]. split; [reflexivity|]. split.
  { intros x y w N P. pose proof (pixel_Some _ _ _ _ P) as [P1 P2]. cbn [uimg g_width g_height] in P1, P2.
    assert (x = 0 \/ x = 1 \/ x = 2 \/ x = 3) as [-> | [-> | [-> | ->]]] by lia; assert (y = 0 \/ y = 1 \/ y = 2) as [-> | [-> | ->]] by lia;
      try (injection P as <-; reflexivity). now destruct N. }
  split; [exact R|]. assert (E' : block_init (f_botsu_filter two (d_of double 0) (d_of double 1) local down) =
    block_init (f_botsu_filter false (d_of double 0) (d_of double 1) false false)) by reflexivity.
  rewrite E' in E. vm_compute in E. injection E as <-. destruct Hv as [-> | [-> | ->]], two, local, down; vm_compute; reflexivity.
Qed.
Print Assumptions C125_undefined_refuted.

(** ** C126: block filters on images of floats, from Java *)
Theorem C126_fresh : forall scale spread tuning two local down,
  (exists st, block_init (f_bmean_filter scale local down) = Ok st /\ ready (f_bmean_filter scale local down) st) /\
  (exists st, block_init (f_bminmax_filter spread scale local down) = Ok st /\ ready (f_bminmax_filter spread scale local down) st) /\
  exists st, block_init (f_botsu_filter two tuning scale local down) = Ok st /\ ready (f_botsu_filter two tuning scale local down) st.
Proof. exact f_blocks_fresh. Qed.
Print Assumptions C126_fresh.

(** The scale is rounded to a float; a pixel is classified as the exact mean demands unless rounding can tip the decision. *)
Theorem C126_mean : forall V inp out length fraction req, fbargs V inp out ->
  let c := f_width length fraction in clen_computeI double (mkClen length fraction) (d_of double (Z.min (ji_width inp) (ji_height inp))) = Ok req ->
  1 <= req <= ji_width inp -> 1 <= req <= ji_height inp ->
  forall scale local down st M n after,
  ready (f_bmean_filter scale local down) st -> finite F32 (to_single scale) -> fbounded V inp M ->
  (forall g b, fshows V inp g -> is_block g req b -> zlen (block_pixels g req b) <= n) ->
  (40 * (Rabs (val (to_single scale)) + 1) * (IZR n * M + 1) * (1 + unit_error F32) ^ Z.to_nat (n + 16) < huge F32)%R ->
  exists st' V' out' g F, f_java_filter (block_process (f_bmean_filter scale local down) double c) after st V inp out = Ok (st', V', out') /\
    ready (f_bmean_filter scale local down) st' /\ fshows V inp g /\ fbeffect V inp out V' out' F /\
    forall x y v, fpixel V inp x y = Some v -> exists low, F x y = Some (side down low) /\
      let t := level (val (to_single scale)) g req local (home g req x y) in let e := level_error F32 n (val (to_single scale)) M in
      ((val v < t - e)%R -> low = true) /\ ((t + e < val v)%R -> low = false).
Proof. exact (fun V inp out l f => f_bmean_java V inp out (f_width l f)). Qed.
Print Assumptions C126_mean.

Theorem C126_minmax : forall V inp out length fraction req, fbargs V inp out ->
  let c := f_width length fraction in clen_computeI double (mkClen length fraction) (d_of double (Z.min (ji_width inp) (ji_height inp))) = Ok req ->
  1 <= req <= ji_width inp -> 1 <= req <= ji_height inp ->
  forall spread scale local down st M after,
  (ji_width inp / req) * (ji_height inp / req) * 2 < 4294967296 ->
  ready (f_bminmax_filter spread scale local down) st -> finite F32 (to_single spread) -> finite F32 (to_single scale) -> fbounded V inp M ->
  (4 * (Rabs (val (to_single scale)) + 1) * (M + 1) < huge F32)%R ->
  exists st' V' out' g F, f_java_filter (block_process (f_bminmax_filter spread scale local down) double c) after st V inp out = Ok (st', V', out') /\
    ready (f_bminmax_filter spread scale local down) st' /\ fshows V inp g /\ fbeffect V inp out V' out' F /\
    (forall x y, jinside inp x y -> F x y = Some 0 \/ F x y = Some 1) /\
    forall x y v lo hi, fpixel V inp x y = Some v -> spans (near_pixels g req local (home g req x y)) lo hi -> (smallest_normal F32 <= hi)%R ->
      exists bit, F x y = Some bit /\
      ((hi - lo <= val (to_single spread))%R -> bit = 1) /\
      ((val (to_single spread) < (1 - unit_error F32) * (hi - lo))%R ->
        let t := (val (to_single scale) * middle lo hi)%R in let e := middle_error F32 (val (to_single scale)) lo hi in
        ((val v < t - e)%R -> bit = side down true) /\ ((t + e < val v)%R -> bit = side down false)).
Proof. exact (fun V inp out l f => f_bminmax_java V inp out (f_width l f)). Qed.
Print Assumptions C126_minmax.

Theorem C126_otsu : forall V inp out length fraction req, fbargs V inp out ->
  let c := f_width length fraction in clen_computeI double (mkClen length fraction) (d_of double (Z.min (ji_width inp) (ji_height inp))) = Ok req ->
  1 <= req <= ji_width inp -> 1 <= req <= ji_height inp ->
  forall two local down st after,
  (ji_width inp / req) * (ji_height inp / req) * 256 < 4294967296 -> ji_width inp * ji_height inp < 2147483648 ->
  ready (f_botsu_filter two (d_of double 0) (d_of double 1) local down) st ->
  (forall x y v, fpixel V inp x y = Some v -> finite F32 v /\ (0 <= val v < 256)%R) ->
  exists st' V' out' g (th : Z * Z -> Z),
    f_java_filter (block_process (f_botsu_filter two (d_of double 0) (d_of double 1) local down) double c) after st V inp out = Ok (st', V', out') /\
    ready (f_botsu_filter two (d_of double 0) (d_of double 1) local down) st' /\ fshows V inp g /\
    (forall b, is_block g req b -> let l := byte_counts (map (fun v => Zfloor (val v)) (near_pixels g req local b)) in
       0 <= th b < 4294967296 /\ if two then near_middle l (th b) else near_best l (th b)) /\
    fbeffect V inp out V' out' (fun x y => match fpixel V inp x y with Some v => Some (side down (Zfloor (val v) <=? th (home g req x y))) | None => None end).
Proof. exact (fun V inp out l f => f_botsu_java V inp out (f_width l f)). Qed.
Print Assumptions C126_otsu.

(** The image of C115, blocks of one pixel and of three. *)
Notation fV := P_NativeF.fV.
Notation fin := P_NativeF.fin.
Notation fbin := P_NativeF.fbin.
Definition w1 := f_width (float_of_Z F64 1) (float_of_Z F64 (-1)).
Lemma shown_blocks g b : fshows fV fin g -> is_block g 1 b -> zlen (block_pixels g 1 b) <= 1.
Proof.
  intros (Wg & W & H & P) B. destruct P_NativeF.fshows_ex as (_ & W' & H' & P').
  assert (B' : is_block P_FBlur.eg 1 b) by (unfold is_block, cols, rows in *; now rewrite W', H', <- W, <- H).
  rewrite (L_BlockInt.block_same g P_FBlur.eg 1); auto; try lia; try (rewrite W, ?H; cbn; lia); try (rewrite H; cbn; lia).
  - now apply P_FBlock.eg_blocks.
  - intros x y _. now rewrite P, P'.
Qed.
Lemma one_single : to_single (float_of_Z F64 1) = z32 1 /\ to_single (float_of_Z F64 5) = z32 5.
Proof. split; vm_compute; reflexivity. Qed.
Example C126_ex : fbargs fV fin fbin /\ clen_computeI double w1 (d_of double (Z.min (ji_width fin) (ji_height fin))) = Ok 1 /\
  finite F32 (to_single (float_of_Z F64 1)) /\ finite F32 (to_single (float_of_Z F64 5)) /\ fbounded fV fin 90 /\
  (forall g b, fshows fV fin g -> is_block g 1 b -> zlen (block_pixels g 1 b) <= 1) /\
  (40 * (Rabs (val (to_single (float_of_Z F64 1))) + 1) * (1 * 90 + 1) * (1 + unit_error F32) ^ Z.to_nat (1 + 16) < huge F32)%R /\
  (4 * (Rabs (val (to_single (float_of_Z F64 1))) + 1) * (90 + 1) < huge F32)%R /\
  (forall x y v, fpixel fV fin x y = Some v -> finite F32 v /\ (0 <= val v < 256)%R) /\
  exists st st' V', block_init (f_bmean_filter (float_of_Z F64 1) true true) = Ok st /\
    f_java_filter (block_process (f_bmean_filter (float_of_Z F64 1) true true) double w1) (st, []) st fV fin fbin = Ok (st', V', fbin) /\
    jv_arrays (fv_int V') = [[7; 1;1;1;0; 7; 1;1;0;0; 7; 0;0;0;1; 7]] /\ fv_floats V' = fv_floats fV.
Proof.
  destruct one_single as [E1 E5]. rewrite E1, E5. destruct (P_FBlur.z32_ok 1 ltac:(lia)) as [A1 A2], (P_FBlur.z32_ok 5 ltac:(lia)) as [B1 B2].
  pose proof (P_FBlur.power_small 17 ltac:(lia)) as P. pose proof (L_PointF.huge_big F32 (or_introl eq_refl)) as H'.
  split; [exact P_NativeF.fbargs_ex|]. split; [vm_compute; reflexivity|]. split; [exact A1|]. split; [exact B1|]. split; [exact P_NativeF.fbounded_ex|].
  split; [exact shown_blocks|]. rewrite A2, Rabs_R1. split; [change (Z.to_nat (1 + 16)) with 17%nat; lra|]. split; [lra|].
  split. { intros x y v. destruct P_NativeF.fshows_ex as (_ & _ & _ & G). rewrite <- G. apply eg_range. }
  eexists _, _, _. split; [vm_compute; reflexivity|]. split; [vm_compute; reflexivity|]. split; reflexivity.
Qed.

(** A block wider than the image is refused, but Java is not told: the array of the input is not given back, and the next call is undefined. *)
Definition w4 := f_width (float_of_Z F64 4) (float_of_Z F64 (-1)).
Theorem C126_failure_refuted : exists scale width V inp out st, fbargs V inp out /\ clen_checkValidity double width = Ok tt /\ ready (f_bmean_filter scale true true) st /\
  (forall g o, fshows V inp g -> g_width o = g_width g -> g_height o = g_height g -> block_process (f_bmean_filter scale true true) double width st g o = Throw) /\
  forall after, exists V', f_java_filter (block_process (f_bmean_filter scale true true) double width) after st V inp out = Ok (fst after, V', out) /\
    fv_held V' <> [] /\
    forall after' st', f_java_filter (block_process (f_bmean_filter scale true true) double width) after' st' V' inp out = Undef.
Proof.
  destruct (proj1 (C126_fresh (float_of_Z F64 1) (float_of_Z F64 1) (float_of_Z F64 1) true true true)) as (st & E & R).
  exists (float_of_Z F64 1), w4, fV, fin, fbin, st. split; [exact P_NativeF.fbargs_ex|]. split; [reflexivity|]. split; [exact R|]. split.
  - intros g o (Wg & Gw & Gh & _) Ow Oh. unfold block_process, checkSameShape. rewrite Ow, Oh, !Z.eqb_refl. cbn [bind andb negb orb]. rewrite Gw, Gh. reflexivity.
  - intros after. eexists. split; [vm_compute; reflexivity|]. split; [discriminate|]. intros after' s'. vm_compute. reflexivity.
Qed.
Print Assumptions C126_failure_refuted.

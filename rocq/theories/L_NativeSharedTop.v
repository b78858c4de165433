(** Lemmas about the threshold filters called from Java on arrays that may be shared. *)
From Coq Require Import QArith Qround Floats.SpecFloat.
From Verif Require Import BaseFacts M_Image S_Image L_Image M_Convolve S_Convolve M_Normalized M_Blur S_Blur M_Float M_Otsu S_Otsu
  M_Config S_Config M_Local S_Local M_Binary M_Block S_Block M_Heap S_Heap L_Heap M_Shared S_Shared L_Shared L_SharedTop M_Native S_Native
  L_Native L_NativeFilt M_NativeShared S_NativeShared L_NativeShared.
Open Scope Z_scope.

Lemma reshape_same {A} (z : A) H o w h : h_width o = w -> h_height o = h -> h_reshape z H o w h = Ok (H, o).
Proof. intros <- <-. unfold h_reshape. now rewrite !Z.eqb_refl. Qed.
Lemma threshold_object H a t down o H' o' : h_width o = h_width a -> h_height o = h_height a ->
  h_threshold H a t down o = Ok (H', o') -> o' = o.
Proof.
  intros Ew Eh. unfold h_threshold. rewrite reshape_same by auto. cbn [bind]. intros E. apply bind_Ok in E as (H1 & _ & [= <- <-]). reflexivity.
Qed.
Lemma fixed_simulates : simulates may_take fixed_process s_fixed_process.
Proof.
  intros s H a o g go Ga Go Ew Eh P. unfold fixed_process, s_fixed_process.
  pose proof (threshold_shared H a o g go (fst s) (snd s) Ga Go P) as X.
  destruct (threshold _ _ g _ _ go) as [g'| | |], (h_threshold H a _ _ o) as [[H' o']| | |] eqn:E; cbn in *; auto.
  apply threshold_object in E; auto. subst o'. tauto.
Qed.
Lemma otsu_simulates {D} (O : dops D) : simulates may_take (otsu_process O) (s_otsu_process O).
Proof.
  intros [[mn mx] down] H a o g go Ga Go Ew Eh P. unfold otsu_process, s_otsu_process.
  pose proof (otsu_shared O H a o g go mn mx down Ga Go P) as X.
  destruct (global_otsu O U8 g mn mx down go) as [g'| | |], (h_global_otsu O H a mn mx down o) as [[H' o']| | |] eqn:E; cbn in *; auto.
  unfold h_global_otsu in E. apply bind_Ok in E as (g0 & _ & E). apply bind_Ok in E as (th & _ & E).
  apply threshold_object in E; auto. subst o'. tauto.
Qed.
Lemma local_simulates {D} (O : dops D) L width down : simulates may_take (local_process O L width down) (s_local_process O L width down).
Proof.
  intros s H a o g go Ga Go Ew Eh P. unfold local_process, s_local_process.
  pose proof (local_shared O (int_narith U8) (int_marith U8) (fun _ => 1) L width down H a o g go (fst s) (snd s) Ga Go P) as X.
  destruct (local_mean _ _ _ _ _ _ _ _ g go _ _) as [[g' s1]| | |], (h_local_mean _ _ _ _ _ _ _ H a o _ _) as [[[H' o'] s2]| | |] eqn:E; cbn in *; auto.
  unfold h_local_mean in E. rewrite reshape_same in E by auto. cbn [bind] in E. 
  apply bind_Ok in E as (b1 & _ & E). apply bind_Ok in E as (b2 & _ & E). apply bind_Ok in E as (g0 & _ & E).
  apply bind_Ok in E as (r & _ & E). apply bind_Ok in E as ([m b3] & _ & E). apply bind_Ok in E as (H2 & _ & E). injection E as E1 E2 E3. subst o'. tauto.
Qed.
Lemma block_simulates {T D} (F : bfilter Z T) rule indexed (O : dops D) request :
  (forall st H a o g go, good H a g -> good H o go -> aligned a o ->
    as_copies H o (let* '(st', g') := block_process F O request st g go in Ok (g', st'))
      (let* '(st', H') := h_block_process F rule indexed O request st H a o in Ok (H', o, st'))) ->
  simulates aligned (block_process F O request) (h_block_process F rule indexed O request).
Proof. intros X s H a o g go Ga Go _ _ P. now apply X. Qed.

(** ** The calls *)
Lemma fixed_call_shared x q down J inp out after : jshare J inp out -> jbehind inp out ->
  float_value x = Some q -> (0 <= q)%Q -> (q < 256)%Q ->
  exists s J' out', fixed_new double x down = Ok s /\ (forall din dout, s_java_filter din dout s_fixed_process after s J inp out = Ok (s, J', out')) /\
    jeffect JByte J inp out J' out' (fun x y => match jpixel JByte J inp x y with
      | Some v => Some (side down (Qle_bool (inject_Z v) q)) | None => None end).
Proof.
  intros A B V H0 H1.
  assert (exists s, fixed_new double x down = Ok s) as (s & Es).
  { unfold fixed_new. rewrite (to_u8 x q V H0 H1). eexists. reflexivity. }
  destruct (shared_call may_take fixed_process s_fixed_process after s J inp out (fun s' F => s' = s /\
      F = (fun x y => match jpixel JByte J inp x y with Some v => Some (side down (Qle_bool (inject_Z v) q)) | None => None end))
      fixed_simulates A) as (s' & J' & out' & F & E & (-> & ->) & Ee); [| |exists s, J', out'; auto].
  - intros a o. now apply behind_take.
  - intros J2 inp2 out2 A2 (C1 & C2 & C3 & C4). destruct (fixed_exact x q down J2 inp2 out2 after A2 V H0 H1) as (s2 & J' & out' & E1 & E2 & E3).
    rewrite E1 in Es. injection Es as ->. exists s, J', out', (fun x y => match jpixel JByte J inp x y with Some v => Some (side down (Qle_bool (inject_Z v) q)) | None => None end).
    split; auto. split; auto. eapply effect_ext; [exact E3|]. intros i j _. cbn beta. now rewrite C4.
Qed.

Lemma otsu_call_shared x y a b down J inp out after : jshare J inp out -> jbehind inp out ->
  float_value x = Some a -> float_value y = Some b ->
  (0 <= a < 1)%Q -> (0 <= b < 256)%Q -> (forall i j v, jpixel JByte J inp i j = Some v -> v <= Qfloor b) ->
  exists s J' out' g th, otsu_new double x y down = Ok s /\
    (forall din dout, s_java_filter din dout (s_otsu_process exact) after s J inp out = Ok (s, J', out')) /\
    shows JByte J inp g /\ best_split (value_counts g 0 (Qfloor b)) th /\
    jeffect JByte J inp out J' out' (fun x y => match jpixel JByte J inp x y with
      | Some v => Some (side down (v <=? th)) | None => None end).
Proof.
  intros A B V1 V2 H1 H2 Hv.
  assert (exists s, otsu_new double x y down = Ok s) as (s & Es).
  { unfold otsu_new. rewrite (to_u8 y b V2) by tauto. destruct H1 as [H0 H1]. rewrite (to_u8 x a V1 H0).
    - eexists. reflexivity.
    - eapply Qlt_trans; [exact H1|reflexivity]. }
  destruct (shared_call may_take (otsu_process exact) (s_otsu_process exact) after s J inp out (fun s' F => s' = s /\
      exists g th, shows JByte J inp g /\ best_split (value_counts g 0 (Qfloor b)) th /\
      F = (fun x y => match jpixel JByte J inp x y with Some v => Some (side down (v <=? th)) | None => None end))
      (otsu_simulates exact) A) as (s' & J' & out' & F & E & (-> & g & th & Sg & Bs & ->) & Ee); [| |exists s, J', out', g, th; auto].
  - intros i o. now apply behind_take.
  - intros J2 inp2 out2 A2 (C1 & C2 & C3 & C4).
    destruct (otsu_call x y a b down J2 inp2 out2 after A2 V1 V2 H1 H2) as (s2 & J' & out' & g & th & E1 & E2 & Sg & Bs & E3).
    { intros i j v. rewrite C4. apply Hv. }
    rewrite E1 in Es. injection Es as ->. exists s, J', out', (fun x y => match jpixel JByte J inp x y with Some v => Some (side down (v <=? th)) | None => None end).
    split; auto. split; [split; auto; exists g, th; auto|]. eapply effect_ext; [exact E3|]. intros i j _. cbn beta. now rewrite C4.
Qed.

Lemma local_call_shared {D} (O : dops D) L width down n s J inp out after : jshare J inp out -> jbehind inp out ->
  clen_computeI O width (d_of O (Z.min (ji_width inp) (ji_height inp))) = Ok n -> 2 <= n <= 8388606 ->
  0 < ji_width inp -> 0 < ji_height inp <= 1073741824 -> ji_width inp * (ji_height inp + 1) <= 2147483647 ->
  ji_width inp < 2 * (n / 2) + 1 \/ 2 * (n / 2) + 1 <= ji_height inp -> storage_ok s ->
  exists s' J' out' g, (forall din dout, s_java_filter din dout (s_local_process O L width down) after s J inp out = Ok (s', J', out')) /\ storage_ok s' /\
    shows JByte J inp g /\
    jeffect JByte J inp out J' out' (fun x y => match jpixel JByte J inp x y with
      | Some v => Some (if (if down then lc_le L v (mean_box g (n / 2) x y) else lc_gt L v (mean_box g (n / 2) x y)) then 1 else 0)
      | None => None end).
Proof.
  intros A B En Hn Hw Hh Hf Hs So.
  destruct (shared_call may_take (local_process O L width down) (s_local_process O L width down) after s J inp out
      (fun s' F => storage_ok s' /\ exists g, shows JByte J inp g /\ F = (fun x y => match jpixel JByte J inp x y with
      | Some v => Some (if (if down then lc_le L v (mean_box g (n / 2) x y) else lc_gt L v (mean_box g (n / 2) x y)) then 1 else 0)
      | None => None end)) (local_simulates O L width down) A) as (s' & J' & out' & F & E & (So' & g & Sg & ->) & Ee); [| |exists s', J', out', g; auto].
  - intros i o. now apply behind_take.
  - intros J2 inp2 out2 A2 (C1 & C2 & C3 & C4).
    destruct (local_call O L width down n s J2 inp2 out2 after A2) as (s2 & J' & out' & g & E1 & So' & Sg & E3); try (rewrite ?C1, ?C2; auto; fail).
    eexists s2, J', out', _. split; [exact E1|]. split; [split; auto; exists g; split; [auto|reflexivity]|].
    eapply effect_ext; [exact E3|]. intros i j _. cbn beta. now rewrite C4.
Qed.

Section Blocks.
  Context (J : jvm) (inp out : jimage) (A : jshare J inp out) (B : jaligned inp out) (c : clen Q) (req : Z).
  Context (Ec : clen_computeI exact c (inject_Z (Z.min (ji_width inp) (ji_height inp))) = Ok req)
    (H1 : 1 <= req <= ji_width inp) (H2 : 1 <= req <= ji_height inp).

  Lemma mean_call_shared scale local down st after : (0 <= scale <= 1)%Q -> ji_width inp * ji_height inp * 255 < 4294967296 ->
    ready (block_mean (int_bmean exact U8 scale) 0 local down) st ->
    exists st' J' out' g,
      (forall din dout, s_java_filter din dout (h_block_process (block_mean (int_bmean exact U8 scale) 0 local down)
        (mean_rule (int_bmean exact U8 scale) local down) false exact c) after st J inp out = Ok (st', J', out')) /\
      ready (block_mean (int_bmean exact U8 scale) 0 local down) st' /\ shows JByte J inp g /\
      jeffect JByte J inp out J' out' (fun x y => match jpixel JByte J inp x y with
        | Some v => Some (side down (v <=? mean_level scale g req local (home g req x y))) | None => None end).
  Proof.
    intros Hs Ha Rd.
    destruct (shared_call aligned (block_process (block_mean (int_bmean exact U8 scale) 0 local down) exact c)
      (h_block_process (block_mean (int_bmean exact U8 scale) 0 local down) (mean_rule (int_bmean exact U8 scale) local down) false exact c)
      after st J inp out (fun s' F => ready (block_mean (int_bmean exact U8 scale) 0 local down) s' /\ exists g, shows JByte J inp g /\
      F = (fun x y => match jpixel JByte J inp x y with
        | Some v => Some (side down (v <=? mean_level scale g req local (home g req x y))) | None => None end)))
      as (s' & J' & out' & F & E & (So' & g & Sg & ->) & Ee); [| | | |exists s', J', out', g; auto].
    - apply block_simulates. intros. now apply block_mean_shared.
    - exact A.
    - intros i o. now apply aligned_aligned.
    - intros J2 inp2 out2 A2 (C1 & C2 & C3 & C4).
      destruct (mean_call J2 inp2 out2 A2 c req) with (scale := scale) (local := local) (down := down) (st := st) (after := after)
        as (s2 & J' & out' & g & E1 & So' & Sg & E3); try (rewrite ?C1, ?C2; auto; fail).
      eexists s2, J', out', _. split; [exact E1|]. split; [split; auto; exists g; split; [auto|reflexivity]|].
      eapply effect_ext; [exact E3|]. intros i j _. cbn beta. now rewrite C4.
  Qed.

  Lemma minmax_call_shared spread scale local down st after : (0 <= scale)%Q -> (scale * inject_Z 255 < inject_Z 4294967296)%Q ->
    (0 <= spread)%Q -> (spread < inject_Z 4294967296)%Q ->
    ready (block_minmax (int_bminmax exact U8 spread scale) 0 local down) st ->
    exists st' J' out' g,
      (forall din dout, s_java_filter din dout (h_block_process (block_minmax (int_bminmax exact U8 spread scale) 0 local down)
        (minmax_rule (int_bminmax exact U8 spread scale) local down) false exact c) after st J inp out = Ok (st', J', out')) /\
      ready (block_minmax (int_bminmax exact U8 spread scale) 0 local down) st' /\ shows JByte J inp g /\
      jeffect JByte J inp out J' out' (fun x y => match jpixel JByte J inp x y with
        | Some v => Some (range_value spread scale down (near_pixels g req local (home g req x y)) v) | None => None end).
  Proof.
    intros Hs Hm Hp Hq Rd.
    destruct (shared_call aligned (block_process (block_minmax (int_bminmax exact U8 spread scale) 0 local down) exact c)
      (h_block_process (block_minmax (int_bminmax exact U8 spread scale) 0 local down) (minmax_rule (int_bminmax exact U8 spread scale) local down) false exact c)
      after st J inp out (fun s' F => ready (block_minmax (int_bminmax exact U8 spread scale) 0 local down) s' /\ exists g, shows JByte J inp g /\
      F = (fun x y => match jpixel JByte J inp x y with
        | Some v => Some (range_value spread scale down (near_pixels g req local (home g req x y)) v) | None => None end)))
      as (s' & J' & out' & F & E & (So' & g & Sg & ->) & Ee); [| | | |exists s', J', out', g; auto].
    - apply block_simulates. intros. now apply block_minmax_shared.
    - exact A.
    - intros i o. now apply aligned_aligned.
    - intros J2 inp2 out2 A2 (C1 & C2 & C3 & C4).
      destruct (minmax_call J2 inp2 out2 A2 c req) with (spread := spread) (scale := scale) (local := local) (down := down) (st := st) (after := after)
        as (s2 & J' & out' & g & E1 & So' & Sg & E3); try (rewrite ?C1, ?C2; auto; fail).
      eexists s2, J', out', _. split; [exact E1|]. split; [split; auto; exists g; split; [auto|reflexivity]|].
      eapply effect_ext; [exact E3|]. intros i j _. cbn beta. now rewrite C4.
  Qed.

  Lemma otsu_block_call_shared two local down st after : (ji_width inp / req) * (ji_height inp / req) * 256 < 4294967296 ->
    ready (block_otsu exact int_u8 two 0%Q 1%Q local down) st ->
    exists st' J' out' g (th : Z * Z -> Z),
      (forall din dout, s_java_filter din dout (h_block_process (block_otsu exact int_u8 two 0%Q 1%Q local down)
        (otsu_rule exact int_u8 two 0%Q 1%Q local down) true exact c) after st J inp out = Ok (st', J', out')) /\
      ready (block_otsu exact int_u8 two 0%Q 1%Q local down) st' /\ shows JByte J inp g /\
      (forall b, is_block g req b -> let l := byte_counts (near_pixels g req local b) in
         if two then exists s, best_split l s /\ ((0 < separation l s)%Q -> nearest ((low_mean l s + high_mean l s) / 2) (th b)) /\
                       (~ (0 < separation l s)%Q -> th b = 0)
         else best_split l (th b)) /\
      jeffect JByte J inp out J' out' (fun x y => match jpixel JByte J inp x y with
        | Some v => Some (side down (v <=? th (home g req x y))) | None => None end).
  Proof.
    intros Ha Rd.
    destruct (shared_call aligned (block_process (block_otsu exact int_u8 two 0%Q 1%Q local down) exact c)
      (h_block_process (block_otsu exact int_u8 two 0%Q 1%Q local down) (otsu_rule exact int_u8 two 0%Q 1%Q local down) true exact c)
      after st J inp out (fun s' F => ready (block_otsu exact int_u8 two 0%Q 1%Q local down) s' /\ exists g th, shows JByte J inp g /\
      (forall b, is_block g req b -> let l := byte_counts (near_pixels g req local b) in
         if two then exists s, best_split l s /\ ((0 < separation l s)%Q -> nearest ((low_mean l s + high_mean l s) / 2) (th b)) /\
                       (~ (0 < separation l s)%Q -> th b = 0)
         else best_split l (th b)) /\
      F = (fun x y => match jpixel JByte J inp x y with
        | Some v => Some (side down (v <=? th (home g req x y))) | None => None end)))
      as (s' & J' & out' & F & E & (So' & g & th & Sg & Ht & ->) & Ee); [| | | |exists s', J', out', g, th; auto].
    - apply block_simulates. intros. now apply block_otsu_shared.
    - exact A.
    - intros i o. now apply aligned_aligned.
    - intros J2 inp2 out2 A2 (C1 & C2 & C3 & C4).
      destruct (otsu_block_call J2 inp2 out2 A2 c req) with (two := two) (local := local) (down := down) (st := st) (after := after)
        as (s2 & J' & out' & g & th & E1 & So' & Sg & Ht & E3); try (rewrite ?C1, ?C2; auto; fail).
      eexists s2, J', out', _. split; [exact E1|]. split; [split; auto; exists g, th; split; [auto|split; [auto|reflexivity]]|].
      eapply effect_ext; [exact E3|]. intros i j _. cbn beta. now rewrite C4.
  Qed.
End Blocks.

(** ** Uses *)
Lemma row_unique w x y x' y' : 0 <= x < w -> 0 <= x' < w -> y * w + x = y' * w + x' -> x = x' /\ y = y'.
Proof. intros. assert (y = y') by (destruct (Z.lt_trichotomy y y') as [L|[L|L]]; auto; exfalso; nia). subst. lia. Qed.
Lemma in_place J im : jshare J im im -> jbehind im im /\ jaligned im im.
Proof.
  intros [[(W & H & S) St _ _ _] _ _ _ _].
  assert (A : jaligned im im).
  { intros _ x y x' y' [I1 I2] [I3 I4]. unfold jplace. rewrite !Z.eqb_refl. cbn [andb]. unfold jpos. intros E. apply (row_unique (ji_stride im)); lia. }
  split; auto. intros X x y x' y' I I' E. destruct (A X x y x' y' I I' E) as [-> ->]. unfold before. lia.
Qed.
Lemma window_parent J im part x0 y0 : jshare J part im -> ji_sub im = false -> jwindow im part x0 y0 -> jbehind part im.
Proof.
  intros [_ [(W & H & S) St _ Ow _] _ _ _] Sb (X0 & Y0 & Xw & Yh & Es & Et & _) _ x y x' y' [I1 I2] [I3 I4]. destruct (Ow Sb) as [Z0 Sw].
  unfold jplace, jpos in *. rewrite Es, Et, Z0, Sw. unfold before. destruct (_ && _) eqn:E.
  - apply andb_true_iff in E as [E1 E2]. apply Z.eqb_eq in E1, E2. assert (x0 = 0 /\ y0 = 0) as [-> ->] by lia. intros Ep. destruct (row_unique (ji_width im) x y x' y') as [-> ->]; lia.
  - intros Ep [B|[-> B]].
    + assert (y' * ji_width part + x' < y * ji_width part) by nia. assert (y * ji_width part <= y * ji_width im) by (apply Z.mul_le_mono_nonneg_l; lia).
      assert (0 <= y0 * ji_width im) by (apply Z.mul_nonneg_nonneg; lia). lia.
    + assert (y * ji_width part <= y * ji_width im) by (apply Z.mul_le_mono_nonneg_l; lia).
      assert (0 <= y0 * ji_width im) by (apply Z.mul_nonneg_nonneg; lia). lia.
Qed.

(** Lemmas about the threshold filters called from Java. *)
From Coq Require Import QArith Qround Floats.SpecFloat.
From Verif Require Import BaseFacts M_Image S_Image L_Image M_Convolve S_Convolve M_Normalized M_Blur S_Blur M_Float M_Otsu S_Otsu L_OtsuImage
  M_Config S_Config M_Block S_Block L_BlockInt M_Local S_Local L_Local M_Binary M_Native S_Native L_Native.
Open Scope Z_scope.

(** ** Truncation of floats *)
Lemma float_truncates x q : float_value x = Some q -> (0 <= q)%Q -> float_int x = Some (Qfloor q).
Proof.
  destruct x as [s|s| |s m e]; cbn; try discriminate.
  - intros [= <-] _. reflexivity.
  - intros [= <-] H. destruct s.
    + exfalso. destruct (0 <=? e) eqn:Ee.
      * apply Z.leb_le in Ee. pose proof (Z.pow_pos_nonneg 2 e). unfold Qle in H. cbn in H. nia.
      * unfold Qle in H. cbn in H. nia.
    + destruct (0 <=? e) eqn:Ee.
      * now rewrite Qfloor_Z.
      * apply Z.leb_gt in Ee. pose proof (Z.pow_pos_nonneg 2 (- e)). unfold Qfloor. rewrite Z2Pos.id by lia. reflexivity.
Qed.
Lemma to_u8 x q : float_value x = Some q -> (0 <= q)%Q -> (q < 256)%Q -> d_to double U8 x = Ok (Qfloor q).
Proof.
  intros V H0 H1. unfold d_to. cbn [d_int double]. rewrite (float_truncates x q V H0).
  assert (0 <= Qfloor q) by (apply (Qfloor_resp_le 0 q) in H0; exact H0).
  assert (Qfloor q < 256).
  { pose proof (Qfloor_le q) as L. assert (inject_Z (Qfloor q) < inject_Z 256)%Q by (eapply Qle_lt_trans; eauto). now rewrite Zlt_Qlt. }
  change (ity_min U8) with 0. change (ity_max U8) with 255. now replace ((0 <=? Qfloor q) && (Qfloor q <=? 255)) with true by lia.
Qed.
Lemma floor_compare v q : (inject_Z v <= q)%Q <-> v <= Qfloor q.
Proof.
  split; intros H.
  - rewrite <- (Qfloor_Z v). now apply Qfloor_resp_le.
  - eapply Qle_trans; [|apply Qfloor_le]. now rewrite <- Zle_Qle.
Qed.

Lemma fixed_exact x q down J inp out after : jargs JByte JByte J inp out -> float_value x = Some q -> (0 <= q)%Q -> (q < 256)%Q ->
  exists s J' out', fixed_new double x down = Ok s /\ java_filter fixed_process after s J inp out = Ok (s, J', out') /\
    jeffect JByte J inp out J' out' (fun x y => match jpixel JByte J inp x y with
      | Some v => Some (side down (Qle_bool (inject_Z v) q)) | None => None end).
Proof.
  intros A V H0 H1. pose proof (to_u8 x q V H0 H1) as E. assert (R : 0 <= Qfloor q <= 255).
  { unfold d_to in E. cbn [d_int double] in E. rewrite (float_truncates x q V H0) in E. destruct (_ && _) eqn:X; [|discriminate].
    change (ity_min U8) with 0 in X. change (ity_max U8) with 255 in X. lia. }
  destruct (fixed_call (Qfloor q) down J inp out A R after) as (J' & out' & E1 & E2).
  exists (Qfloor q, down), J', out'. split; [unfold fixed_new; now rewrite E|]. split; auto.
  destruct E2 as [X1 X2 X3 X4 X5 X6]. split; auto. intros a b I. rewrite X2 by auto. destruct (jpixel JByte J inp a b) as [v|]; auto.
  f_equal. unfold side. destruct (Qle_bool (inject_Z v) q) eqn:L.
  - apply Qle_bool_iff, floor_compare in L. destruct down; [now rewrite (proj2 (Z.leb_le _ _))|]. now rewrite (proj2 (Z.ltb_ge _ _)).
  - assert (Qfloor q < v).
    { apply Z.nle_gt. intros C. apply floor_compare in C. apply Qle_bool_iff in C. congruence. }
    destruct down; [now rewrite (proj2 (Z.leb_gt _ _))|now rewrite (proj2 (Z.ltb_lt _ _))].
Qed.

Lemma side_range down b : 0 <= side down b <= 255.
Proof. destruct down, b; cbn; lia. Qed.

(** ** Otsu *)
Lemma otsu_call x y a b down J inp out after : jargs JByte JByte J inp out -> float_value x = Some a -> float_value y = Some b ->
  (0 <= a < 1)%Q -> (0 <= b < 256)%Q -> (forall i j v, jpixel JByte J inp i j = Some v -> v <= Qfloor b) ->
  exists s J' out' g th, otsu_new double x y down = Ok s /\ java_filter (otsu_process exact) after s J inp out = Ok (s, J', out') /\
    shows JByte J inp g /\ best_split (value_counts g 0 (Qfloor b)) th /\
    jeffect JByte J inp out J' out' (fun x y => match jpixel JByte J inp x y with
      | Some v => Some (side down (v <=? th)) | None => None end).
Proof.
  intros A V1 V2 [H0 H1] [H2 H3] Hv.
  pose proof (to_u8 y b V2 H2 H3) as Eb. assert (Ea : d_to double U8 x = Ok 0).
  { rewrite (to_u8 x a V1 H0); [|eapply Qlt_trans; [exact H1|reflexivity]].
    assert (0 <= Qfloor a) by (apply (Qfloor_resp_le 0 a) in H0; exact H0).
    assert (Qfloor a < 1) by (rewrite Zlt_Qlt; eapply Qle_lt_trans; [apply Qfloor_le|exact H1]). f_equal. lia. }
  assert (R : 0 <= Qfloor b <= 255).
  { unfold d_to in Eb. cbn [d_int double] in Eb. rewrite (float_truncates y b V2 H2) in Eb. destruct (_ && _) eqn:X; [|discriminate].
    change (ity_min U8) with 0 in X. change (ity_max U8) with 255 in X. lia. }
  destruct (filter_some (otsu_process exact) after (0, Qfloor b, down) (fun g s' F => s' = (0, Qfloor b, down) /\
      exists th, best_split (value_counts g 0 (Qfloor b)) th /\ F = (fun x y => match jpixel JByte J inp x y with
      | Some v => Some (side down (v <=? th)) | None => None end)) J inp out A) as (s' & J' & out' & g & F & E & S & (-> & th & B & ->) & Ee).
  - intros g o S W Sb Dw Dh. assert (S' := S). destruct S' as (Wg & _ & _ & P).
    destruct (global_otsu_ok U8 g (Qfloor b) down o o Wg W (same_size 0 g o Dw Dh)) as (th & o' & E & B & H).
    + intros i j v E. pose proof (shows_range J inp g (ja_in _ _ _ _ _ A) S i j v E). rewrite P in E. apply Hv in E. lia.
    + lia.
    + change (ity_max U8) with 255. lia.
    + exists (0, Qfloor b, down), o', (fun x y => match jpixel JByte J inp x y with Some v => Some (side down (v <=? th)) | None => None end). unfold otsu_process. rewrite E. cbn [bind]. split; [reflexivity|]. split; [split; auto; exists th; split; auto|].
      destruct H as (H1' & H2' & H3' & H4 & H5). split.
      * split; auto. split; auto. split; auto. split; auto. intros i j I. rewrite H4 by auto. rewrite <- P. destruct (pixel g i j) as [v|]; auto. f_equal.
        unfold side. destruct down; auto. rewrite Z.gtb_ltb. destruct (Z.leb_spec v th), (Z.ltb_spec th v); auto; lia.
      * intros i j v _. destruct (jpixel _ _ _ _ _); [|discriminate]. intros [= <-]. apply side_range.
  - exists (0, Qfloor b, down), J', out', g, th. split; [unfold otsu_new; rewrite Ea, Eb; reflexivity|]. auto.
Qed.

(** ** Local mean *)
Lemma local_call {D} (O : dops D) L width down n s J inp out after : jargs JByte JByte J inp out ->
  clen_computeI O width (d_of O (Z.min (ji_width inp) (ji_height inp))) = Ok n -> 2 <= n <= 8388606 ->
  0 < ji_width inp -> 0 < ji_height inp <= 1073741824 -> ji_width inp * (ji_height inp + 1) <= 2147483647 ->
  ji_width inp < 2 * (n / 2) + 1 \/ 2 * (n / 2) + 1 <= ji_height inp -> storage_ok s ->
  exists s' J' out' g, java_filter (local_process O L width down) after s J inp out = Ok (s', J', out') /\ storage_ok s' /\
    shows JByte J inp g /\
    jeffect JByte J inp out J' out' (fun x y => match jpixel JByte J inp x y with
      | Some v => Some (if (if down then lc_le L v (mean_box g (n / 2) x y) else lc_gt L v (mean_box g (n / 2) x y)) then 1 else 0)
      | None => None end).
Proof.
  intros A En Hn Hw Hh Hf Hs So.
  destruct (filter_some (local_process O L width down) after s (fun g s' F => storage_ok s' /\ F = (fun x y => match jpixel JByte J inp x y with
      | Some v => Some (if (if down then lc_le L v (mean_box g (n / 2) x y) else lc_gt L v (mean_box g (n / 2) x y)) then 1 else 0)
      | None => None end)) J inp out A) as (s' & J' & out' & g & F & E & S & (So' & ->) & Ee); [|eauto 8].
  intros g o S W Sb Dw Dh. assert (S' := S). destruct S' as (Wg & Gw & Gh & P). destruct So as (S1 & S2 & S3 & S4).
  assert (0 < n / 2 /\ 2 * (n / 2) <= n) as [N1 N2] by (pose proof (Z.div_mod n 2); pose proof (Z.mod_pos_bound n 2); lia).
  assert (Wd : 0 < g_width g <= 1073741824 /\ 0 < g_height g <= 1073741824) by (rewrite Gw, Gh; nia).
  destruct (local_mean_ok O U8 L width down n (n / 2) 255 g o (fst s) (snd s)) as (o1 & o' & s1' & s2' & E1 & E2 & (H1 & H2 & H3 & H4 & H5) & T1 & T2 & T3 & T4); auto.
  - now rewrite Gw, Gh.
  - split; auto; try tauto; try lia.
    + intros x y v E. pose proof (shows_range J inp g (ja_in _ _ _ _ _ A) S x y v E). change (ity_min U8) with 0. change (ity_max U8) with 255. lia.
    + change (ity_max (signed_type U8)) with 2147483647. lia.
  - rewrite (same_size 0 g o Dw Dh) in E1. injection E1 as <-. exists (s1', s2'), o', (fun x y => match jpixel JByte J inp x y with
      | Some v => Some (if (if down then lc_le L v (mean_box g (n / 2) x y) else lc_gt L v (mean_box g (n / 2) x y)) then 1 else 0)
      | None => None end). unfold local_process. rewrite E2. cbn [bind].
    split; [reflexivity|]. split; [split; [exact (conj T1 (conj T2 (conj T3 T4)))|reflexivity]|]. split.
    + split; auto. split; auto. split; auto. split; auto. intros x y I. rewrite H4 by auto. now rewrite <- P.
    + intros x y v _. destruct (jpixel _ _ _ _ _); [|discriminate]. intros [= <-]. destruct (if down then _ else _); lia.
Qed.

(** ** Blocks *)
Section Blocks.
  Context (J : jvm) (inp out : jimage) (A : jargs JByte JByte J inp out) (c : clen Q) (req : Z)
    (Er : clen_computeI exact c (inject_Z (Z.min (ji_width inp) (ji_height inp))) = Ok req)
    (R1 : 1 <= req <= ji_width inp) (R2 : 1 <= req <= ji_height inp).

  Lemma blocks_fit g o : shows JByte J inp g -> wf o -> g_width o = g_width g -> g_height o = g_height g -> fits exact c g o req /\ typed U8 g.
  Proof.
    intros S W Dw Dh. split.
    - destruct S as (Wg & Gw & Gh & _). split; auto. split; auto. split; auto. split; auto. rewrite Gw, Gh. auto.
    - intros x y v E. exact (shows_range J inp g (ja_in _ _ _ _ _ A) S x y v E).
  Qed.

  Lemma blocks_area (g : gray Z) : g_width g = ji_width inp -> g_height g = ji_height inp -> cols g req * rows g req <= 2147483647.
  Proof.
    intros Gw Gh. unfold cols, rows, block_count. rewrite Gw, Gh. pose proof (ja_area _ _ _ _ _ A).
    assert (0 <= ji_width inp / req <= ji_width inp) by (split; [apply Z.div_pos; lia|apply Z.div_le_upper_bound; nia]).
    assert (0 <= ji_height inp / req <= ji_height inp) by (split; [apply Z.div_pos; lia|apply Z.div_le_upper_bound; nia]).
    nia.
  Qed.

  Lemma mean_call scale local down st after : (0 <= scale <= 1)%Q -> ji_width inp * ji_height inp * 255 < 4294967296 ->
    ready (block_mean (int_bmean exact U8 scale) 0 local down) st ->
    exists st' J' out' g, java_filter (block_process (block_mean (int_bmean exact U8 scale) 0 local down) exact c) after st J inp out = Ok (st', J', out') /\
      ready (block_mean (int_bmean exact U8 scale) 0 local down) st' /\ shows JByte J inp g /\
      jeffect JByte J inp out J' out' (fun x y => match jpixel JByte J inp x y with
        | Some v => Some (side down (v <=? mean_level scale g req local (home g req x y))) | None => None end).
  Proof.
    intros Hs Ha Rd.
    destruct (filter_some (block_process (block_mean (int_bmean exact U8 scale) 0 local down) exact c) after st (fun g s' F =>
      ready (block_mean (int_bmean exact U8 scale) 0 local down) s' /\ F = (fun x y => match jpixel JByte J inp x y with
        | Some v => Some (side down (v <=? mean_level scale g req local (home g req x y))) | None => None end)) J inp out A)
      as (s' & J' & out' & g & F & E & S & (So' & ->) & Ee); [|eauto 8].
    intros g o S W Sb Dw Dh. destruct (blocks_fit g o S W Dw Dh) as [Ft Ty]. destruct S as (_ & Gw & Gh & P).
    destruct (mean_fits U8 scale local down c g o req st (or_introl eq_refl) Hs Ft Ty) as (st' & o' & E & Rd' & (H1 & H2 & H3 & H4 & H5)); auto.
    { rewrite Gw, Gh. exact Ha. }
    exists st', o', (fun x y => match jpixel JByte J inp x y with
        | Some v => Some (side down (v <=? mean_level scale g req local (home g req x y))) | None => None end).
    split; auto. split; auto. split.
    - split; auto. split; auto. split; auto. split; auto. intros x y I. rewrite H4 by auto. now rewrite <- P.
    - intros x y v _. destruct (jpixel _ _ _ _ _); [|discriminate]. intros [= <-]. apply side_range.
  Qed.

  Lemma minmax_call spread scale local down st after : (0 <= scale)%Q -> (scale * inject_Z 255 < inject_Z 4294967296)%Q ->
    (0 <= spread)%Q -> (spread < inject_Z 4294967296)%Q ->
    ready (block_minmax (int_bminmax exact U8 spread scale) 0 local down) st ->
    exists st' J' out' g, java_filter (block_process (block_minmax (int_bminmax exact U8 spread scale) 0 local down) exact c) after st J inp out = Ok (st', J', out') /\
      ready (block_minmax (int_bminmax exact U8 spread scale) 0 local down) st' /\ shows JByte J inp g /\
      jeffect JByte J inp out J' out' (fun x y => match jpixel JByte J inp x y with
        | Some v => Some (range_value spread scale down (near_pixels g req local (home g req x y)) v) | None => None end).
  Proof.
    intros Hs Hm Hp Hq Rd.
    destruct (filter_some (block_process (block_minmax (int_bminmax exact U8 spread scale) 0 local down) exact c) after st (fun g s' F =>
      ready (block_minmax (int_bminmax exact U8 spread scale) 0 local down) s' /\ F = (fun x y => match jpixel JByte J inp x y with
        | Some v => Some (range_value spread scale down (near_pixels g req local (home g req x y)) v) | None => None end)) J inp out A)
      as (s' & J' & out' & g & F & E & S & (So' & ->) & Ee); [|eauto 8].
    intros g o S W Sb Dw Dh. destruct (blocks_fit g o S W Dw Dh) as [Ft Ty]. destruct S as (_ & Gw & Gh & P).
    destruct (minmax_fits U8 spread scale local down c g o req st (or_introl eq_refl) Hs Hm Hp Hq Ft Ty) as (st' & o' & E & Rd' & (H1 & H2 & H3 & H4 & H5)); auto.
    { pose proof (blocks_area g Gw Gh). lia. }
    exists st', o', (fun x y => match jpixel JByte J inp x y with
        | Some v => Some (range_value spread scale down (near_pixels g req local (home g req x y)) v) | None => None end).
    split; auto. split; auto. split.
    - split; auto. split; auto. split; auto. split; auto. intros x y I. rewrite H4 by auto. now rewrite <- P.
    - intros x y v _. destruct (jpixel _ _ _ _ _); [|discriminate]. intros [= <-]. unfold range_value. destruct (_ <=? _); [lia|]. apply side_range.
  Qed.
  (** Standard method, and the variant. *)
  Lemma otsu_block_call two local down st after : (ji_width inp / req) * (ji_height inp / req) * 256 < 4294967296 ->
    ready (block_otsu exact int_u8 two 0%Q 1%Q local down) st ->
    exists st' J' out' g (th : Z * Z -> Z),
      java_filter (block_process (block_otsu exact int_u8 two 0%Q 1%Q local down) exact c) after st J inp out = Ok (st', J', out') /\
      ready (block_otsu exact int_u8 two 0%Q 1%Q local down) st' /\ shows JByte J inp g /\
      (forall b, is_block g req b -> let l := byte_counts (near_pixels g req local b) in
         if two then exists s, best_split l s /\ ((0 < separation l s)%Q -> nearest ((low_mean l s + high_mean l s) / 2) (th b)) /\
                       (~ (0 < separation l s)%Q -> th b = 0)
         else best_split l (th b)) /\
      jeffect JByte J inp out J' out' (fun x y => match jpixel JByte J inp x y with
        | Some v => Some (side down (v <=? th (home g req x y))) | None => None end).
  Proof.
    intros Ha Rd.
    destruct (filter_some (block_process (block_otsu exact int_u8 two 0%Q 1%Q local down) exact c) after st (fun g s' F =>
      ready (block_otsu exact int_u8 two 0%Q 1%Q local down) s' /\ exists th, (forall b, is_block g req b -> let l := byte_counts (near_pixels g req local b) in
         if two then exists s, best_split l s /\ ((0 < separation l s)%Q -> nearest ((low_mean l s + high_mean l s) / 2) (th b)) /\
                       (~ (0 < separation l s)%Q -> th b = 0)
         else best_split l (th b)) /\ F = (fun x y => match jpixel JByte J inp x y with
        | Some v => Some (side down (v <=? th (home g req x y))) | None => None end)) J inp out A)
      as (s' & J' & out' & g & F & E & S & (So' & th & Ht & ->) & Ee); [|exists s', J', out', g, th; auto].
    intros g o S W Sb Dw Dh. destruct (blocks_fit g o S W Dw Dh) as [Ft Ty]. destruct S as (_ & Gw & Gh & P).
    assert (Ha' : cols g req * rows g req * 256 < 4294967296) by (unfold cols, rows, block_count; now rewrite Gw, Gh).
    assert (Hb : g_width g * g_height g < 2147483648) by (rewrite Gw, Gh; pose proof (ja_area _ _ _ _ _ A); lia).
    assert (exists st' o' th, block_process (block_otsu exact int_u8 two 0%Q 1%Q local down) exact c st g o = Ok (st', o') /\
      ready (block_otsu exact int_u8 two 0%Q 1%Q local down) st' /\ (forall b, is_block g req b -> let l := byte_counts (near_pixels g req local b) in
         if two then exists s, best_split l s /\ ((0 < separation l s)%Q -> nearest ((low_mean l s + high_mean l s) / 2) (th b)) /\
                       (~ (0 < separation l s)%Q -> th b = 0)
         else best_split l (th b)) /\
      holds g o o' (fun x y => match pixel g x y with Some v => Some (side down (v <=? th (home g req x y))) | None => None end))
      as (st' & o' & th & E & Rd' & Ht & (H1 & H2 & H3 & H4 & H5)).
    { destruct two; [exact (otsu2_fits local down c g o req st Ft Ty Ha' Hb Rd)|exact (otsu_fits local down c g o req st Ft Ty Ha' Hb Rd)]. }
    exists st', o', (fun x y => match jpixel JByte J inp x y with Some v => Some (side down (v <=? th (home g req x y))) | None => None end).
    split; auto. split; [eauto|]. split.
    - split; auto. split; auto. split; auto. split; auto. intros x y I. rewrite H4 by auto. now rewrite <- P.
    - intros x y v _. destruct (jpixel _ _ _ _ _); [|discriminate]. intros [= <-]. apply side_range.
  Qed.
End Blocks.

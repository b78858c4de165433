(** Lemmas about the Otsu block filter. *)
From Coq Require Import QArith Qround.
From Verif Require Import BaseFacts M_Image M_Convolve S_Image L_Image L_Inter M_GrowArray M_PackedSet S_Convolve L_Window L_Convolve2
  M_Blur L_Blur S_Blur M_Stats S_Stats L_Stats M_Misc L_Misc M_Otsu M_Config M_Block S_Otsu L_Otsu L_OtsuImage S_Block L_Block L_BlockVar.
Open Scope Z_scope.

Lemma zlen_flat_map {A B} (f : A -> list B) l : zlen (flat_map f l) = zsum (map (fun a => zlen (f a)) l).
Proof. induction l as [|a l IH]; cbn [flat_map map]; [reflexivity|]. rewrite zlen_app, zsum_cons, IH. reflexivity. Qed.
Lemma zsum_scale (f : Z -> Z) c l : zsum (map (fun a => f a * c) l) = zsum (map f l) * c.
Proof. induction l as [|a l IH]; cbn [map]; rewrite ?zsum_cons, ?IH; [reflexivity|lia]. Qed.
Lemma zlen_map {A B} (f : A -> B) l : zlen (map f l) = zlen l.
Proof. unfold zlen. now rewrite map_length. Qed.
Lemma zseq_last lo hi : lo <= hi -> zseq lo (hi + 1) = zseq lo hi ++ [hi].
Proof.
  intros H. unfold zseq. replace (hi + 1 - lo) with (hi - lo + 1) by lia. rewrite zrange_S by lia. rewrite map_app. cbn.
  now replace (lo + (hi - lo)) with hi by lia.
Qed.

(** Blocks next to each other are not longer than the image. *)
Lemma block_lengths n req : 1 <= req <= n -> forall a b, 0 <= a < b -> b <= block_count n req ->
  zsum (map (fun i => block_hi n req i - block_lo n req i) (zseq a b)) <= block_hi n req (b - 1) - block_lo n req a.
Proof.
  intros Hr a b Ha Hb. assert (exists m, b = a + 1 + m /\ 0 <= m) as (m & -> & Hm) by (exists (b - a - 1); lia). revert Hb. clear Ha.
  pattern m. apply natlike_ind; [| |exact Hm]; clear m Hm.
  - intros _. rewrite Z.add_0_r. rewrite zseq_last by lia. unfold zseq. rewrite Z.sub_diag. change (zrange 0) with (@nil Z). cbn [map app].
    rewrite zsum_cons. change (zsum []) with 0. replace (a + 1 - 1) with a by lia. lia.
  - intros m Hm IH Hb. unfold Z.succ in *. replace (a + 1 + (m + 1)) with (a + 1 + m + 1) by lia. rewrite zseq_last by lia.
    rewrite map_app, zsum_app. cbn [map]. rewrite zsum_cons. cbn [zsum fold_right]. specialize (IH ltac:(lia)).
    replace (a + 1 + m + 1 - 1) with (a + 1 + m) by lia.
    assert (block_hi n req (a + 1 + m - 1) <= block_lo n req (a + 1 + m)).
    { unfold block_hi, block_lo. replace (_ =? _) with false by lia. lia. }
    lia.
Qed.

Section Region.
Context {E : Type}.
Variables (g : gray E) (req : Z) (local : bool).
Hypothesis Hg : wf g.
Hypothesis Hw : 1 <= req <= g_width g.
Hypothesis Hh : 1 <= req <= g_height g.

Lemma around_lengths n i : 1 <= req <= n -> n < 4294967296 -> 0 <= i < block_count n req ->
  0 <= zsum (map (fun i => block_hi n req i - block_lo n req i) (around local (block_count n req) i)) <= n.
Proof.
  intros Hr Hn Hi. pose proof (count_le n req Hr).
  destruct (around_first local (block_count n req) i Hi ltac:(lia)) as (L1 & E1 & F1 & F2). rewrite E1. split.
  - apply zsum_nonneg. intros v Hv. apply in_map_iff in Hv. destruct Hv as (j & <- & Hj). apply zseq_In in Hj.
    pose proof (block_bounds n req Hr j ltac:(lia)). pose proof (len_req n req Hr). lia.
  - pose proof (block_lengths n req Hr (block_first local i) (block_last local (block_count n req) i + 1) ltac:(lia) ltac:(lia)) as X.
    replace (block_last local (block_count n req) i + 1 - 1) with (block_last local (block_count n req) i) in X by lia.
    pose proof (block_bounds n req Hr (block_first local i) ltac:(lia)).
    pose proof (block_bounds n req Hr (block_last local (block_count n req) i) ltac:(lia)). lia.
Qed.

Lemma near_pixels_len b : is_block g req b -> zlen (near_pixels g req local b) <= g_width g * g_height g.
Proof.
  intros B. assert (B' := B). destruct B' as [B1 B2]. pose proof (dims g req Hg Hw Hh) as (D1 & D2 & D3 & D4).
  pose (wid := fun i => block_hi (g_width g) req i - block_lo (g_width g) req i).
  pose (hei := fun i => block_hi (g_height g) req i - block_lo (g_height g) req i).
  assert (EQ : zlen (near_pixels g req local b) =
    zsum (map wid (around local (cols g req) (fst b))) * zsum (map hei (around local (rows g req) (snd b)))).
  { unfold near_pixels. rewrite zlen_flat_map.
    rewrite (map_ext_in _ (fun c => wid (fst c) * hei (snd c))).
    2:{ intros a Ha. apply (block_pixels_len g req Hg Hw Hh). eapply (near_blocks_ok g req Hg Hw Hh); eauto. }
    unfold near_blocks. induction (around local (rows g req) (snd b)) as [|y l IH]; [cbn; lia|].
    cbn [flat_map map]. rewrite map_app, zsum_app, IH, map_map, zsum_cons. cbn [fst snd]. rewrite zsum_scale. lia. }
  rewrite EQ. pose proof (around_lengths (g_width g) (fst b) Hw D1 B1). pose proof (around_lengths (g_height g) (snd b) Hh D2 B2).
  apply Z.mul_le_mono_nonneg; unfold wid, hei, cols, rows; lia.
Qed.
End Region.

(** ** Histograms *)

Definition hist (p : Z -> Z) : growarr Z := mkGA (map (fun i => Some (p i)) (zrange 256)) 256 256 0 true.
Lemma hist_of_list l : ga_of_list (int_mem U32) (byte_counts l) = hist (fun i => zcount i l).
Proof.
  unfold ga_of_list, byte_counts, hist. rewrite map_map, zlen_map, zlen_zrange by lia. cbn [mt_zero int_mem].
  now rewrite (u32_id 256) by lia.
Qed.
Lemma hist_start : ga_fill (int_mem U32) (ga_new (int_mem U32) 256) 0 = Ok (hist (fun _ => 0)).
Proof. vm_compute. reflexivity. Qed.
Lemma hist_nth p i : 0 <= i < 256 -> ga_idx (hist p) i = Ok (p i).
Proof. intros Hi. unfold ga_idx, hist; cbn [ga_data]. rewrite znth_map, znth_zrange by auto. reflexivity. Qed.
Lemma hist_ext p q : (forall i, 0 <= i < 256 -> p i = q i) -> hist p = hist q.
Proof. intros H. unfold hist. f_equal. apply map_ext_in. intros a Ha. apply zrange_In in Ha. now rewrite H. Qed.
Lemma hist_set p i v : 0 <= i < 256 -> bset (ga_data (hist p)) i (Some v) = Ok (ga_data (hist (fun j => if j =? i then v else p j))).
Proof.
  intros Hi. unfold hist; cbn [ga_data].
  destruct (bset_exists (map (fun i => Some (p i)) (zrange 256)) i (Some v)) as (d & Ed & Ld & Gd).
  { rewrite zlen_map, zlen_zrange; lia. }
  rewrite Ed. f_equal. apply znth_ext. intros j. rewrite Gd, !znth_map.
  destruct (Z.eqb_spec j i) as [->|N].
  - rewrite znth_zrange by auto. cbn. now rewrite Z.eqb_refl.
  - destruct (znth (zrange 256) j) as [k|] eqn:Ek; cbn; auto.
    assert (k = j) as ->. { pose proof (znth_Some_range _ _ _ Ek) as R. rewrite zlen_zrange in R by lia. rewrite znth_zrange in Ek by lia. congruence. }
    now replace (j =? i) with false by lia.
Qed.

Lemma hist_add (p q : Z -> Z) (get : Z -> Z -> outcome Z) :
  (forall i, 0 <= i < 256 -> get i 256 = Ok (q i) /\ 0 <= p i + q i < 4294967296) ->
  for_range 0 (ga_size (hist p)) (fun i h =>
    let* c := ga_idx h i in
    let* v := get i (ga_size h) in
    let* hd := bset (ga_data h) i (Some (u32 (c + v))) in
    Ok (mkGA hd (ga_size h) (ga_len h) (ga_default h) (ga_own h))) (hist p) = Ok (hist (fun i => p i + q i)).
Proof.
  intros H. destruct (for_range_inv (fun i h => h = hist (fun j => if j <? i then p j + q j else p j)) 0 256 (fun i h =>
    let* c := ga_idx h i in
    let* v := get i (ga_size h) in
    let* hd := bset (ga_data h) i (Some (u32 (c + v))) in
    Ok (mkGA hd (ga_size h) (ga_len h) (ga_default h) (ga_own h))) (hist p)) as (h' & E' & ->).
  - lia.
  - apply hist_ext. intros i Hi. now replace (i <? 0) with false by lia.
  - intros i h Hi ->. destruct (H i Hi) as [G R]. rewrite hist_nth by auto. replace (i <? i) with false by lia. cbn [bind].
    change (ga_size (hist (fun j => if j <? i then p j + q j else p j))) with 256 at 1. rewrite G. cbn [bind].
    rewrite hist_set by auto. cbn [bind]. eexists; split; [reflexivity|].
    change (hist (fun j => if j =? i then u32 (p i + q i) else if j <? i then p j + q j else p j) = hist (fun j => if j <? i + 1 then p j + q j else p j)).
    apply hist_ext. intros j Hj. rewrite u32_id by auto. destruct (Z.eqb_spec j i) as [->|N].
    + now replace (i <? i + 1) with true by lia.
    + now replace (j <? i + 1) with (j <? i) by lia.
  - change (ga_size (hist p)) with 256. rewrite E'. f_equal. 
Qed.

Lemma hist_total l : (forall v, In v l -> 0 <= v < 256) -> zlen l < 4294967296 ->
  for_range 0 (ga_size (hist (fun i => zcount i l))) (fun i s => let* c := ga_idx (hist (fun i => zcount i l)) i in Ok (u32 (s + c))) 0 = Ok (zlen l).
Proof.
  intros Hl Hz. change (ga_size (hist (fun i => zcount i l))) with 256.
  assert (SUM : zsum (map (fun i => zcount i l) (zrange 256)) = zlen l).
  { rewrite <- (counts_total l 0 256) by (intros v Hv; specialize (Hl v Hv); lia). f_equal. }
  assert (PRE : forall i, 0 <= i <= 256 -> 0 <= zsum (map (fun i => zcount i l) (zrange i)) <= zlen l).
  { intros i Hi. split. { apply zsum_nonneg. intros v Hv. apply in_map_iff in Hv. destruct Hv as (j & <- & _). apply zcount_range. }
    rewrite <- SUM. assert (exists m, 256 = i + m /\ 0 <= m) as (m & -> & Hm) by (exists (256 - i); lia). clear -Hm Hi.
    assert (0 <= i) by lia. clear Hi. pattern m. apply natlike_ind; [| |exact Hm]; clear m Hm.
    - rewrite Z.add_0_r. lia.
    - intros m Hm IH. unfold Z.succ. replace (i + (m + 1)) with (i + m + 1) by lia. rewrite zrange_S by lia. rewrite map_app, zsum_app. cbn [map].
      rewrite zsum_cons. cbn [zsum fold_right]. pose proof (zcount_range (i + m) l). lia. }
  destruct (for_range_inv (fun i s => s = zsum (map (fun i => zcount i l) (zrange i))) 0 256
    (fun i s => let* c := ga_idx (hist (fun i => zcount i l)) i in Ok (u32 (s + c))) 0) as (s & Es & ->); auto; [lia| |].
  - intros i s Hi ->. rewrite hist_nth by auto. cbn [bind]. eexists; split; [reflexivity|]. pose proof (PRE (i + 1) ltac:(lia)) as P.
    rewrite zrange_S in * by lia. rewrite map_app, zsum_app in *. cbn [map] in *. rewrite zsum_cons in *. cbn [zsum fold_right] in *.
    rewrite Z.add_0_r in *. apply u32_id. lia.
  - now rewrite Es, SUM.
Qed.

Lemma inter_fill_len {A} (st st' : inter A) v : inter_fill st v = Ok st' -> exists d, st' = i_with_data st d /\ zlen d = zlen (i_data st).
Proof.
  unfold inter_fill. set (n := u32 _). destruct (for_range 0 n _ (i_data st)) as [d| | |] eqn:Ed; try discriminate.
  cbn [bind]. intros E'. injection E' as <-. exists d. split; auto.
  destruct (Z.leb_spec 0 n) as [L|L]; [|rewrite for_range_nil in Ed by lia; congruence].
  eapply (for_range_Ok_inv (fun _ d => zlen d = zlen (i_data st))) in Ed; eauto.
  intros i s s' Hi Ls Es. apply bset_Ok in Es. lia.
Qed.

Lemma mfold_prefix {A S} (Inv : list A -> S -> Prop) (f : A -> S -> outcome S) l : forall done s, Inv done s ->
  (forall k a r s, done ++ l = k ++ a :: r -> Inv k s -> exists s', f a s = Ok s' /\ Inv (k ++ [a]) s') ->
  exists s', mfold f l s = Ok s' /\ Inv (done ++ l) s'.
Proof.
  induction l as [|a l IH]; intros done s I0 H.
  - exists s. rewrite app_nil_r. auto.
  - destruct (H done a l s eq_refl I0) as (s1 & E1 & I1). cbn. rewrite E1. cbn.
    destruct (IH (done ++ [a]) s1 I1) as (s2 & E2 & I2).
    + intros k b r t Ek. apply (H k b r). rewrite <- app_assoc in Ek. exact Ek.
    + exists s2. rewrite <- app_assoc in I2. auto.
Qed.

(** ** The filter *)
Section Otsu.
Context {E D : Type}.
Variables (O : dops D) (u8_of : E -> outcome Z) (cv : E -> Z) (two : bool) (tuning scale : D) (local down : bool).
Variables (c : clen D) (g : gray E) (o : gray Z) (req : Z).
Hypothesis Hg : wf g.
Hypothesis Ho : wf o.
Hypothesis Ew : g_width o = g_width g.
Hypothesis Eh : g_height o = g_height g.
Hypothesis Hc : clen_computeI O c (d_of O (Z.min (g_width g) (g_height g))) = Ok req.
Hypothesis Hw : 1 <= req <= g_width g.
Hypothesis Hh : 1 <= req <= g_height g.
Notation FM := (block_otsu O u8_of two tuning scale local down).
Hypothesis Ht : cols g req * rows g req * 256 < 4294967296.
Hypothesis Hn : g_width g * g_height g < 2147483648.
Hypothesis Hu : forall x y v, pixel g x y = Some v -> u8_of v = Ok (cv v) /\ 0 <= cv v < 256.
Hypothesis Hth : forall b, is_block g req b -> exists v, otsu_threshold O cv two tuning scale g req local down b = Ok v.

Lemma inc_ok base l : forall (f : Z -> Z) d, 0 <= base -> base + 256 <= zlen d ->
  (forall v, In v l -> u8_of v = Ok (cv v) /\ 0 <= cv v < 256) ->
  (forall k, 0 <= k < 256 -> znth d (base + k) = Some (f k) /\ 0 <= f k /\ f k + zlen l < 2147483648) ->
  exists d', mfold (fun v d =>
        let* k := u8_of v in
        let* c := bget d (base + k) in
        let* c := arith_result S32 (c + 1) in
        bset d (base + k) c) l d = Ok d' /\ zlen d' = zlen d /\
    (forall k, 0 <= k < 256 -> znth d' (base + k) = Some (f k + zcount k (map cv l))) /\
    (forall j, ~ base <= j < base + 256 -> znth d' j = znth d j).
Proof.
  clear - cv. induction l as [|v l IH]; intros f d Hb Hl Hu H.
  - exists d. cbn. split; auto. split; auto. split; auto. intros k Hk. rewrite Z.add_0_r. now apply H.
  - cbn [mfold]. destruct (Hu v ltac:(now left)) as [Eu Ru]. rewrite Eu. cbn [bind].
    destruct (H (cv v) Ru) as (G & G1 & G2). unfold bget. rewrite G. cbn [bind]. rewrite zlen_cons in *. pose proof (zlen_nonneg l).
    rewrite arith_result_in by (cbn; lia). cbn [bind].
    destruct (bset_exists d (base + cv v) (f (cv v) + 1)) as (d1 & E1 & L1 & N1); [lia|]. rewrite E1. cbn [bind].
    destruct (IH (fun k => if k =? cv v then f (cv v) + 1 else f k) d1) as (d' & E' & L' & N' & K'); auto; try lia.
    + intros w Hw. apply Hu. now right.
    + intros k Hk. rewrite N1. destruct (Z.eqb_spec (base + k) (base + cv v)) as [X|X].
      * replace (k =? cv v) with true by lia. split; auto. lia.
      * replace (k =? cv v) with false by lia. destruct (H k Hk) as (? & ? & ?). split; auto. lia.
    + exists d'. split; auto. split; [lia|]. split.
      * intros k Hk. rewrite N' by auto. cbn [map zcount]. f_equal. rewrite (Z.eqb_sym (cv v) k).
        destruct (Z.eqb_spec k (cv v)) as [->|]; lia.
      * intros j Hj. rewrite K' by auto. rewrite N1. now replace (j =? base + cv v) with false by lia.
Qed.

Lemma near_u8 b v : is_block g req b -> In v (near_pixels g req local b) -> u8_of v = Ok (cv v) /\ 0 <= cv v < 256.
Proof.
  intros B Hv. unfold near_pixels in Hv. rewrite in_flat_map in Hv. destruct Hv as (b' & Hb' & Hv).
  apply (block_pixels_In g req Hw Hh) in Hv; [|eapply (near_blocks_ok g req Hg Hw Hh); eauto]. destruct Hv as (x & y & _ & Ev). eauto.
Qed.

Lemma otsu_ok st0 : ready FM st0 ->
  exists st out, block_process FM O c st0 g o = Ok (st, out) /\ ready FM st /\
    holds g o out (fun x y => value (otsu_value O cv two tuning scale g req local down x y)).
Proof.
  intros R0. pose proof (dims g req Hg Hw Hh) as (D1 & D2 & D3 & D4).
  destruct (process_ok FM O c g o req Hg Ho Ew Eh Hc Hw Hh ltac:(cbn [bf_bands block_otsu]; lia) ltac:(cbn [bf_bands block_otsu]; lia)
    (fun b k => zcount k (map cv (block_pixels g req b)))
    (fun x y => value (otsu_value O cv two tuning scale g req local down x y))) with (st0 := st0) as (st & out & E1 & E2 & E3 & E4); auto.
  - intros x y I. pose proof (home_block g req Hw Hh x y I) as B. destruct (pixel_exists g x y Hg I) as (v & Ev).
    destruct (Hth _ B) as (m & Em). unfold otsu_value. rewrite Ev, Em. cbn. eauto.
  - intros st Sh. assert (Sh' := Sh). destruct Sh' as ((Wf' & S' & B') & W' & H').
    destruct (inter_fill_ok st 0 Wf' S') as (st' & Ef & F1 & F2 & F3 & F4 & F5).
    destruct (inter_fill_len st st' 0 Ef) as (d1 & -> & L1).
    assert (Sh2 : shaped FM g req (i_with_data st d1)).
    { split; [|split; auto]. split; [|split; auto]. unfold i_wf in *; cbn in *. rewrite L1. exact Wf'. }
    exists (i_with_data st d1). split; auto. split; auto. intros b d B L SL. cbn [bf_stats block_otsu].
    rewrite (block_scan_ok g req Hg Hw Hh) by auto.
    pose proof (shaped_data FM g req Hg Hw Hh ltac:(cbn [bf_bands block_otsu]; lia) _ Sh2) as LD. cbn [bf_bands block_otsu] in LD.
    pose proof (slot_range FM g req ltac:(cbn [bf_bands block_otsu]; lia) b 0 B ltac:(cbn [bf_bands block_otsu]; lia)) as SR. cbn [bf_bands block_otsu] in SR.
    pose proof (slot_range FM g req ltac:(cbn [bf_bands block_otsu]; lia) b 255 B ltac:(cbn [bf_bands block_otsu]; lia)) as SR1. cbn [bf_bands block_otsu] in SR1.
    pose proof (block_area g req Hg Hw Hh b B) as BA.
    destruct (inc_ok (slot FM g req b) (block_pixels g req b) (fun _ => 0) d) as (d' & Ed & Ld & Nd & Kd).
    + lia.
    + lia.
    + intros v Hv. apply (block_pixels_In g req Hw Hh) in Hv; auto. destruct Hv as (x & y & _ & Ev). eauto.
    + intros k Hk. split; [|lia]. rewrite SL by exact Hk.
      pose proof (shaped_inside FM g req st b k Sh B Hk) as I. specialize (F4 _ _ _ I).
      rewrite i_pixel_inside in F4 by exact I. rewrite (shaped_pos FM g req) in F4 by exact Sh2.
      replace (fst b, snd b) with b in F4 by now destruct b. exact F4.
    + exists d'. split; [exact Ed|]. split; [lia|]. intros j.
      destruct (Z_le_dec (slot FM g req b) j) as [La|La]; [destruct (Z_lt_dec j (slot FM g req b + 256)) as [Lb|Lb]|].
      * left. exists (zcount (j - slot FM g req b) (map cv (block_pixels g req b))). split.
        -- exists (j - slot FM g req b). cbn [bf_bands block_otsu]. split; [lia|]. split; auto. lia.
        -- replace j with (slot FM g req b + (j - slot FM g req b)) at 1 by lia. rewrite Nd by lia. reflexivity.
      * right. split; [|apply Kd; lia]. cbn [bf_bands block_otsu]. intros v (k & Hk & -> & _). lia.
      * right. split; [|apply Kd; lia]. cbn [bf_bands block_otsu]. intros v (k & Hk & -> & _). lia.
  - intros st b d Sh Fi B L. cbn [bf_threshold block_otsu]. rewrite hist_start. cbn [bind].
    assert (Sh' := Sh). destruct Sh' as ((Wf' & S' & B') & W' & H').
    rewrite (block_region_ok g req Hg Hw Hh) by auto.
    pose proof (near_pixels_len g req local Hg Hw Hh b B) as NL.
    destruct (mfold_prefix (fun done h => h = hist (fun i => zcount i (map cv (flat_map (block_pixels g req) done))))
      (fun c0 h =>
        for_range 0 (ga_size h) (fun i h0 =>
          let* c := ga_idx h0 i in
          let* v := bget (i_data st) (inter_index st (block_first local (fst b)) (snd c0) 0 + (fst c0 - block_first local (fst b)) * ga_size h0 + i) in
          let* hd := bset (ga_data h0) i (Some (u32 (c + v))) in
          Ok (mkGA hd (ga_size h0) (ga_len h0) (ga_default h0) (ga_own h0))) h) (near_blocks g req local b) [] (hist (fun _ => 0))) as (h & Eh' & Hh').
    { reflexivity. }
    { cbn [app]. intros k a r h El ->. 
      assert (Ba : is_block g req a).
      { apply (near_blocks_ok g req Hg Hw Hh local b); auto. rewrite El. apply in_or_app. right. now left. }
      set (p := fun i => zcount i (map cv (flat_map (block_pixels g req) k))).
      set (q := fun i => zcount i (map cv (block_pixels g req a))).
      eexists. split.
      - apply (hist_add p q (fun i n => bget (i_data st) (inter_index st (block_first local (fst b)) (snd a) 0 + (fst a - block_first local (fst b)) * n + i))).
        intros i Hi. split.
        + assert (B0 := B). destruct B0 as [B1 B2]. destruct (around_first local (cols g req) (fst b) B1 ltac:(lia)) as (L1 & _ & Q1 & Q2).
          assert (Bf : is_block g req (block_first local (fst b), snd a)) by (split; cbn [fst snd]; [lia|apply Ba]).
          pose proof (shaped_inside FM g req st _ 0 Sh Bf ltac:(cbn [bf_bands block_otsu]; lia)) as I0. cbn [fst snd] in I0.
          rewrite (i_wf_index st) by auto. rewrite (shaped_pos FM g req) by auto.
          replace (slot FM g req (block_first local (fst b), snd a) + 0 + (fst a - block_first local (fst b)) * 256 + i) with (slot FM g req a + i).
          2:{ unfold slot; cbn [fst snd bf_bands block_otsu]. ring. }
          pose proof (Fi a i Ba Hi) as Pi. rewrite i_pixel_inside in Pi by (apply (shaped_inside FM g req); auto).
          rewrite (shaped_pos FM g req) in Pi by auto. replace (fst a, snd a) with a in Pi by now destruct a.
          unfold bget. rewrite Pi. reflexivity.
        + unfold p, q. pose proof (zcount_range i (map cv (flat_map (block_pixels g req) k))) as Z1.
          pose proof (zcount_range i (map cv (block_pixels g req a))) as Z2. rewrite zlen_map in Z1, Z2.
          assert (X : zlen (near_pixels g req local b) = zlen (flat_map (block_pixels g req) k) + (zlen (block_pixels g req a) + zlen (flat_map (block_pixels g req) r))).
          { unfold near_pixels. rewrite El, flat_map_app, zlen_app. cbn [flat_map]. now rewrite zlen_app. }
          pose proof (zlen_nonneg (flat_map (block_pixels g req) r)). lia.
      - apply hist_ext. intros i Hi. unfold p, q. rewrite flat_map_app, map_app, zcount_app. cbn [flat_map]. now rewrite app_nil_r. }
    cbn [app] in *. cbn zeta. rewrite Eh'. cbn [bind]. fold (near_pixels g req local b) in Hh'. subst h.
    rewrite hist_total; [|intros v Hv; apply in_map_iff in Hv; destruct Hv as (w & <- & Hw'); now apply (near_u8 b w B)|rewrite zlen_map; lia].
    cbn [bind]. rewrite zlen_map. destruct (Hth b B) as (vt & Evt). assert (Evt' := Evt). unfold otsu_threshold in Evt'. rewrite hist_of_list in Evt'.
    rewrite Evt'. cbn [bind].
    apply (block_apply_ok g req Hg Hw Hh o Ho Ew Eh); auto.
    intros x y v Eb Ev. destruct (Hu x y v Ev) as [Eu _]. rewrite Eu. cbn [bind]. eexists; split; [reflexivity|].
    unfold otsu_value. rewrite Ev, Eb, Evt. cbn. now rewrite bool_side.
  - exists st, out. split; auto. split; [apply E2|auto].
Qed.
End Otsu.

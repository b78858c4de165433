(** Lemmas about the three block filters. *)
From Coq Require Import QArith Qround.
From Verif Require Import BaseFacts M_Image M_Convolve S_Image L_Image L_Inter M_GrowArray M_PackedSet S_Convolve L_Window L_Convolve2
  M_Blur L_Blur S_Blur M_Stats S_Stats L_Stats M_Misc L_Misc M_Otsu M_Config M_Block S_Otsu L_Otsu L_OtsuImage S_Block L_Block.
Open Scope Z_scope.

Lemma bool_side down le : binary_value down le = side down le.
Proof. now destruct down, le. Qed.

Section Process.
Context {E T D : Type}.
Variables (F : bfilter E T) (O : dops D) (c : clen D) (g : gray E) (o : gray Z) (req : Z).
Hypothesis Hg : wf g.
Hypothesis Ho : wf o.
Hypothesis Ew : g_width o = g_width g.
Hypothesis Eh : g_height o = g_height g.
Hypothesis Hc : clen_computeI O c (d_of O (Z.min (g_width g) (g_height g))) = Ok req.
Hypothesis Hw : 1 <= req <= g_width g.
Hypothesis Hh : 1 <= req <= g_height g.
Notation W := (g_width g).
Notation HT := (g_height g).
Notation nc := (cols g req).
Notation nr := (rows g req).
Notation bands := (bf_bands F).
Hypothesis Hb : 0 < bands.
Hypothesis Ht : nc * nr * bands < 4294967296.

Definition shaped (st : inter T) : Prop := ready F st /\ i_width st = nc /\ i_height st = nr.

Definition slot (b : Z * Z) : Z := (snd b * nc + fst b) * bands.

Lemma shaped_pos st x y k : shaped st -> i_pos st x y k = slot (x, y) + k.
Proof.
  intros (((_ & _ & _ & _ & _ & _ & _ & N) & S & B) & W' & H'). destruct (N S) as [E1 E2]. unfold i_pos, slot; cbn [fst snd].
  rewrite E1, E2, W', B. lia.
Qed.
Lemma slot_range b k : is_block g req b -> 0 <= k < bands -> 0 <= slot b + k < nc * nr * bands.
Proof. intros [B1 B2] Hk. unfold slot.
  assert (0 <= snd b * nc) by (apply Z.mul_nonneg_nonneg; lia).
  assert (snd b * nc <= (nr - 1) * nc) by (apply Z.mul_le_mono_nonneg_r; lia).
  set (q := snd b * nc + fst b). assert (0 <= q <= nr * nc - 1) by (unfold q; lia).
  assert (0 <= q * bands <= (nr * nc - 1) * bands) by (split; [apply Z.mul_nonneg_nonneg|apply Z.mul_le_mono_nonneg_r]; lia).
  replace (nc * nr * bands) with ((nr * nc - 1) * bands + bands) by ring. lia.
Qed.
Lemma slot_inj b k b' k' : is_block g req b -> is_block g req b' -> 0 <= k < bands -> 0 <= k' < bands -> slot b + k = slot b' + k' -> b = b' /\ k = k'.
Proof.
  intros [B1 B2] [B3 B4] Hk Hk' E'. unfold slot in E'.
  assert (X : snd b * nc + fst b = snd b' * nc + fst b').
  { assert (Y : (snd b * nc + fst b - (snd b' * nc + fst b')) * bands = k' - k) by lia.
    destruct (Z.eq_dec (snd b * nc + fst b) (snd b' * nc + fst b')); auto. exfalso.
    destruct (Z.lt_total (snd b * nc + fst b) (snd b' * nc + fst b')) as [L|[L|L]]; try contradiction; nia. }
  assert (Y : snd b = snd b').
  { destruct (Z.lt_total (snd b) (snd b')) as [L|[L|L]]; auto; exfalso; nia. }
  rewrite Y in X. assert (fst b = fst b') by lia. split; [destruct b, b'; cbn in *; congruence|].
  assert (Z' : snd b * nc + fst b = snd b' * nc + fst b') by lia. rewrite Z' in E'. lia.
Qed.
Lemma shaped_inside st b k : shaped st -> is_block g req b -> 0 <= k < bands -> i_inside st (fst b) (snd b) k.
Proof. intros ((_ & _ & B) & W' & H') [B1 B2] Hk. unfold i_inside. rewrite W', H', B. auto. Qed.
Lemma shaped_data st : shaped st -> nc * nr * bands <= zlen (i_data st) < 4294967296.
Proof.
  intros Sh. pose proof (dims g req Hg Hw Hh) as (_ & _ & D1 & D2).
  assert (I : i_inside st (nc - 1) (nr - 1) (bands - 1)).
  { apply (shaped_inside st (nc - 1, nr - 1) (bands - 1)); auto; [split; cbn [fst snd]; lia|lia]. }
  assert (Sh' := Sh). destruct Sh' as ((Wf & _ & _) & _ & _). pose proof (i_wf_pos st _ _ _ Wf I) as P.
  rewrite (shaped_pos st) in P by auto. unfold slot in P; cbn [fst snd] in P. destruct Wf as (_ & _ & _ & _ & _ & L & _). split; [|lia].
  assert (((nr - 1) * nc + (nc - 1)) * bands + (bands - 1) = nc * nr * bands - 1) by ring. lia.
Qed.

(** Statistics: [V] is what each slot should hold. *)
Variable V : Z * Z -> Z -> T.

Definition filled (st : inter T) : Prop :=
  forall b k, is_block g req b -> 0 <= k < bands -> i_pixel st (fst b) (snd b) k = Some (V b k).

Lemma stats_ok (d0 : list T) : zlen d0 >= nc * nr * bands ->
  (forall b d, is_block g req b -> zlen d = zlen d0 -> (forall k, 0 <= k < bands -> znth d (slot b + k) = znth d0 (slot b + k)) ->
     exists d', bf_stats F g (block_lo W req (fst b)) (block_lo HT req (snd b)) (block_hi W req (fst b) - block_lo W req (fst b))
                  (block_hi HT req (snd b) - block_lo HT req (snd b)) (slot b) d = Ok d' /\
       writes d (fun j v => exists k, 0 <= k < bands /\ j = slot b + k /\ v = V b k) d') ->
  exists d', block_statistics (bf_stats F g) nc nr bands W HT (whole W req * block_len W req) (whole HT req * block_len HT req)
      (block_len W req) (block_len HT req) d0 = Ok d' /\ zlen d' = zlen d0 /\
    forall b k, is_block g req b -> 0 <= k < bands -> znth d' (slot b + k) = Some (V b k).
Proof.
  intros Hl Hcall. pose proof (dims g req Hg Hw Hh) as (D1 & D2 & D3 & D4).
  unfold nc, nr. rewrite block_statistics_ok by (try assumption; try lia; exact Ht). fold nc nr.
  pose (Wr := fun (P : Z * Z -> Prop) (j : Z) (v : T) => exists b k, is_block g req b /\ P b /\ 0 <= k < bands /\ j = slot b + k /\ v = V b k).
  destruct (for_range_inv (fun y d => zlen d = zlen d0 /\ writes d0 (Wr (fun b => snd b < y)) d) 0 nr
    (fun by_ s => for_range 0 nc (fun bx s =>
      bf_stats F g (block_lo W req bx) (block_lo HT req by_) (block_hi W req bx - block_lo W req bx)
       (block_hi HT req by_ - block_lo HT req by_) ((by_ * nc + bx) * bands) s) s) d0) as (d' & E' & L' & W').
  - lia.
  - split; auto. apply writes_none. intros j v (b & k & [_ B] & P & _). lia.
  - intros y d Hy [L Wd].
    destruct (for_range_inv (fun x d' => zlen d' = zlen d0 /\ writes d0 (Wr (fun b => snd b < y \/ snd b = y /\ fst b < x)) d') 0 nc
      (fun bx s => bf_stats F g (block_lo W req bx) (block_lo HT req y) (block_hi W req bx - block_lo W req bx)
       (block_hi HT req y - block_lo HT req y) ((y * nc + bx) * bands) s) d) as (d' & E' & L' & W').
    + lia.
    + split; auto. eapply writes_iff; [|exact Wd]. intros j v; split; intros (b & k & B & P & R); exists b, k; split; auto; split; auto.
      destruct P as [P|P]; auto. destruct B as [B _]. lia.
    + intros x d1 Hx [L1 W1]. assert (B : is_block g req (x, y)) by (split; auto).
      destruct (Hcall (x, y) d1 B L1) as (d2 & E2 & W2).
      { intros k Hk. destruct W1 as [_ W1]. destruct (W1 (slot (x, y) + k)) as [(v & (b & k' & B' & P & Hk' & Es & _) & _)|(_ & X)]; auto.
        exfalso. destruct (slot_inj (x, y) k b k') as [<- _]; auto. cbn [fst snd] in P. lia. }
      exists d2. split; [exact E2|]. split; [destruct W2 as [X _]; lia|].
      eapply writes_iff; [|eapply writes_compose; [exact W1|exact W2]]. intros j v; split.
      * intros [(b & k & B' & P & R)|(k & Hk & Ej & Ev)].
        -- exists b, k. split; auto. split; auto. lia.
        -- exists (x, y), k. split; auto. split; auto. cbn [fst snd]. lia.
      * intros (b & k & B' & P & Hk & Ej & Ev). destruct (Z.eq_dec (snd b) y) as [Ey|Ny].
        -- destruct (Z.eq_dec (fst b) x) as [Ex|Nx].
           ++ right. exists k. replace (x, y) with b by (destruct b; cbn in *; congruence). auto.
           ++ left. exists b, k. split; auto. split; auto. lia.
        -- left. exists b, k. split; auto. split; auto. lia.
    + exists d'. split; auto. split; auto. eapply writes_iff; [|exact W'].
      intros j v; split; intros (b & k & B & P & R); exists b, k; split; auto; split; auto; destruct B as [B _]; lia.
  - exists d'. split; auto. split; auto. intros b k B Hk. destruct W' as [_ W'].
    destruct (W' (slot b + k)) as [(v & (b' & k' & B' & _ & Hk' & Es & ->) & X)|(N & _)].
    + destruct (slot_inj b k b' k') as [<- <-]; auto.
    + exfalso. apply (N (V b k)). exists b, k. split; auto. split; auto. destruct B; lia.
Qed.

Variable Fv : Z -> Z -> option Z.
Hypothesis HFv : forall x y, inside g x y -> exists v, Fv x y = Some v.
Hypothesis Hclear : forall st, shaped st -> exists st', bf_clear F st = Ok st' /\ shaped st' /\
  forall b d, is_block g req b -> zlen d = zlen (i_data st') -> (forall k, 0 <= k < bands -> znth d (slot b + k) = znth (i_data st') (slot b + k)) ->
     exists d', bf_stats F g (block_lo W req (fst b)) (block_lo HT req (snd b)) (block_hi W req (fst b) - block_lo W req (fst b))
                  (block_hi HT req (snd b) - block_lo HT req (snd b)) (slot b) d = Ok d' /\
       writes d (fun j v => exists k, 0 <= k < bands /\ j = slot b + k /\ v = V b k) d'.
Hypothesis Hthr : forall st b d, shaped st -> filled st -> is_block g req b -> zlen d = zlen (g_data o) ->
  exists d', bf_threshold F (block_len W req) (block_len HT req) st g o (fst b) (snd b) d = Ok d' /\
    writes d (win o Fv (fun x y => home g req x y = b)) d'.

Lemma process_ok st0 : ready F st0 -> exists st out, block_process F O c st0 g o = Ok (st, out) /\ shaped st /\ filled st /\ holds g o out Fv.
Proof.
  intros R0. pose proof (dims g req Hg Hw Hh) as (D1 & D2 & D3 & D4).
  unfold block_process. unfold checkSameShape. replace (negb _ || negb _) with false by lia. cbn [bind]. rewrite Hc. cbn [bind].
  rewrite (u32_id req) by lia. replace (_ || _) with false by lia.
  unfold block_size, udiv. replace (req =? 0) with false by lia. cbn [bind].
  fold (block_count W req) (block_count HT req). fold nc nr. replace (nr =? 0) with false by lia. cbn [bind].
  replace (nc =? 0) with false by lia. cbn [bind].
  change (W / nc) with (block_len W req). change (HT / nr) with (block_len HT req).
  pose proof (len_req W req Hw). pose proof (len_req HT req Hh).
  replace (block_len W req =? 0) with false by lia. cbn [bind]. replace (block_len HT req =? 0) with false by lia. cbn [bind].
  rewrite (len_count W req Hw), (len_count HT req Hh). fold nc nr.
  destruct R0 as (Wf0 & S0 & B0).
  assert (RS : exists st1, inter_reshape (bf_zero F) st0 nc nr = Ok st1 /\ shaped st1).
  { assert (exists st1, inter_reshape (bf_zero F) st0 nc nr = Ok st1 /\ i_sub st1 = false) as (st1 & E1 & S1).
    { unfold inter_reshape. rewrite S0. destruct (_ && _); eexists; split; try reflexivity; auto. }
    exists st1. split; auto.
    destruct (inter_reshape_wf (bf_zero F) st0 nc nr st1) as (X1 & X2 & X3 & X4); auto; try lia; rewrite ?B0; try nia.
    split; [split; [|split]|]; auto. congruence. }
  destruct RS as (st1 & E1 & Sh1). rewrite E1. cbn [bind].
  rewrite (inner_ok W req Hw D1), (inner_ok HT req Hh D2). cbn [bind].
  destruct (Hclear st1 Sh1) as (st2 & E2 & Sh2 & Hcall). rewrite E2. cbn [bind].
  assert (Sh2' := Sh2). destruct Sh2' as ((Wf2 & S2 & B2) & W2 & H2). rewrite W2, H2, B2.
  pose proof (shaped_data st2 Sh2) as L2.
  destruct (stats_ok (i_data st2)) as (d2 & Ed2 & Ld2 & V2); [lia|exact Hcall|]. rewrite Ed2. cbn [bind].
  set (st3 := i_with_data st2 d2).
  assert (Sh3 : shaped st3).
  { split; [|split; auto]. split; [|split; auto]. unfold i_wf, st3 in *; cbn in *. rewrite Ld2. exact Wf2. }
  assert (F3 : filled st3).
  { intros b k B Hk. rewrite i_pixel_inside by now apply shaped_inside. rewrite shaped_pos by auto.
    replace (fst b, snd b) with b by now destruct b. now apply V2. }
  change (i_height st3) with (i_height st2). change (i_width st3) with (i_width st2). rewrite W2, H2.
  destruct (win_loop o Fv (fun y x' y' => block_of HT req y' = y) 0 nr
    (fun by_ d => for_range 0 nc (fun bx d => bf_threshold F (block_len W req) (block_len HT req) st3 g o bx by_ d) d)
    (g_data o) eq_refl) as (d & Ed & Ld & Wd).
  { intros y d Hy L. destruct (win_loop o Fv (fun x x' y' => home g req x' y' = (x, y)) 0 nc
      (fun bx d => bf_threshold F (block_len W req) (block_len HT req) st3 g o bx y d) d L) as (d' & Ed & Ld & Wd).
    - intros x d1 Hx L1. apply (Hthr st3 (x, y) d1 Sh3 F3); auto. split; auto.
    - exists d'. split; auto. eapply win_iff; [|exact Wd]. intros x' y' [I1 I2]; split.
      + intros (i & Hi & Eb). injection Eb; auto.
      + intros <-. exists (block_of W req x'). split; auto. apply (block_cover W req Hw x'). lia. }
  rewrite Ed. cbn [bind]. exists st3, (with_data o d). split; auto. split; auto. split; auto.
  apply finish; auto. eapply win_iff; [|exact Wd]. intros x y [I1 I2]; split; auto. intros _.
  exists (block_of HT req y). split; auto. apply (block_cover HT req Hh y). lia.
Qed.
End Process.

(** ** Mean *)
Section Mean.
Context {E S D : Type}.
Variables (M : bmean E S) (zero : E) (local down : bool) (O : dops D) (c : clen D) (g : gray E) (o : gray Z) (req : Z).
Hypothesis Hg : wf g.
Hypothesis Ho : wf o.
Hypothesis Ew : g_width o = g_width g.
Hypothesis Eh : g_height o = g_height g.
Hypothesis Hc : clen_computeI O c (d_of O (Z.min (g_width g) (g_height g))) = Ok req.
Hypothesis Hw : 1 <= req <= g_width g.
Hypothesis Hh : 1 <= req <= g_height g.
Hypothesis Hst : forall b, is_block g req b -> exists v, mean_stat M g req b = Ok v.
Hypothesis Hth : forall b, is_block g req b -> exists v, mean_threshold M g req local b = Ok v.
Notation FM := (block_mean M zero local down).

Definition stat_of (b : Z * Z) : E := match mean_stat M g req b with Ok v => v | _ => zero end.
Lemma stat_of_ok b : is_block g req b -> mean_stat M g req b = Ok (stat_of b).
Proof. intros B. destruct (Hst b B) as (v & Ev). unfold stat_of. now rewrite Ev. Qed.

Lemma counts_small : cols g req * rows g req <= g_width g * g_height g < 4294967296.
Proof.
  pose proof (dims g req Hg Hw Hh) as (D1 & D2 & D3 & D4). pose proof (wf_total_small g Hg). split; [|lia].
  apply Z.mul_le_mono_nonneg; lia.
Qed.

Lemma near_len_small b : is_block g req b -> 0 < zlen (near_blocks g req local b) <= cols g req * rows g req.
Proof.
  clear - Hg Hw Hh.
  intros B. rewrite (near_blocks_len g req Hg Hw Hh) by auto. pose proof (dims g req Hg Hw Hh) as (D1 & D2 & D3 & D4). destruct B as [B1 B2].
  destruct (around_first local (cols g req) (fst b) B1 ltac:(lia)) as (L1 & E1 & F1 & F2).
  destruct (around_first local (rows g req) (snd b) B2 ltac:(lia)) as (L2 & E2 & F3 & F4). split; [nia|]. apply Z.mul_le_mono_nonneg; lia.
Qed.

Lemma mean_ok st0 : ready FM st0 ->
  exists st out, block_process FM O c st0 g o = Ok (st, out) /\ ready FM st /\
    holds g o out (fun x y => value (mean_value M g req local down x y)).
Proof.
  intros R0. pose proof counts_small as CS. pose proof (dims g req Hg Hw Hh) as (D1 & D2 & D3 & D4).
  destruct (process_ok FM O c g o req Hg Ho Ew Eh Hc Hw Hh ltac:(cbn; lia) ltac:(cbn; lia) (fun b _ => stat_of b)
    (fun x y => value (mean_value M g req local down x y))) with (st0 := st0) as (st & out & E1 & E2 & E3 & E4); auto.
  - intros x y I. pose proof (home_block g req Hw Hh x y I) as B. destruct (pixel_exists g x y Hg I) as (v & Ev).
    destruct (Hth _ B) as (m & Em). unfold mean_value. rewrite Ev, Em. cbn. eauto.
  - intros st Sh. exists st. split; [reflexivity|]. split; auto. intros b d B L _. cbn [bf_stats block_mean].
    rewrite (block_scan_ok g req Hg Hw Hh) by auto. pose proof (stat_of_ok b B) as X. unfold mean_stat in X.
    destruct (mfold _ (block_pixels g req b) _) as [s| | |]; try discriminate. cbn [bind] in *.
    pose proof (block_area g req Hg Hw Hh b B) as BA.
    rewrite <- (block_pixels_len g req Hg Hw Hh b B). rewrite u32_id by lia. rewrite X. cbn [bind].
    pose proof (shaped_data FM g req Hg Hw Hh ltac:(cbn; lia) st Sh) as LD. cbn [bf_bands block_mean] in LD.
    pose proof (slot_range FM g req ltac:(cbn; lia) b 0 B ltac:(cbn; lia)) as SR. cbn [bf_bands block_mean] in SR.
    destruct (bset_exists d (slot FM g req b) (stat_of b)) as (d' & Ed & Ld & _); [lia|]. exists d'. split; auto.
    eapply writes_iff; [|exact (writes_single _ _ _ _ Ed)]. intros j v; split.
    + intros [-> ->]. exists 0. cbn [bf_bands block_mean]. split; [lia|]. split; [lia|auto].
    + cbn [bf_bands block_mean]. intros (k & Hk & -> & ->). split; auto. lia.
  - intros st b d Sh Fi B L. cbn [bf_threshold block_mean].
    destruct (Hth b B) as (m & Em). assert (Em' := Em). unfold mean_threshold in Em'.
    assert (Sh' := Sh). destruct Sh' as ((Wf' & S' & B') & W' & H').
    rewrite (block_region_ok g req Hg Hw Hh) by auto.
    rewrite (mfold_ext _ (fun b s => let* v := mean_stat M g req b in bm_add M s v)).
    2:{ intros b' s Hb'. pose proof (near_blocks_ok g req Hg Hw Hh local b b' B Hb') as Bb.
        rewrite (stat_of_ok b' Bb). cbn [bind].
        pose proof (shaped_inside FM g req st b' 0 Sh Bb ltac:(cbn; lia)) as I.
        rewrite (i_wf_index st) by auto. specialize (Fi b' 0 Bb ltac:(cbn; lia)). rewrite i_pixel_inside in Fi by auto.
        unfold bget. rewrite Fi. reflexivity. }
    destruct (mfold _ (near_blocks g req local b) _) as [s| | |]; try discriminate. cbn [bind] in *.
    rewrite W', H'. pose proof (near_len_small b B) as NL. rewrite (near_blocks_len g req Hg Hw Hh local b B) in Em', NL.
    destruct B as [B1 B2].
    destruct (around_first local (cols g req) (fst b) B1 ltac:(lia)) as (L1 & E1 & F1 & F2).
    destruct (around_first local (rows g req) (snd b) B2 ltac:(lia)) as (L2 & E2 & F3 & F4).
    rewrite !(u32_id (_ + 1)) by lia. rewrite Z.mul_comm. rewrite u32_id by lia. rewrite Em'. cbn [bind].
    apply (block_apply_ok g req Hg Hw Hh o Ho Ew Eh); auto; [split; auto|].
    intros x y v Eb Ev. eexists; split; [reflexivity|]. unfold mean_value. rewrite Ev, Eb, Em. cbn. now rewrite bool_side.
  - exists st, out. split; auto. split; [apply E2|auto].
Qed.
End Mean.

(** ** Min and max *)
Section MinMax.
Context {E A D : Type}.
Variables (M : bminmax E A) (zero : E) (local down : bool) (O : dops D) (c : clen D) (g : gray E) (o : gray Z) (req : Z).
Hypothesis Hg : wf g.
Hypothesis Ho : wf o.
Hypothesis Ew : g_width o = g_width g.
Hypothesis Eh : g_height o = g_height g.
Hypothesis Hc : clen_computeI O c (d_of O (Z.min (g_width g) (g_height g))) = Ok req.
Hypothesis Hw : 1 <= req <= g_width g.
Hypothesis Hh : 1 <= req <= g_height g.
Notation FM := (block_minmax M zero local down).
Hypothesis Ht : cols g req * rows g req * 2 < 4294967296.
Hypothesis Hdef : forall x y, inside g x y -> exists v, mm_value M g req local down x y = Ok v.

Lemma mfold_pure {X Y} (f : Y -> X -> Y) l : forall s, mfold (fun v s => Ok (f s v)) l s = Ok (fold_left f l s).
Proof. induction l as [|a l IH]; intros s; cbn; auto. Qed.

Lemma first_pixel b : is_block g req b -> exists v l, block_pixels g req b = v :: l /\
  gray_get g (block_lo (g_width g) req (fst b)) (block_lo (g_height g) req (snd b)) = Ok v.
Proof.
  intros B. assert (B' := B). destruct B' as [B1 B2].
  pose proof (block_bounds _ req Hw (fst b) B1) as X1. pose proof (block_bounds _ req Hh (snd b) B2) as X2.
  pose proof (len_req _ req Hw). pose proof (len_req _ req Hh).
  set (x0 := block_lo (g_width g) req (fst b)) in *. set (y0 := block_lo (g_height g) req (snd b)) in *.
  assert (I : inside g x0 y0) by (split; lia). destruct (pixel_exists g x0 y0 Hg I) as (v & Ev).
  assert (Q : forall lo hi, lo < hi -> exists l, zseq lo hi = lo :: l).
  { intros lo hi Hl. unfold zseq, zrange. destruct (Z.to_nat (hi - lo)) eqn:En; [lia|]. cbn. rewrite Z.add_0_r. eauto. }
  destruct (Q x0 (block_hi (g_width g) req (fst b)) ltac:(lia)) as (lx & Ex).
  destruct (Q y0 (block_hi (g_height g) req (snd b)) ltac:(lia)) as (ly & Ey).
  exists v. eexists. split.
  - unfold block_pixels. fold x0 y0. rewrite Ey. cbn [flat_map]. rewrite Ex. cbn [flat_map]. rewrite Ev. cbn. reflexivity.
  - unfold gray_get. rewrite wf_index by auto. rewrite pixel_inside in Ev by auto. unfold bget. rewrite Ev.
    now replace (_ || _) with false by (destruct I; lia).
Qed.

Lemma minmax_ok st0 : ready FM st0 ->
  exists st out, block_process FM O c st0 g o = Ok (st, out) /\ ready FM st /\
    holds g o out (fun x y => value (mm_value M g req local down x y)).
Proof.
  intros R0. pose proof (dims g req Hg Hw Hh) as (D1 & D2 & D3 & D4).
  destruct (process_ok FM O c g o req Hg Ho Ew Eh Hc Hw Hh ltac:(cbn; lia) ltac:(cbn; lia)
    (fun b k => if k =? 0 then fst (mm_stat M g req b) else snd (mm_stat M g req b))
    (fun x y => value (mm_value M g req local down x y))) with (st0 := st0) as (st & out & E1 & E2 & E3 & E4); auto.
  - intros x y I. destruct (Hdef x y I) as (v & Ev). rewrite Ev. cbn. eauto.
  - intros st Sh. exists st. split; [reflexivity|]. split; auto. intros b d B L _. cbn [bf_stats block_minmax].
    destruct (first_pixel b B) as (v & l & Ep & Eg). rewrite Eg. cbn [bind].
    rewrite (block_scan_ok g req Hg Hw Hh) by (auto; intros; apply u32_id; lia).
    rewrite (mfold_ext _ (fun v s => Ok (mm_step M s v))) by reflexivity. rewrite mfold_pure. cbn [bind].
    assert (ES : fold_left (mm_step M) (block_pixels g req b) (v, v) = mm_stat M g req b) by (unfold mm_stat; now rewrite Ep).
    rewrite ES.
    pose proof (shaped_data FM g req Hg Hw Hh ltac:(cbn; lia) st Sh) as LD. cbn [bf_bands block_minmax] in LD.
    pose proof (slot_range FM g req ltac:(cbn; lia) b 0 B ltac:(cbn; lia)) as SR. cbn [bf_bands block_minmax] in SR.
    pose proof (slot_range FM g req ltac:(cbn; lia) b 1 B ltac:(cbn; lia)) as SR1. cbn [bf_bands block_minmax] in SR1.
    destruct (bset_exists d (slot FM g req b) (fst (mm_stat M g req b))) as (d1 & Ed & Ld & _); [lia|]. rewrite Ed. cbn [bind].
    rewrite u32_id by lia.
    destruct (bset_exists d1 (slot FM g req b + 1) (snd (mm_stat M g req b))) as (d2 & Ed2 & Ld2 & _); [lia|]. exists d2. split; auto.
    eapply writes_iff; [|eapply writes_compose; [exact (writes_single _ _ _ _ Ed)|exact (writes_single _ _ _ _ Ed2)]]. intros j w; split.
    + intros [[-> ->]|[-> ->]]; [exists 0|exists 1]; cbn [bf_bands block_minmax]; (split; [lia|]); split; auto; lia.
    + cbn [bf_bands block_minmax]. intros (k & Hk & -> & ->). destruct (Z.eqb_spec k 0) as [->|]; [left; split; auto; lia|right].
      replace k with 1 by lia. auto.
  - intros st b d Sh Fi B L. cbn [bf_threshold block_minmax].
    assert (Sh' := Sh). destruct Sh' as ((Wf' & S' & B') & W' & H').
    rewrite (block_region_ok g req Hg Hw Hh) by auto.
    rewrite (mfold_ext _ (fun b s => Ok (mm_join M s (mm_stat M g req b)))).
    2:{ intros b' s Hb'. pose proof (near_blocks_ok g req Hg Hw Hh local b b' B Hb') as Bb.
        pose proof (shaped_inside FM g req st b' 0 Sh Bb ltac:(cbn; lia)) as I0.
        pose proof (shaped_inside FM g req st b' 1 Sh Bb ltac:(cbn; lia)) as I1.
        destruct (inter_get_inside st _ _ _ Wf' I0) as (v0 & G0 & P0). destruct (inter_get_inside st _ _ _ Wf' I1) as (v1 & G1 & P1).
        rewrite G0, G1. cbn [bind]. pose proof (Fi b' 0 Bb ltac:(cbn; lia)) as Q0. pose proof (Fi b' 1 Bb ltac:(cbn; lia)) as Q1.
        rewrite P0 in Q0. rewrite P1 in Q1. cbn in Q0, Q1. injection Q0 as ->. injection Q1 as ->. reflexivity. }
    rewrite (mfold_pure (fun s b => mm_join M s (mm_stat M g req b))). cbn [bind].
    assert (ER : fold_left (fun s b => mm_join M s (mm_stat M g req b)) (near_blocks g req local b) (mm_max M, mm_min M) = mm_range M g req local b).
    { unfold mm_range. generalize (mm_max M, mm_min M). induction (near_blocks g req local b) as [|a l IH]; intros s; cbn; auto. }
    rewrite ER. destruct (mm_range M g req local b) as [mn mx] eqn:EM. cbn [fst snd].
    destruct (first_pixel b B) as (v & l & Ep & _).
    assert (In v (block_pixels g req b)) as Hin by (rewrite Ep; now left). apply (block_pixels_In g req Hw Hh) in Hin; auto.
    destruct Hin as (x1 & y1 & Eb1 & Ev1). pose proof (pixel_Some g x1 y1 v Ev1) as I1.
    destruct (Hdef x1 y1 I1) as (r & Er). unfold mm_value in Er. rewrite Ev1, Eb1, EM in Er.
    destruct (mm_texture M) as [t| | |] eqn:ET; try discriminate. cbn [bind] in *.
    apply (block_apply_ok g req Hg Hw Hh o Ho Ew Eh); auto.
    intros x y w Eb Evw. destruct (Hdef x y (pixel_Some g x y w Evw)) as (r' & Er'). rewrite Er'. exists r'. split; [|reflexivity].
    unfold mm_value in Er'. rewrite Evw, Eb, EM, ET in Er'. cbn [bind] in Er'. rewrite <- Er'.
    destruct (mm_flat M t mx mn) as [[]| | |]; cbn [bind]; auto.
    destruct (mm_average M mx mn); cbn [bind]; auto. now rewrite bool_side.
  - exists st, out. split; auto. split; [apply E2|auto].
Qed.
End MinMax.

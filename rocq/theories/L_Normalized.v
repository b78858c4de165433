From Verif Require Import BaseFacts M_Image S_Image L_Image M_Border S_Border L_Border M_Convolve S_Convolve L_Window
  L_Convolve L_Convolve2 M_Normalized S_Normalized.

Section Acc.
Context {E S R : Type}.
Variable A : arith E S R.

(** Plain sum of coefficients. *)
Fixpoint wsum (w : S) (ks : list S) : option S :=
  match ks with [] => Some w | c :: r => match a_add A w c with Ok w' => wsum w' r | _ => None end end.

Lemma covered_app l k px i t w : covered A t w (l ++ k) px i =
  match covered A t w l px i with Some (t', w') => covered A t' w' k px (i + zlen l) | None => None end.
Proof.
  revert i t w; induction l as [|c l IH]; intros i t w; cbn [covered app].
  - f_equal. zlen_nil; lia.
  - rewrite zlen_cons. replace (i + (1 + zlen l)) with (i + 1 + zlen l) by lia.
    destruct (px i); [|apply IH]. destruct (a_prod A c e); auto.
    destruct (a_add A t a); auto. destruct (a_add A w c); auto.
Qed.
Lemma covered_none l : forall px i t w, (forall j, 0 <= j < zlen l -> px (i + j) = None) ->
  covered A t w l px i = Some (t, w).
Proof.
  induction l as [|c l IH]; intros px i t w H; cbn [covered]; auto.
  rewrite zlen_cons in H. pose proof (zlen_nonneg l).
  pose proof (H 0 ltac:(lia)) as H1. rewrite Z.add_0_r in H1. rewrite H1.
  apply IH. intros j Hj. replace (i + 1 + j) with (i + (j + 1)) by lia. apply H; lia.
Qed.
Lemma covered_ext l : forall px px' i i' t w, (forall j, 0 <= j < zlen l -> px (i + j) = px' (i' + j)) ->
  covered A t w l px i = covered A t w l px' i'.
Proof.
  induction l as [|c l IH]; intros px px' i i' t w H; cbn [covered]; auto.
  rewrite zlen_cons in H. pose proof (zlen_nonneg l).
  pose proof (H 0 ltac:(lia)) as H1. rewrite !Z.add_0_r in H1. rewrite H1.
  assert (H2 : forall t w, covered A t w l px (i + 1) = covered A t w l px' (i' + 1)).
  { intros. apply IH. intros j Hj. replace (i + 1 + j) with (i + (j + 1)) by lia.
    replace (i' + 1 + j) with (i' + (j + 1)) by lia. apply H; lia. }
  destruct (px' i'); auto. destruct (a_prod A c e); auto.
  destruct (a_add A t a); auto. destruct (a_add A w c); auto.
Qed.
Lemma covered_split l : forall px i t w t' w', (forall j, 0 <= j < zlen l -> exists v, px (i + j) = Some v) ->
  covered A t w l px i = Some (t', w') -> weighted A t l px i = Some t' /\ wsum w l = Some w'.
Proof.
  induction l as [|c l IH]; intros px i t w t' w' H H0; cbn [covered weighted wsum] in *.
  - injection H0 as <- <-. auto.
  - rewrite zlen_cons in H. pose proof (zlen_nonneg l).
    pose proof (H 0 ltac:(lia)) as (v & Hv). rewrite Z.add_0_r in Hv. rewrite Hv in *.
    destruct (a_prod A c v); try discriminate. destruct (a_add A t a); try discriminate.
    destruct (a_add A w c); try discriminate. apply IH; auto.
    intros j Hj. replace (i + 1 + j) with (i + (j + 1)) by lia. apply H; lia.
Qed.

(** The list between positions [lo] and [hi]. *)
Definition mid (lo hi : Z) (l : list S) : list S := firstn (Z.to_nat (hi - lo)) (skipn (Z.to_nat lo) l).

Lemma mid_zlen lo hi l : 0 <= lo <= hi -> hi <= zlen l -> zlen (mid lo hi l) = hi - lo.
Proof. intros. unfold mid, zlen in *. rewrite firstn_length, skipn_length. lia. Qed.
Lemma mid_split lo hi (l : list S) : 0 <= lo <= hi -> hi <= zlen l ->
  l = firstn (Z.to_nat lo) l ++ mid lo hi l ++ skipn (Z.to_nat hi) l.
Proof.
  intros. unfold mid. rewrite <- (firstn_skipn (Z.to_nat lo) l) at 1. f_equal.
  rewrite <- (firstn_skipn (Z.to_nat (hi - lo)) (skipn (Z.to_nat lo) l)) at 1. f_equal.
  replace (Z.to_nat hi) with (Z.to_nat (hi - lo) + Z.to_nat lo)%nat by lia.
  clear. revert l. induction (Z.to_nat lo) as [|n IH]; intros l.
  - now rewrite Nat.add_0_r.
  - rewrite Nat.add_succ_r. destruct l; cbn [skipn]; auto. destruct (Z.to_nat (hi - lo)); reflexivity.
Qed.
Lemma mid_znth lo hi l j : 0 <= lo <= hi -> hi <= zlen l -> 0 <= j < hi - lo -> znth (mid lo hi l) j = znth l (lo + j).
Proof.
  intros. rewrite (mid_split lo hi l) at 2 by lia.
  assert (L : zlen (firstn (Z.to_nat lo) l) = lo). { unfold zlen in *. rewrite firstn_length. lia. }
  rewrite znth_app_r by lia. rewrite znth_app_l by (rewrite mid_zlen; lia). f_equal; lia.
Qed.
Lemma mid_covered lo hi l px t w : 0 <= lo <= hi -> hi <= zlen l ->
  (forall j, 0 <= j < lo -> px j = None) -> (forall j, hi <= j < zlen l -> px j = None) ->
  covered A t w l px 0 = covered A t w (mid lo hi l) px lo.
Proof.
  intros Hl Hh N1 N2. rewrite (mid_split lo hi l) at 1 by lia. rewrite covered_app.
  assert (L : zlen (firstn (Z.to_nat lo) l) = lo). { unfold zlen in *. rewrite firstn_length. lia. }
  rewrite covered_none by (intros; apply N1; lia). rewrite Z.add_0_l, L, covered_app.
  destruct (covered A t w (mid lo hi l) px lo) as [[t' w']|]; auto.
  apply covered_none. intros j Hj. apply N2. rewrite mid_zlen by lia. 
  unfold zlen in *. rewrite skipn_length in Hj. lia.
Qed.

Lemma accw_from l : forall px coef pix i sh t w t' w',
  (forall j c, znth l j = Some c -> coef (i + j + sh) = Ok c) ->
  (forall j, 0 <= j < zlen l -> exists v, px (i + j) = Some v /\ pix (i + j + sh) = Ok v) ->
  covered A t w l px i = Some (t', w') ->
  for_range (i + sh) (i + zlen l + sh) (fun k tw =>
    let* c := coef k in let* p := pix k in let* m := a_prod A c p in
    let* t := a_add A (fst tw) m in let* w := a_add A (snd tw) c in Ok (t, w)) (t, w) = Ok (t', w').
Proof.
  induction l as [|c l IH]; intros px coef pix i sh t w t' w' Hc Hp H.
  - rewrite for_range_nil by (zlen_nil; lia). cbn in H. congruence.
  - pose proof (zlen_nonneg l). rewrite zlen_cons in *. rewrite for_range_step by lia. cbn [covered] in H.
    pose proof (Hc 0 c (znth_cons_0 _ _)) as C. replace (i + 0) with i in C by lia. rewrite C. cbn [bind].
    pose proof (Hp 0 ltac:(lia)) as (p & P & Q). replace (i + 0) with i in * by lia. rewrite P in H. rewrite Q. cbn [bind].
    destruct (a_prod A c p); try discriminate. cbn [bind fst snd].
    destruct (a_add A t a); try discriminate. destruct (a_add A w c); try discriminate. cbn [bind].
    replace (i + sh + 1) with (i + 1 + sh) by lia.
    replace (i + (1 + zlen l) + sh) with (i + 1 + zlen l + sh) by lia. apply (IH px); auto.
    + intros j c' Hj. replace (i + 1 + j + sh) with (i + (j + 1) + sh) by lia. apply Hc.
      pose proof (znth_Some_range _ _ _ Hj). rewrite znth_cons_S by lia. now replace (j + 1 - 1) with j by lia.
    + intros j Hj. replace (i + 1 + j) with (i + (j + 1)) by lia. apply Hp. lia.
Qed.

(** Kernel positions [lo,hi) are the ones over the image. *)
Lemma accw_ok ks px coef pix lo hi sh t w :
  0 <= lo <= hi -> hi <= zlen ks ->
  (forall j, 0 <= j < lo -> px j = None) -> (forall j, hi <= j < zlen ks -> px j = None) ->
  (forall j c, lo <= j < hi -> znth ks j = Some c -> coef (j + sh) = Ok c) ->
  (forall j, lo <= j < hi -> exists v, px j = Some v /\ pix (j + sh) = Ok v) ->
  covered A (a_zero A) (a_zero A) ks px 0 = Some (t, w) -> accw A (lo + sh) (hi + sh) coef pix = Ok (t, w).
Proof.
  intros Hl Hh N1 N2 Hc Hp H. rewrite (mid_covered lo hi) in H by auto. unfold accw.
  pose proof (mid_zlen lo hi ks Hl Hh) as L.
  replace (hi + sh) with (lo + zlen (mid lo hi ks) + sh) by lia. apply (accw_from _ px); auto.
  - intros j c Hj. pose proof (znth_Some_range _ _ _ Hj). apply Hc; [lia|]. now rewrite <- (mid_znth lo hi) by lia.
  - intros j Hj. apply Hp. lia.
Qed.
Lemma wsum_from l : forall coef i w w',
  (forall j c, znth l j = Some c -> coef (i + j) = Ok c) -> wsum w l = Some w' ->
  for_range i (i + zlen l) (fun k w => let* c := coef k in a_add A w c) w = Ok w'.
Proof.
  induction l as [|c l IH]; intros coef i w w' Hc H.
  - rewrite for_range_nil by (zlen_nil; lia). cbn in H. congruence.
  - pose proof (zlen_nonneg l). rewrite zlen_cons in *. rewrite for_range_step by lia. cbn [wsum] in H.
    pose proof (Hc 0 c (znth_cons_0 _ _)) as C. replace (i + 0) with i in C by lia. rewrite C. cbn [bind].
    destruct (a_add A w c); try discriminate. cbn [bind].
    replace (i + (1 + zlen l)) with (i + 1 + zlen l) by lia. apply IH; auto.
    intros j c' Hj. replace (i + 1 + j) with (i + (j + 1)) by lia. apply Hc.
    pose proof (znth_Some_range _ _ _ Hj). rewrite znth_cons_S by lia. now replace (j + 1 - 1) with j by lia.
Qed.
Lemma partial_ok K px pix lo hi t w :
  0 <= lo <= hi -> hi <= zlen (k_data K) ->
  (forall j, 0 <= j < lo -> px j = None) -> (forall j, hi <= j < zlen (k_data K) -> px j = None) ->
  (forall j, lo <= j < hi -> exists v, px j = Some v /\ pix j = Ok v) ->
  covered A (a_zero A) (a_zero A) (k_data K) px 0 = Some (t, w) ->
  partial_weight A K lo hi = Ok w /\ partial_total A K lo hi pix = Ok t.
Proof.
  intros Hl Hh N1 N2 Hp H. rewrite (mid_covered lo hi) in H by auto.
  pose proof (mid_zlen lo hi (k_data K) Hl Hh) as L.
  apply covered_split in H as [Ht Hw].
  2:{ intros j Hj. destruct (Hp (lo + j)) as (v & Hv & _); eauto; lia. }
  assert (Hc : forall j c, znth (mid lo hi (k_data K)) j = Some c -> k_raw K (lo + j) = Ok c).
  { intros j c Hj. pose proof (znth_Some_range _ _ _ Hj). rewrite mid_znth in Hj by lia. now apply k_raw_ok. }
  split.
  - unfold partial_weight. replace hi with (lo + zlen (mid lo hi (k_data K))) by lia. now apply wsum_from.
  - unfold partial_total. replace hi with (lo + zlen (mid lo hi (k_data K))) by lia.
    apply (acc1_from A (mid lo hi (k_data K)) px); auto.
    intros j v Hj Hv. destruct (Hp (lo + j)) as (v' & Hv' & E'); [lia|]. congruence.
Qed.
End Acc.

Lemma averaged_Some {E S} (N : narith E S) ks px r : averaged N ks px = Some r ->
  exists t w, covered (na_arith N) (a_zero (na_arith N)) (a_zero (na_arith N)) ks px 0 = Some (t, w) /\ na_norm N t w = Ok r.
Proof.
  unfold averaged. destruct (covered _ _ _ ks px 0) as [[t w]|]; [|discriminate].
  destruct (na_norm N t w) eqn:O; try discriminate. intros H; injection H as <-. eauto.
Qed.

Lemma clip_range_ok {S} (K : kernel S) n x : kernel1_ok K -> 0 <= x < n -> n <= 1073741824 ->
  clip_range K n x = (Z.max 0 (x - k_offset K), Z.min n (x - k_offset K + k_width K)).
Proof.
  intros (K1 & K2 & K3) Hx Hn. unfold clip_range. destruct (x <? k_offset K) eqn:C.
  - rewrite s32_u32 by lia. rewrite u32_id by lia. rewrite s32_id by lia. f_equal; [lia|].
    destruct (n <? _) eqn:C2; lia.
  - rewrite (s32_u32 (x - k_offset K)) by lia. rewrite s32_u32 by lia. rewrite u32_id by lia. rewrite s32_id by lia.
    f_equal; [lia|]. destruct (n <? _) eqn:C2; lia.
Qed.

Section N1.
Context {E S : Type}.
Variable N : narith E S.
Variable K : kernel S.
Variable g o : gray E.
Hypothesis HK : kernel1_ok K.
Hypothesis Hg : wf g.
Hypothesis Ho : wf o.
Hypothesis Ew : g_width o = g_width g.
Hypothesis Eh : g_height o = g_height g.
Hypothesis Sw : g_width g <= 1073741824.
Hypothesis Sh : g_height g <= 1073741824.
Notation A := (na_arith N).

Lemma px_some x y : inside g x y -> exists v, pixel g x y = Some v /\ gray_unsafe_get g x y = Ok v /\
  bget (g_data g) (pos g x y) = Ok v.
Proof.
  intros Hi. destruct (pixel_exists g x y Hg Hi) as (v & Hv). exists v. split; auto.
  split; [now apply gray_unsafe_inside|]. rewrite pixel_inside in Hv by auto. now apply bget_Ok.
Qed.
Lemma px_none x y : ~ inside g x y -> pixel g x y = None.
Proof. apply pixel_outside. Qed.

Lemma nnaive_h_ok d : zlen d = zlen (g_data o) ->
  (forall x y, inside g x y -> exists r, nvalue_h N K g x y = Some r) ->
  exists d', nnaive_h N K g o d = Ok d' /\ zlen d' = zlen (g_data o) /\
             writes d (win o (nvalue_h N K g) (fun _ _ => True)) d'.
Proof.
  intros L HV. unfold nnaive_h. pose proof HK as (K1 & K2 & K3).
  match goal with |- context [for_range _ _ ?f d] => 
    destruct (win_loop o (nvalue_h N K g) (fun y x' y' => y' = y /\ 0 <= x' < g_width g) 0 (g_height g) f d L) 
      as (d' & Ed & L' & W) end.
  - intros y d0 Hy L0.
    match goal with |- context [for_range _ _ ?f d0] =>
      destruct (win_row o (nvalue_h N K g) Ho y 0 (g_width g) f d0 L0) as (d' & Ed & L' & W); eauto end.
    intros x d1 Hx L1. assert (Hi : inside g x y) by (split; lia). split; [split; lia|].
    destruct (HV x y Hi) as (r & Fr). exists r; split; auto.
    apply averaged_Some in Fr as (t & w & Ws & Os).
    rewrite clip_range_ok by auto.
    set (lo := Z.max 0 (k_offset K - x)). set (hi := Z.min (k_width K) (g_width g - x + k_offset K)).
    replace (Z.max 0 (x - k_offset K)) with (lo + (x - k_offset K)) by lia.
    replace (Z.min (g_width g) (x - k_offset K + k_width K)) with (hi + (x - k_offset K)) by lia.
    rewrite (accw_ok A (k_data K) (fun i => pixel g (x - k_offset K + i) y) _ _ lo hi (x - k_offset K) t w); auto; try lia.
    + cbn [bind fst snd]. rewrite Os. cbn [bind]. rewrite wf_index; auto. split; lia.
    + intros j Hj. apply px_none. unfold inside. lia.
    + intros j Hj. apply px_none. unfold inside. lia.
    + intros j c Hj Hc. replace (j + (x - k_offset K) - x + k_offset K) with j by lia. rewrite u32_id by lia. now apply k_raw_ok.
    + intros j Hj. destruct (px_some (x - k_offset K + j) y) as (v & V1 & V2 & V3); [split; lia|].
      exists v; split; auto. replace (j + (x - k_offset K)) with (x - k_offset K + j) by lia. auto.
  - exists d'. split; auto. split; auto. eapply win_iff; [|exact W]. intros x y [I1 I2]; split; auto.
    intros _. exists y. lia.
Qed.

Lemma nnaive_v_ok d : zlen d = zlen (g_data o) ->
  (forall c, In c (k_data K) -> na_trunc N c = Ok c) ->
  (forall x y, inside g x y -> exists r, nvalue_v N K g x y = Some r) ->
  exists d', nnaive_v N K g o d = Ok d' /\ zlen d' = zlen (g_data o) /\
             writes d (win o (nvalue_v N K g) (fun _ _ => True)) d'.
Proof.
  intros L HT HV. unfold nnaive_v. pose proof HK as (K1 & K2 & K3).
  match goal with |- context [for_range _ _ ?f d] => 
    destruct (win_loop o (nvalue_v N K g) (fun y x' y' => y' = y /\ 0 <= x' < g_width g) 0 (g_height g) f d L) 
      as (d' & Ed & L' & W) end.
  - intros y d0 Hy L0.
    match goal with |- context [for_range _ _ ?f d0] =>
      destruct (win_row o (nvalue_v N K g) Ho y 0 (g_width g) f d0 L0) as (d' & Ed & L' & W); eauto end.
    intros x d1 Hx L1. assert (Hi : inside g x y) by (split; lia). split; [split; lia|].
    destruct (HV x y Hi) as (r & Fr). exists r; split; auto.
    apply averaged_Some in Fr as (t & w & Ws & Os).
    rewrite clip_range_ok by auto.
    set (lo := Z.max 0 (k_offset K - y)). set (hi := Z.min (k_width K) (g_height g - y + k_offset K)).
    replace (Z.max 0 (y - k_offset K)) with (lo + (y - k_offset K)) by lia.
    replace (Z.min (g_height g) (y - k_offset K + k_width K)) with (hi + (y - k_offset K)) by lia.
    rewrite (accw_ok A (k_data K) (fun i => pixel g x (y - k_offset K + i)) _ _ lo hi (y - k_offset K) t w); auto; try lia.
    + cbn [bind fst snd]. rewrite Os. cbn [bind]. rewrite wf_index; auto. split; lia.
    + intros j Hj. apply px_none. unfold inside. lia.
    + intros j Hj. apply px_none. unfold inside. lia.
    + intros j c Hj Hc. replace (j + (y - k_offset K) - y + k_offset K) with j by lia. rewrite u32_id by lia.
      rewrite (k1_at_ok K j c) by auto. cbn [bind]. apply HT. eapply znth_In; eauto.
    + intros j Hj. destruct (px_some x (y - k_offset K + j)) as (v & V1 & V2 & V3); [split; lia|].
      exists v; split; auto. replace (j + (y - k_offset K)) with (y - k_offset K + j) by lia. auto.
  - exists d'. split; auto. split; auto. eapply win_iff; [|exact W]. intros x y [I1 I2]; split; auto.
    intros _. exists y. lia.
Qed.

Lemma just_h_ok d : zlen d = zlen (g_data o) -> k_width K <= g_width g ->
  (forall x y, inside g x y -> exists r, nvalue_h N K g x y = Some r) ->
  exists d', just_h N K g o d = Ok d' /\ zlen d' = zlen (g_data o) /\
    writes d (win o (nvalue_h N K g)
      (fun x y => x < k_offset K \/ g_width g - (k_width K - k_offset K - 1) <= x)) d'.
Proof.
  intros L HF HV. unfold just_h. pose proof HK as (K1 & K2 & K3). cbn zeta.
  rewrite (u32_id (k_width K - k_offset K - 1)) by lia.
  rewrite (u32_id (k_offset K + _)) by lia.
  set (skip := u32 (g_width g - (k_offset K + (k_width K - k_offset K - 1)))).
  assert (Esk : skip = g_width g - (k_width K - 1)) by (unfold skip; rewrite u32_id by lia; lia).
  clearbody skip.
  match goal with |- context [for_range _ _ ?f d] => 
    destruct (win_loop o (nvalue_h N K g) (fun y x' y' => y' = y /\ 
       (x' < k_offset K \/ g_width g - (k_width K - k_offset K - 1) <= x')) 0 (g_height g) f d L) 
      as (d' & Ed & L' & W) end.
  - intros y d0 Hy L0. cbn zeta.
    assert (Hwf : 0 <= g_offset g) by (unfold wf in Hg; lia).
    assert (I0 : inside g 0 y) by (split; lia). pose proof (wf_index _ _ _ Hg I0) as X0.
    assert (I9 : inside g (g_width g - 1) y) by (split; lia).
    pose proof (wf_pos _ _ _ Hg I0) as B0. pose proof (wf_pos _ _ _ Hg I9) as B9.
    assert (ZL : zlen (g_data g) < 4294967296) by (unfold wf in Hg; lia).
    unfold gray_index, pos in X0, B0, B9. rewrite Z.add_0_r in X0. rewrite X0.
    set (p := g_offset g + y * g_stride g) in *. assert (Ep : p = g_offset g + y * g_stride g) by reflexivity.
    clearbody p. 
    rewrite (u32_id (p + k_offset K)) by lia. rewrite (u32_id (p + k_offset K + skip)) by lia.
    rewrite (u32_id (p + g_width g)) by lia.
    assert (DST : forall x, inside o x y -> u32 (u32 (g_offset o + y * g_stride o) + x) = pos o x y).
    { intros x Ix. rewrite u32_add_l. apply (wf_index _ _ _ Ho Ix). }
    replace (for_range p) with (for_range (S := list E) (0 + p)) by (f_equal; lia).
    replace (p + k_offset K) with (k_offset K + p) by lia. rewrite for_range_shift.
    match goal with |- context [for_range 0 _ ?f d0] =>
      destruct (win_row o (nvalue_h N K g) Ho y 0 (k_offset K) f d0 L0) as (d1 & Ed & L' & W) end.
    { intros x d1 Hx L1. assert (Hi : inside g x y) by (split; lia). split; [split; lia|].
      destruct (HV x y Hi) as (r & Fr). exists r; split; auto.
      apply averaged_Some in Fr as (t & w & Ws & Os).
      replace (k_width K - k_offset K - 1 + 1 + (x + p) - p) with (k_width K - (k_offset K - x)) by lia.
      rewrite (u32_id (k_width K - (k_offset K - x))) by lia.
      replace (k_width K - (k_width K - (k_offset K - x))) with (k_offset K - x) by lia. rewrite (u32_id (k_offset K - x)) by lia.
      pose proof (accw_ok A (k_data K) (fun i => pixel g (x - k_offset K + i) y) (k_raw K)
        (fun k => bget (g_data g) (u32 (p + (k - (k_offset K - x))))) (k_offset K - x) (k_width K) 0 t w) as AO.
      rewrite !Z.add_0_r in AO. rewrite AO; clear AO; auto; try lia.
      - cbn [bind fst snd]. rewrite Os. cbn [bind]. f_equal. replace (x + p - p) with x by lia. apply DST. split; lia.
      - intros j Hj. apply px_none. unfold inside. lia.
      - intros j c Hj Hc. rewrite Z.add_0_r. now apply k_raw_ok.
      - intros j Hj. rewrite Z.add_0_r. destruct (px_some (x - k_offset K + j) y) as (v & V1 & V2 & V3); [split; lia|].
        exists v; split; auto. rewrite u32_id by lia. unfold pos in V3. rewrite <- V3. f_equal. lia. }
    rewrite Ed. cbn [bind].
    set (x0 := g_width g - (k_width K - k_offset K - 1)).
    replace (k_offset K + p + skip) with (x0 + p) by lia. 
    replace (p + g_width g) with (g_width g + p) by lia. rewrite for_range_shift.
    match goal with |- context [for_range _ _ ?f d1] =>
      destruct (win_row o (nvalue_h N K g) Ho y x0 (g_width g) f d1 L') as (d2 & Ed2 & L2 & W2) end.
    { intros x d2 Hx L2. assert (Hi : inside g x y) by (split; lia). split; [split; lia|].
      destruct (HV x y Hi) as (r & Fr). exists r; split; auto.
      apply averaged_Some in Fr as (t & w & Ws & Os).
      rewrite (u32_id (x + p - k_offset K)) by lia.
      rewrite (u32_id (g_width g + p - _)) by lia.
      replace (g_width g + p - (x + p - k_offset K)) with (g_width g - x + k_offset K) by lia.
      pose proof (accw_ok A (k_data K) (fun i => pixel g (x - k_offset K + i) y) (k_raw K)
        (fun k => bget (g_data g) (u32 (x + p - k_offset K + k))) 0 (g_width g - x + k_offset K) 0 t w) as AO.
      rewrite !Z.add_0_r in AO. rewrite AO; clear AO; auto; try lia.
      - cbn [bind fst snd]. rewrite Os. cbn [bind]. f_equal. rewrite <- (DST x) by (split; lia).
        rewrite !u32_add_l, <- Z.add_assoc, u32_add_l. f_equal. lia.
      - intros j Hj. apply px_none. unfold inside. lia.
      - intros j c Hj Hc. rewrite Z.add_0_r. now apply k_raw_ok.
      - intros j Hj. rewrite Z.add_0_r. destruct (px_some (x - k_offset K + j) y) as (v & V1 & V2 & V3); [split; lia|].
        exists v; split; auto. rewrite u32_id by lia. unfold pos in V3. rewrite <- V3. f_equal. lia. }
    exists d2; split; auto. eapply win_iff; [|eapply win_seq; [exact W|exact W2]].
    intros x' y' [I3 I4]. lia.
  - exists d'. split; auto. split; auto. eapply win_iff; [|exact W]. intros x y [I1 I2]; split.
    + intros (i & Hi & -> & Hx); auto.
    + intros Hx. exists y. lia.
Qed.

Lemma just_v_ok d : zlen d = zlen (g_data o) -> 0 < g_width g -> k_width K <= g_height g ->
  (forall x y, inside g x y -> exists r, nvalue_v N K g x y = Some r) ->
  exists d', just_v N K g o d = Ok d' /\ zlen d' = zlen (g_data o) /\
    writes d (win o (nvalue_v N K g)
      (fun x y => y < k_offset K \/ g_height g - (k_width K - k_offset K - 1) <= y)) d'.
Proof.
  intros L HW HF HV. unfold just_v. pose proof HK as (K1 & K2 & K3). cbn zeta.
  rewrite (u32_id (k_width K - k_offset K - 1)) by lia.
  rewrite (u32_id (g_height g - (k_width K - k_offset K - 1))) by lia.
  assert (ZL : zlen (g_data g) < 4294967296) by (unfold wf in Hg; lia).
  assert (DST : forall x y, inside o x y -> u32 (u32 (g_offset o + y * g_stride o) + x) = pos o x y).
  { intros x y Ix. rewrite u32_add_l. apply (wf_index _ _ _ Ho Ix). }
  assert (ROW : forall y, 0 <= y < g_height g -> u32 (g_offset g + y * g_stride g) = g_offset g + y * g_stride g /\
      0 <= g_offset g + y * g_stride g /\ g_offset g + y * g_stride g + g_width g <= zlen (g_data g)).
  { intros y Hy. assert (I0 : inside g 0 y) by (split; lia). pose proof (wf_index _ _ _ Hg I0) as X0.
    assert (I9 : inside g (g_width g - 1) y) by (split; lia).
    pose proof (wf_pos _ _ _ Hg I0) as B0. pose proof (wf_pos _ _ _ Hg I9) as B9.
    unfold gray_index, pos in *. rewrite Z.add_0_r in X0. rewrite X0. lia. }
  match goal with |- context [for_range 0 _ ?f d] => 
    destruct (win_loop o (nvalue_v N K g) (fun y x' y' => y' = y /\ 0 <= x' < g_width g) 0 (k_offset K) f d L) 
      as (d1 & Ed1 & L1 & W1) end.
  { intros y d0 Hy L0. destruct (ROW y ltac:(lia)) as (R1 & R2 & R3). rewrite R1.
    set (p := g_offset g + y * g_stride g) in *. assert (Ep : p = g_offset g + y * g_stride g) by reflexivity.
    clearbody p.
    rewrite (u32_id (k_offset K - y)) by lia. rewrite (u32_id (p + g_width g)) by lia.
    destruct (HV 0 y ltac:(split; lia)) as (r0 & Fr0). apply averaged_Some in Fr0 as (t0 & w0 & Ws0 & Os0).
    destruct (partial_ok A K (fun i => pixel g 0 (y - k_offset K + i)) (fun j => bget (g_data g) (pos g 0 (y - k_offset K + j)))
       (k_offset K - y) (k_width K) t0 w0) as [PW _]; auto; try lia.
    { intros j Hj. apply px_none. unfold inside. lia. }
    { intros j Hj. destruct (px_some 0 (y - k_offset K + j)) as (v & V1 & V2 & V3); [split; lia|]. eauto. }
    rewrite PW. cbn [bind].
    replace (for_range p) with (for_range (S := list E) (0 + p)) by (f_equal; lia).
    replace (p + g_width g) with (g_width g + p) by lia. rewrite for_range_shift.
    match goal with |- context [for_range 0 _ ?f d0] =>
      destruct (win_row o (nvalue_v N K g) Ho y 0 (g_width g) f d0 L0) as (d1 & Ed & L' & W); eauto end.
    intros x d1 Hx L1. assert (Hi : inside g x y) by (split; lia). split; [split; lia|].
    destruct (HV x y Hi) as (r & Fr). exists r; split; auto.
    apply averaged_Some in Fr as (t & w & Ws & Os).
    match goal with |- context [partial_total A K _ _ ?pp] => 
      destruct (partial_ok A K (fun i => pixel g x (y - k_offset K + i)) pp (k_offset K - y) (k_width K) t w) as [PW' PT] end; 
      auto; try lia.
    { intros j Hj. apply px_none. unfold inside. lia. }
    { intros j Hj. destruct (px_some x (y - k_offset K + j)) as (v & V1 & V2 & V3); [split; lia|]. exists v; split; auto.
      rewrite <- V3. f_equal. rewrite u32_add_l. 
      assert (I2 : inside g x (y - k_offset K + j)) by (split; lia). rewrite <- (wf_index _ _ _ Hg I2). unfold gray_index.
      f_equal. rewrite Ep. lia. }
    rewrite PT. cbn [bind]. assert (w = w0) by congruence. subst w0. rewrite Os. cbn [bind]. f_equal.
    replace (x + p - p) with x by lia. apply DST. split; lia. }
  rewrite Ed1. cbn [bind].
  match goal with |- context [for_range _ _ ?f d1] => 
    destruct (win_loop o (nvalue_v N K g) (fun y x' y' => y' = y /\ 0 <= x' < g_width g) 
      (g_height g - (k_width K - k_offset K - 1)) (g_height g) f d1 L1) 
      as (d2 & Ed2 & L2 & W2) end.
  { intros y d0 Hy L0. destruct (ROW y ltac:(lia)) as (R1 & R2 & R3). rewrite R1.
    set (p := g_offset g + y * g_stride g) in *. assert (Ep : p = g_offset g + y * g_stride g) by reflexivity.
    clearbody p.
    rewrite (u32_id (g_height g - (y - k_offset K))) by lia. rewrite (u32_id (p + g_width g)) by lia.
    destruct (HV 0 y ltac:(split; lia)) as (r0 & Fr0). apply averaged_Some in Fr0 as (t0 & w0 & Ws0 & Os0).
    destruct (partial_ok A K (fun i => pixel g 0 (y - k_offset K + i)) (fun j => bget (g_data g) (pos g 0 (y - k_offset K + j)))
       0 (g_height g - (y - k_offset K)) t0 w0) as [PW _]; auto; try lia.
    { intros j Hj. apply px_none. unfold inside. lia. }
    { intros j Hj. destruct (px_some 0 (y - k_offset K + j)) as (v & V1 & V2 & V3); [split; lia|]. eauto. }
    rewrite PW. cbn [bind].
    replace (for_range p) with (for_range (S := list E) (0 + p)) by (f_equal; lia).
    replace (p + g_width g) with (g_width g + p) by lia. rewrite for_range_shift.
    match goal with |- context [for_range 0 _ ?f d0] =>
      destruct (win_row o (nvalue_v N K g) Ho y 0 (g_width g) f d0 L0) as (d3 & Ed & L' & W); eauto end.
    intros x d3 Hx L3. assert (Hi : inside g x y) by (split; lia). split; [split; lia|].
    destruct (HV x y Hi) as (r & Fr). exists r; split; auto.
    apply averaged_Some in Fr as (t & w & Ws & Os).
    match goal with |- context [partial_total A K _ _ ?pp] => 
      destruct (partial_ok A K (fun i => pixel g x (y - k_offset K + i)) pp 0 (g_height g - (y - k_offset K)) t w) as [PW' PT] end; 
      auto; try lia.
    { intros j Hj. apply px_none. unfold inside. lia. }
    { intros j Hj. destruct (px_some x (y - k_offset K + j)) as (v & V1 & V2 & V3); [split; lia|]. exists v; split; auto.
      rewrite <- V3. f_equal. rewrite u32_add_l. 
      assert (I2 : inside g x (y - k_offset K + j)) by (split; lia). rewrite <- (wf_index _ _ _ Hg I2). unfold gray_index.
      f_equal. rewrite Ep. lia. }
    rewrite PT. cbn [bind]. assert (w = w0) by congruence. subst w0. rewrite Os. cbn [bind]. f_equal.
    replace (x + p - p) with x by lia. apply DST. split; lia. }
  exists d2. split; auto. split; auto. eapply win_iff; [|eapply win_seq; [exact W1|exact W2]].
  intros x y [I1 I2]. split.
  - intros [(i & Hi & -> & Hx)|(i & Hi & -> & Hx)]; lia.
  - intros [Hy|Hy]; [left|right]; exists y; lia.
Qed.

Lemma kernel_sum_ok w : wsum A (a_zero A) (k_data K) = Some w -> kernel_sum A K = Ok w.
Proof.
  intros H. unfold kernel_sum. rewrite <- (Z.add_0_l (zlen (k_data K))) at 1. apply wsum_from; auto.
  intros j c Hj. rewrite Z.add_0_l. now apply bget_Ok.
Qed.

(** At an inner pixel the whole kernel is over the image. *)
Lemma inner_value_h x y r : inside g x y -> k_offset K <= x < g_width g - (k_width K - k_offset K - 1) ->
  nvalue_h N K g x y = Some r -> exists t w, wsum A (a_zero A) (k_data K) = Some w /\ na_norm N t w = Ok r /\
    weighted A (a_zero A) (k_data K) (fun i => extended BExtend g (x - k_offset K + i) y) 0 = Some t.
Proof.
  intros [I1 I2] Hx Fr. pose proof HK as (K1 & K2 & K3). apply averaged_Some in Fr as (t & w & Ws & Os).
  apply covered_split in Ws as [Wt Ww].
  - exists t, w. split; auto. split; auto. rewrite <- Wt. apply weighted_ext. intros j Hj. apply extended_inside. split; lia.
  - intros j Hj. apply pixel_exists; auto. split; lia.
Qed.
Lemma inner_value_v x y r : inside g x y -> k_offset K <= y < g_height g - (k_width K - k_offset K - 1) ->
  nvalue_v N K g x y = Some r -> exists t w, wsum A (a_zero A) (k_data K) = Some w /\ na_norm N t w = Ok r /\
    weighted A (a_zero A) (k_data K) (fun i => extended BExtend g x (y - k_offset K + i)) 0 = Some t.
Proof.
  intros [I1 I2] Hx Fr. pose proof HK as (K1 & K2 & K3). apply averaged_Some in Fr as (t & w & Ws & Os).
  apply covered_split in Ws as [Wt Ww].
  - exists t, w. split; auto. split; auto. rewrite <- Wt. apply weighted_ext. intros j Hj. apply extended_inside. split; lia.
  - intros j Hj. apply pixel_exists; auto. split; lia.
Qed.
End N1.

Lemma win_ext {A} (o : gray A) F F' (P : Z -> Z -> Prop) d d' :
  (forall x y, inside o x y -> P x y -> F x y = F' x y) -> writes d (win o F P) d' -> writes d (win o F' P) d'.
Proof.
  intros H. apply writes_iff. intros j v; split; intros (x & y & Hi & Hp & Ej & Ev); exists x, y;
    (split; [auto|split; [auto|split; [auto|]]]); [rewrite <- H|rewrite H]; auto.
Qed.

Lemma extend_from {E} (g : gray E) (X Y : Z -> Z) : from_image g (fun i => extended BExtend g (X i) (Y i)).
Proof. intros j v H. cbn [extended] in H. eauto. Qed.
Lemma narith_unit {E S} (N : narith E S) K g : narith_ok N -> unit_ok N K g.
Proof. intros H px t w _ _. apply H. Qed.

Section Top.
Context {E S : Type}.
Variable N : narith E S.
Variable K : kernel S.
Variable g o : gray E.
Hypothesis HN : unit_ok N K g.
Hypothesis HK : kernel1_ok K.
Hypothesis Hg : wf g.
Hypothesis Ho : wf o.
Hypothesis Ew : g_width o = g_width g.
Hypothesis Eh : g_height o = g_height g.
Hypothesis Sw : 0 < g_width g <= 1073741824.
Hypothesis Sh : 0 < g_height g <= 1073741824.
Hypothesis HZ : na_float N = true -> zlen (g_data g) < 2147483648.

Lemma same_shape : checkSameShape g o = Ok tt.
Proof. unfold checkSameShape. rewrite Ew, Eh. now rewrite !Z.eqb_refl. Qed.

Lemma normalized_h_ok :
  (forall x y, inside g x y -> exists r, nvalue_h N K g x y = Some r) ->
  exists o', normalized_h N K g o = Ok o' /\ holds g o o' (nvalue_h N K g).
Proof.
  intros HV. unfold normalized_h. rewrite same_shape. cbn [bind].
  pose proof HK as (K1 & K2 & K3).
  destruct (g_width g <=? k_width K) eqn:C.
  - destruct (nnaive_h_ok N K g o HK Hg Ho Ew Eh (proj2 Sw) (g_data o)) as (d & Ed & L & W); auto.
    rewrite Ed. eexists; split; [reflexivity|]. now apply finish.
  - (* the sum of the kernel is defined because the inner pixel (offset,0) exists *)
    destruct (HV (k_offset K) 0 ltac:(split; lia)) as (r0 & F0).
    destruct (inner_value_h N K g HK Hg (k_offset K) 0 r0) as (t0 & w & Ww & _ & _); auto; [split; lia|lia|].
    rewrite (kernel_sum_ok N K w Ww). cbn [bind].
    assert (V : forall x y, inside g x y -> k_offset K <= x < g_width g - (k_width K - k_offset K - 1) -> exists r,
       nvalue_h N K g x y = Some r /\
       value_h (with_out (na_arith N) (fun s => na_norm N s w)) K BExtend g x y = Some r /\
       (na_float N = true -> na_one N w = true -> value_h (na_arith N) K BExtend g x y = Some r)).
    { intros x y Hi Hx. destruct (HV x y Hi) as (r & Fr). exists r; split; auto.
      destruct (inner_value_h N K g HK Hg x y r Hi Hx Fr) as (t & w' & Ww' & On & Wt). assert (w' = w) by congruence. subst w'.
      assert (X : forall R (f : S -> outcome R) s ks px i, weighted (with_out (na_arith N) f) s ks px i = weighted (na_arith N) s ks px i).
      { intros R0 f s ks; revert s; induction ks; intros; cbn [weighted]; auto. destruct (px i); auto.
        cbn [with_out a_prod a_add]. destruct (a_prod (na_arith N) a e); auto. destruct (a_add (na_arith N) s a0); auto. }
      split.
      - unfold value_h, filtered. rewrite X. cbn [with_out a_zero a_out]. rewrite Wt, On. reflexivity.
      - intros Fl On1. unfold value_h, filtered. rewrite Wt. rewrite <- (HN _ t w (extend_from g _ _) Wt Fl On1). now rewrite On. }
    assert (IN : exists d, (if na_float N
                        then if na_one N w then inner_h_ptr (na_arith N) K g o (g_data o)
                             else inner_h_idx (with_out (na_arith N) (fun s => na_norm N s w)) K g o (g_data o)
                        else inner_h_ptr (with_out (na_arith N) (fun s => na_norm N s w)) K g o (g_data o)) = Ok d /\
        zlen d = zlen (g_data o) /\ writes (g_data o) (win o (nvalue_h N K g)
          (fun x y => k_offset K <= x < g_width g - (k_width K - k_offset K - 1))) d).
    { destruct (na_float N) eqn:Fl; [destruct (na_one N w) eqn:On|].
      - destruct (inner_h_ptr_ok (na_arith N) K BExtend g o HK Hg Ho Ew Eh (proj2 Sw) (g_data o)) as (d & Ed & L & W); auto; try lia.
        { intros x y Hi Hx. destruct (V x y Hi Hx) as (r & _ & _ & H); eauto. }
        exists d. split; auto. split; auto. eapply win_ext; [|exact W]. intros x y Hi Hx.
        destruct (V x y) as (r & H1 & _ & H); auto; [destruct Hi; split; lia|]. rewrite H1. now apply H.
      - destruct (inner_h_idx_ok (with_out (na_arith N) (fun s => na_norm N s w)) K BExtend g o HK Hg Ho Ew Eh (g_data o)) as (d & Ed & L & W); auto; try lia.
        { intros x y Hi Hx. destruct (V x y Hi Hx) as (r & _ & H & _); eauto. }
        exists d. split; auto. split; auto. eapply win_ext; [|exact W]. intros x y Hi Hx.
        destruct (V x y) as (r & H1 & H & _); auto; [destruct Hi; split; lia|]. congruence.
      - destruct (inner_h_ptr_ok (with_out (na_arith N) (fun s => na_norm N s w)) K BExtend g o HK Hg Ho Ew Eh (proj2 Sw) (g_data o)) as (d & Ed & L & W); auto; try lia.
        { intros x y Hi Hx. destruct (V x y Hi Hx) as (r & _ & H & _); eauto. }
        exists d. split; auto. split; auto. eapply win_ext; [|exact W]. intros x y Hi Hx.
        destruct (V x y) as (r & H1 & H & _); auto; [destruct Hi; split; lia|]. congruence. }
    destruct IN as (d & Ed & L & W). rewrite Ed. cbn [bind].
    destruct (just_h_ok N K g o HK Hg Ho Ew Eh (proj2 Sw) d) as (d' & Ed' & L' & W'); auto; try lia.
    rewrite Ed'. eexists; split; [reflexivity|]. apply finish; auto.
    eapply win_iff; [|eapply win_seq; [exact W|exact W']]. intros x y _; cbn beta; split; auto; intros _; lia.
Qed.

Lemma normalized_v_ok :
  (g_height g <= k_width K -> forall c, In c (k_data K) -> na_trunc N c = Ok c) ->
  (forall x y, inside g x y -> exists r, nvalue_v N K g x y = Some r) ->
  exists o', normalized_v N K g o = Ok o' /\ holds g o o' (nvalue_v N K g).
Proof.
  intros HT HV. unfold normalized_v. rewrite same_shape. cbn [bind].
  pose proof HK as (K1 & K2 & K3).
  destruct (g_height g <=? k_width K) eqn:C.
  - destruct (nnaive_v_ok N K g o HK Hg Ho Ew Eh (proj2 Sh) (g_data o)) as (d & Ed & L & W); auto.
    { apply HT. lia. }
    rewrite Ed. eexists; split; [reflexivity|]. now apply finish.
  - destruct (HV 0 (k_offset K) ltac:(split; lia)) as (r0 & F0).
    destruct (inner_value_v N K g HK Hg 0 (k_offset K) r0) as (t0 & w & Ww & _ & _); auto; [split; lia|lia|].
    rewrite (kernel_sum_ok N K w Ww). cbn [bind].
    assert (V : forall x y, inside g x y -> k_offset K <= y < g_height g - (k_width K - k_offset K - 1) -> exists r,
       nvalue_v N K g x y = Some r /\
       value_v (with_out (na_arith N) (fun s => na_norm N s w)) K BExtend g x y = Some r /\
       (na_float N = true -> na_one N w = true -> value_v (na_arith N) K BExtend g x y = Some r)).
    { intros x y Hi Hx. destruct (HV x y Hi) as (r & Fr). exists r; split; auto.
      destruct (inner_value_v N K g HK Hg x y r Hi Hx Fr) as (t & w' & Ww' & On & Wt). assert (w' = w) by congruence. subst w'.
      assert (X : forall R (f : S -> outcome R) s ks px i, weighted (with_out (na_arith N) f) s ks px i = weighted (na_arith N) s ks px i).
      { intros R0 f s ks; revert s; induction ks; intros; cbn [weighted]; auto. destruct (px i); auto.
        cbn [with_out a_prod a_add]. destruct (a_prod (na_arith N) a e); auto. destruct (a_add (na_arith N) s a0); auto. }
      split.
      - unfold value_v, filtered. rewrite X. cbn [with_out a_zero a_out]. rewrite Wt, On. reflexivity.
      - intros Fl On1. unfold value_v, filtered. rewrite Wt. rewrite <- (HN _ t w (extend_from g _ _) Wt Fl On1). now rewrite On. }
    assert (IN : exists d, (if na_float N
                        then if na_one N w then inner_v_ptr (na_arith N) K g o (g_data o)
                             else inner_v_idx (with_out (na_arith N) (fun s => na_norm N s w)) K g o (g_data o)
                        else inner_v_ptr (with_out (na_arith N) (fun s => na_norm N s w)) K g o (g_data o)) = Ok d /\
        zlen d = zlen (g_data o) /\ writes (g_data o) (win o (nvalue_v N K g)
          (fun x y => k_offset K <= y < g_height g - (k_width K - k_offset K - 1))) d).
    { destruct (na_float N) eqn:Fl; [destruct (na_one N w) eqn:On|].
      - destruct (inner_v_ptr_ok (na_arith N) K BExtend g o HK Hg Ho Ew Eh (proj2 Sh) (g_data o)) as (d & Ed & L & W); auto; try lia.
        { intros x y Hi Hx. destruct (V x y Hi Hx) as (r & _ & _ & H); eauto. }
        exists d. split; auto. split; auto. eapply win_ext; [|exact W]. intros x y Hi Hx.
        destruct (V x y) as (r & H1 & _ & H); auto; [destruct Hi; split; lia|]. rewrite H1. now apply H.
      - destruct (inner_v_idx_ok (with_out (na_arith N) (fun s => na_norm N s w)) K BExtend g o HK Hg Ho Ew Eh (proj2 Sw) (proj2 Sh) (g_data o)) as (d & Ed & L & W); auto; try lia.
        { intros x y Hi Hx. destruct (V x y Hi Hx) as (r & _ & H & _); eauto. }
        exists d. split; auto. split; auto. eapply win_ext; [|exact W]. intros x y Hi Hx.
        destruct (V x y) as (r & H1 & H & _); auto; [destruct Hi; split; lia|]. congruence.
      - destruct (inner_v_ptr_ok (with_out (na_arith N) (fun s => na_norm N s w)) K BExtend g o HK Hg Ho Ew Eh (proj2 Sh) (g_data o)) as (d & Ed & L & W); auto; try lia.
        { intros x y Hi Hx. destruct (V x y Hi Hx) as (r & _ & H & _); eauto. }
        exists d. split; auto. split; auto. eapply win_ext; [|exact W]. intros x y Hi Hx.
        destruct (V x y) as (r & H1 & H & _); auto; [destruct Hi; split; lia|]. congruence. }
    destruct IN as (d & Ed & L & W). rewrite Ed. cbn [bind].
    destruct (just_v_ok N K g o HK Hg Ho Ew Eh (proj2 Sh) d) as (d' & Ed' & L' & W'); auto; try lia.
    rewrite Ed'. eexists; split; [reflexivity|]. apply finish; auto.
    eapply win_iff; [|eapply win_seq; [exact W|exact W']]. intros x y _; cbn beta; split; auto; intros _; lia.
Qed.
End Top.

Lemma normalized_h_all {E S} (N : narith E S) (K : kernel S) (g out : gray E) :
  narith_ok N -> kernel1_ok K -> wf g -> wf out -> g_width out = g_width g -> g_height out = g_height g ->
  0 < g_width g <= 1073741824 -> 0 < g_height g <= 1073741824 ->
  (na_float N = true -> zlen (g_data g) < 2147483648) ->
  (forall x y, inside g x y -> exists r, nvalue_h N K g x y = Some r) ->
  exists out', normalized_h N K g out = Ok out' /\ holds g out out' (nvalue_h N K g).
Proof. intros H. apply normalized_h_ok. now apply narith_unit. Qed.
Lemma normalized_v_all {E S} (N : narith E S) (K : kernel S) (g out : gray E) :
  narith_ok N -> kernel1_ok K -> wf g -> wf out -> g_width out = g_width g -> g_height out = g_height g ->
  0 < g_width g <= 1073741824 -> 0 < g_height g <= 1073741824 ->
  (na_float N = true -> zlen (g_data g) < 2147483648) ->
  (g_height g <= k_width K -> forall c, In c (k_data K) -> na_trunc N c = Ok c) ->
  (forall x y, inside g x y -> exists r, nvalue_v N K g x y = Some r) ->
  exists out', normalized_v N K g out = Ok out' /\ holds g out out' (nvalue_v N K g).
Proof. intros H. apply normalized_v_ok. now apply narith_unit. Qed.

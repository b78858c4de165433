(** Two-dimensional convolution and the entry points of [ConvolveImage]. *)
From Verif Require Import BaseFacts M_Image S_Image L_Image M_Border S_Border L_Border M_Convolve S_Convolve L_Window
  L_Convolve.

Section C2.
Context {E S R : Type}.
Variable A : arith E S R.
Variable K : kernel S.
Variable b : border E.
Variable g : gray E.
Variable o : gray R.
Hypothesis HK : kernel2_ok K.
Hypothesis Hg : wf g.
Hypothesis Ho : wf o.
Hypothesis Ew : g_width o = g_width g.
Hypothesis Eh : g_height o = g_height g.
Hypothesis Sw : g_width g <= 1073741824.
Hypothesis Sh : g_height g <= 1073741824.

Let px x y i := extended b g (x - k_offset K + i mod k_width K) (y - k_offset K + i / k_width K).

Lemma px_at x y i j : 0 <= j < k_width K -> px x y (i * k_width K + j) = extended b g (x - k_offset K + j) (y - k_offset K + i).
Proof.
  intros Hj. unfold px. rewrite (Z.add_comm (i * _)), Z_mod_plus_full, Z_div_plus_full by lia.
  rewrite Z.mod_small, Z.div_small by lia. reflexivity.
Qed.

(** Reads through the border near (x,y). *)
Lemma total2_ok coef pix x y r :
  inside g x y -> fits b (g_width g) K -> fits b (g_height g) K ->
  (forall i j c, 0 <= i < k_width K -> 0 <= j < k_width K ->
      znth (k_data K) (i * k_width K + j) = Some c -> coef i j = Ok c) ->
  (forall i j v, 0 <= i < k_width K -> 0 <= j < k_width K ->
      extended b g (x - k_offset K + j) (y - k_offset K + i) = Some v -> pix i j = Ok v) ->
  value_2 A K b g x y = Some r ->
  exists s, acc2 A (k_width K) coef pix = Ok s /\ a_out A s = Ok r.
Proof.
  intros Hi F1 F2 Hc Hp Fr. destruct HK as (K1 & K2 & K3).
  apply filtered_Some in Fr as (s & Ws & Os). exists s; split; auto.
  apply (acc2_ok A (k_data K) (k_width K) (px x y)); auto; try lia.
  intros i j v I1 I2 Hv. rewrite px_at in Hv by auto. auto.
Qed.
Lemma get2_ok x y i j v : inside g x y -> fits b (g_width g) K -> fits b (g_height g) K ->
  0 <= i < k_width K -> 0 <= j < k_width K ->
  extended b g (x - k_offset K + j) (y - k_offset K + i) = Some v ->
  border_get b g (x - k_offset K + j) (y - k_offset K + i) = Ok v.
Proof.
  intros [I1 I2] F1 F2 Hi Hj Ex. destruct HK as (K1 & K2 & K3).
  apply border_get_ok; auto; try lia; try (red; lia); now apply fits_near.
Qed.
Lemma border_total2_ok x y r : inside g x y -> fits b (g_width g) K -> fits b (g_height g) K ->
  value_2 A K b g x y = Some r ->
  exists s, border_total2 A K b g (k_offset K) (k_width K) x y = Ok s /\ a_out A s = Ok r.
Proof.
  intros Hi F1 F2 Fr. unfold border_total2. apply (total2_ok _ _ x y r); auto.
  - intros; now apply k_raw_ok.
  - intros i j v Hi' Hj Hv. destruct Hi as [I1 I2]. destruct HK as (K1 & K2 & K3).
    replace (x + (j - k_offset K)) with (x - k_offset K + j) by lia.
    replace (y + (i - k_offset K)) with (y - k_offset K + i) by lia.
    rewrite !s32_u32 by lia. apply get2_ok; auto. split; auto.
Qed.

Lemma naive_2_ok d : zlen d = zlen (g_data o) -> fits b (g_width g) K -> fits b (g_height g) K ->
  (forall x y, inside g x y -> exists r, value_2 A K b g x y = Some r) ->
  exists d', naive_2 A K b g o d = Ok d' /\ zlen d' = zlen (g_data o) /\
             writes d (win o (value_2 A K b g) (fun _ _ => True)) d'.
Proof.
  intros L F1 F2 HV. unfold naive_2. pose proof HK as (K1 & K2 & K3).
  match goal with |- context [for_range _ _ ?f d] => 
    destruct (win_loop o (value_2 A K b g) (fun y x' y' => y' = y /\ 0 <= x' < g_width g) 0 (g_height g) f d L) 
      as (d' & Ed & L' & W) end.
  - intros y d0 Hy L0.
    match goal with |- context [for_range _ _ ?f d0] =>
      destruct (win_row o (value_2 A K b g) Ho y 0 (g_width g) f d0 L0) as (d' & Ed & L' & W); eauto end.
    intros x d1 Hx L1. assert (Hi : inside g x y) by (split; lia). split; [split; lia|].
    destruct (HV x y Hi) as (r & Fr). exists r; split; auto.
    match goal with |- context [acc2 A _ ?c ?p] => destruct (total2_ok c p x y r) as (s & Es & Os); auto end.
    + intros; now apply k2_at_ok.
    + intros i j v I1 I2 Hv. rewrite !s32_u32 by lia. now apply get2_ok.
    + rewrite Es. cbn. rewrite Os. cbn. apply put_at_ok; auto. split; lia.
  - exists d'. split; auto. split; auto. eapply win_iff; [|exact W]. intros x y [I1 I2]; split; auto.
    intros _. exists y. lia.
Qed.

Lemma inner_2_ok d : zlen d = zlen (g_data o) -> k_width K <= g_width g -> k_width K <= g_height g ->
  (forall x y, inside g x y -> k_offset K <= x < g_width g - (k_width K - k_offset K - 1) /\
     k_offset K <= y < g_height g - (k_width K - k_offset K - 1) -> exists r, value_2 A K b g x y = Some r) ->
  exists d', inner_2 A K g o d = Ok d' /\ zlen d' = zlen (g_data o) /\
    writes d (win o (value_2 A K b g)
      (fun x y => k_offset K <= x < g_width g - (k_width K - k_offset K - 1) /\
                  k_offset K <= y < g_height g - (k_width K - k_offset K - 1))) d'.
Proof.
  intros L N1 N2 HV. unfold inner_2. pose proof HK as (K1 & K2 & K3). cbn zeta.
  rewrite (u32_id (k_width K - k_offset K - 1)) by lia.
  rewrite (u32_id (g_width g - _)), (u32_id (g_height g - _)) by lia.
  assert (F1 : fits b (g_width g) K) by (apply narrow_fits; lia).
  assert (F2 : fits b (g_height g) K) by (apply narrow_fits; lia).
  match goal with |- context [for_range _ _ ?f d] => 
    destruct (win_loop o (value_2 A K b g) (fun y x' y' => y' = y /\ 
       k_offset K <= x' < g_width g - (k_width K - k_offset K - 1))
       (k_offset K) (g_height g - (k_width K - k_offset K - 1)) f d L) 
      as (d' & Ed & L' & W) end.
  - intros y d0 Hy L0.
    match goal with |- context [for_range _ _ ?f d0] =>
      destruct (win_row o (value_2 A K b g) Ho y (k_offset K) (g_width g - (k_width K - k_offset K - 1)) f d0 L0) 
        as (d' & Ed & L' & W); eauto end.
    intros x d1 Hx L1. assert (Hi : inside g x y) by (split; lia). split; [split; lia|].
    destruct (HV x y Hi (conj Hx Hy)) as (r & Fr). exists r; split; auto.
    match goal with |- context [acc2 A _ ?c ?p] => destruct (total2_ok c p x y r) as (s & Es & Os); auto end.
    + intros; now apply k_raw_ok.
    + intros i j v I1 I2 Hv. apply (read_in b g (x - k_offset K + j) (y - k_offset K + i)); auto; [split; lia|].
      assert (I3 : inside g (x - k_offset K) (y - k_offset K + i)) by (split; lia).
      pose proof (wf_index _ _ _ Hg I3) as X. unfold gray_index, pos in *.
      rewrite (u32_id (y + i - k_offset K)) by lia. 
      replace (y + i - k_offset K) with (y - k_offset K + i) by lia. rewrite Z.add_sub_assoc in X. rewrite X. lia.
    + rewrite Es. cbn. rewrite Os. cbn. f_equal. rewrite u32_add_l. rewrite <- wf_index by (auto; split; lia).
      unfold gray_index. f_equal. lia.
  - exists d'. split; auto. split; auto. eapply win_iff; [|exact W]. intros x y [I1 I2]; split.
    + intros (i & Hi & -> & Hx); auto.
    + intros Hx. exists y. lia.
Qed.

Lemma border_2_ok d : zlen d = zlen (g_data o) -> k_width K < g_width g -> k_width K < g_height g ->
  (forall x y, inside g x y -> exists r, value_2 A K b g x y = Some r) ->
  exists d', border_2 A K b g o d = Ok d' /\ zlen d' = zlen (g_data o) /\
    writes d (win o (value_2 A K b g)
      (fun x y => (x < k_offset K \/ g_width g - (k_width K - k_offset K - 1) <= x) \/
                  (k_offset K <= x < g_width g - (k_width K - k_offset K - 1) /\
                    (y < k_offset K \/ g_height g - (k_width K - k_offset K - 1) <= y)))) d'.
Proof.
  intros L N1 N2 HV. unfold border_2. pose proof HK as (K1 & K2 & K3). cbn zeta.
  pose proof (s32_id (k_offset K) ltac:(lia)) as SO. rewrite !SO. rewrite s32_u32 by lia.
  replace (k_offset K + (k_width K - k_offset K - 1) + 1) with (k_width K) by lia.
  assert (F1 : fits b (g_width g) K) by (apply narrow_fits; lia).
  assert (F2 : fits b (g_height g) K) by (apply narrow_fits; lia).
  rewrite (u32_id (g_width o - _)), (u32_id (g_height o - _)) by lia.
  match goal with |- context [for_range 0 (g_height o) ?f d] => 
    destruct (win_loop o (value_2 A K b g) (fun y x' y' => y' = y /\ 
       (x' < k_offset K \/ g_width g - (k_width K - k_offset K - 1) <= x')) 0 (g_height o) f d L) 
      as (d1 & Ed1 & L1 & W1) end.
  - intros y d0 Hy L0.
    match goal with |- context [for_range 0 _ ?f d0] =>
      destruct (win_row o (value_2 A K b g) Ho y 0 (k_offset K) f d0 L0) as (d1 & Ed & L' & W) end.
    { intros x d1 Hx L1. assert (Hi : inside g x y) by (split; lia). split; [split; lia|].
      destruct (HV x y Hi) as (r & Fr). exists r; split; auto.
      destruct (border_total2_ok x y r) as (s & Es & Os); auto. rewrite Es. cbn. rewrite Os. cbn.
      f_equal. rewrite u32_add_l. rewrite <- wf_index by (auto; split; lia). reflexivity. }
    rewrite Ed. cbn [bind].
    match goal with |- context [for_range _ _ ?f d1] =>
      destruct (win_row o (value_2 A K b g) Ho y (g_width o - (k_width K - k_offset K - 1)) (g_width o) f d1 L') 
        as (d2 & Ed2 & L2 & W2) end.
    { intros x d2 Hx L2. assert (Hi : inside g x y) by (split; lia). split; [split; lia|].
      destruct (HV x y Hi) as (r & Fr). exists r; split; auto.
      destruct (border_total2_ok x y r) as (s & Es & Os); auto. rewrite Es. cbn. rewrite Os. cbn.
      f_equal. rewrite u32_add_l. rewrite <- wf_index by (auto; split; lia). unfold gray_index. f_equal; lia. }
    exists d2; split; auto. eapply win_iff; [|eapply win_seq; [exact W|exact W2]].
    intros x' y' [I3 I4]. lia.
  - rewrite Ed1. cbn [bind].
    match goal with |- context [for_range _ _ ?f d1] => 
      destruct (win_loop o (value_2 A K b g) (fun x x' y' => x' = x /\ 
         (y' < k_offset K \/ g_height g - (k_width K - k_offset K - 1) <= y')) 
         (k_offset K) (g_width o - (k_width K - k_offset K - 1)) f d1 L1) 
        as (d2 & Ed2 & L2 & W2) end.
    + intros x d0 Hx L0.
      match goal with |- context [for_range 0 _ ?f d0] =>
        destruct (win_col o (value_2 A K b g) Ho x 0 (k_offset K) f d0 L0) as (d3 & Ed & L' & W) end.
      { intros y d3 Hy L3. assert (Hi : inside g x y) by (split; lia). split; [split; lia|].
        destruct (HV x y Hi) as (r & Fr). exists r; split; auto.
        destruct (border_total2_ok x y r) as (s & Es & Os); auto. rewrite Es. cbn. rewrite Os. cbn.
        f_equal. rewrite u32_add_l. rewrite <- wf_index by (auto; split; lia). unfold gray_index. f_equal; lia. }
      rewrite Ed. cbn [bind].
      match goal with |- context [for_range _ _ ?f d3] =>
        destruct (win_col o (value_2 A K b g) Ho x (g_height o - (k_width K - k_offset K - 1)) (g_height o) f d3 L') 
          as (d4 & Ed4 & L4 & W4) end.
      { intros y d4 Hy L4. assert (Hi : inside g x y) by (split; lia). split; [split; lia|].
        destruct (HV x y Hi) as (r & Fr). exists r; split; auto.
        destruct (border_total2_ok x y r) as (s & Es & Os); auto. rewrite Es. cbn. rewrite Os. cbn.
        f_equal. rewrite u32_add_l. rewrite <- wf_index by (auto; split; lia). unfold gray_index. f_equal; lia. }
      exists d4; split; auto. eapply win_iff; [|eapply win_seq; [exact W|exact W4]].
      intros x' y' [I3 I4]. lia.
    + exists d2; split; auto. split; auto. eapply win_iff; [|eapply win_seq; [exact W1|exact W2]].
      intros x y [I3 I4]. split.
      * intros [(i & Hi & -> & Hx)|(i & Hi & -> & Hx)]; lia.
      * intros [Hx|[Hx Hy]]; [left; exists y; lia|right; exists x; lia].
Qed.
End C2.

(** ** Entry points *)
Section Top.
Context {E S R : Type}.
Variable A : arith E S R.
Variable zero : R.
Variable K : kernel S.
Variable b : border E.
Variable g : gray E.
Variable out : gray R.
Hypothesis Hg : wf g.
Hypothesis Hout : wf out.
Hypothesis Sw : g_width g <= 1073741824.
Hypothesis Sh : g_height g <= 1073741824.

Lemma reshape_for : g_sub out = false \/ (g_width out = g_width g /\ g_height out = g_height g) ->
  exists o, gray_reshape zero out (g_width g) (g_height g) = Ok o /\ wf o /\
            g_width o = g_width g /\ g_height o = g_height g.
Proof.
  intros H. pose proof (wf_small g Hg) as Sm. unfold small in Sm.
  assert (X : exists o, gray_reshape zero out (g_width g) (g_height g) = Ok o).
  { unfold gray_reshape. destruct (_ && _) eqn:B; eauto. destruct (g_sub out) eqn:Su; eauto.
    destruct H as [H|[H1 H2]]; [congruence|]. exfalso. lia. }
  destruct X as (o & Eo). exists o. split; auto.
  assert (wf o) by (eapply gray_reshape_wf; eauto; unfold wf in Hg; lia). split; auto.
  unfold gray_reshape in Eo. destruct (_ && _) eqn:B.
  - injection Eo as <-. lia.
  - destruct (g_sub out); [discriminate|]. injection Eo as <-. auto.
Qed.
Lemma reshape_throws : g_sub out = true -> g_width out <> g_width g \/ g_height out <> g_height g ->
  gray_reshape zero out (g_width g) (g_height g) = Throw.
Proof.
  intros H1 H2. unfold gray_reshape. replace (_ && _) with false by lia. now rewrite H1.
Qed.

Lemma finish (o : gray R) d (F : Z -> Z -> option R) : wf o -> g_width o = g_width g -> g_height o = g_height g ->
  (forall x y, inside g x y -> exists r, F x y = Some r) ->
  zlen d = zlen (g_data o) -> writes (g_data o) (win o F (fun _ _ => True)) d ->
  holds g o (with_data o d) F.
Proof.
  intros Ho Ew Eh HV L W. split; [exact Ew|]. split; [exact Eh|]. split; [now apply with_data_layout|]. split.
  - intros x y Hi. eapply win_pixel; eauto; [destruct Hi; split; lia|exact I].
  - intros j Hj. eapply win_frame; eauto.
Qed.

Lemma convolve_h_ok : kernel1_ok K -> fits b (g_width g) K ->
  g_sub out = false \/ (g_width out = g_width g /\ g_height out = g_height g) ->
  (forall x y, inside g x y -> exists r, value_h A K b g x y = Some r) ->
  exists o out', gray_reshape zero out (g_width g) (g_height g) = Ok o /\
    convolve_h A zero K b g out = Ok out' /\ holds g o out' (value_h A K b g).
Proof.
  intros HK HF Hs HV. destruct (reshape_for Hs) as (o & Eo & Ho & Ew & Eh). exists o.
  unfold convolve_h. rewrite Eo. cbn [bind]. destruct (g_width o <=? k_width K) eqn:C.
  - destruct (naive_h_ok A K b g o HK Hg Ho Ew Eh Sw Sh (g_data o)) as (d & Ed & L & W); auto.
    rewrite Ed. eexists; split; [reflexivity|]. split; [reflexivity|]. now apply finish.
  - destruct (inner_h_ptr_ok A K b g o HK Hg Ho Ew Eh Sw (g_data o)) as (d & Ed & L & W); auto; try lia.
    rewrite Ed. cbn [bind].
    destruct (border_h_ok A K b g o HK Hg Ho Ew Eh Sw Sh d) as (d' & Ed' & L' & W'); auto; try lia.
    rewrite Ed'. eexists; split; [reflexivity|]. split; [reflexivity|]. apply finish; auto.
    eapply win_iff; [|eapply win_seq; [exact W|exact W']]. intros x y _; cbn beta; split; auto; intros _; lia.
Qed.
Lemma convolve_v_ok : kernel1_ok K -> fits b (g_height g) K ->
  g_sub out = false \/ (g_width out = g_width g /\ g_height out = g_height g) ->
  (forall x y, inside g x y -> exists r, value_v A K b g x y = Some r) ->
  exists o out', gray_reshape zero out (g_width g) (g_height g) = Ok o /\
    convolve_v A zero K b g out = Ok out' /\ holds g o out' (value_v A K b g).
Proof.
  intros HK HF Hs HV. destruct (reshape_for Hs) as (o & Eo & Ho & Ew & Eh). exists o.
  unfold convolve_v. rewrite Eo. cbn [bind]. destruct (g_height o <=? k_width K) eqn:C.
  - destruct (naive_v_ok A K b g o HK Hg Ho Ew Eh Sw Sh (g_data o)) as (d & Ed & L & W); auto.
    rewrite Ed. eexists; split; [reflexivity|]. split; [reflexivity|]. now apply finish.
  - destruct (inner_v_ptr_ok A K b g o HK Hg Ho Ew Eh Sh (g_data o)) as (d & Ed & L & W); auto; try lia.
    rewrite Ed. cbn [bind].
    destruct (border_v_ok A K b g o HK Hg Ho Ew Eh Sw Sh d) as (d' & Ed' & L' & W'); auto; try lia.
    rewrite Ed'. eexists; split; [reflexivity|]. split; [reflexivity|]. apply finish; auto.
    eapply win_iff; [|eapply win_seq; [exact W|exact W']]. intros x y _; cbn beta; split; auto; intros _; lia.
Qed.
Lemma convolve_2_ok : kernel2_ok K -> fits b (g_width g) K -> fits b (g_height g) K ->
  g_sub out = false \/ (g_width out = g_width g /\ g_height out = g_height g) ->
  (forall x y, inside g x y -> exists r, value_2 A K b g x y = Some r) ->
  exists o out', gray_reshape zero out (g_width g) (g_height g) = Ok o /\
    convolve_2 A zero K b g out = Ok out' /\ holds g o out' (value_2 A K b g).
Proof.
  intros HK HF HF2 Hs HV. destruct (reshape_for Hs) as (o & Eo & Ho & Ew & Eh). exists o.
  unfold convolve_2. rewrite Eo. cbn [bind]. destruct (_ || _) eqn:C.
  - destruct (naive_2_ok A K b g o HK Hg Ho Ew Eh Sw Sh (g_data o)) as (d & Ed & L & W); auto.
    rewrite Ed. eexists; split; [reflexivity|]. split; [reflexivity|]. now apply finish.
  - destruct (inner_2_ok A K b g o HK Hg Ho Ew Eh Sw Sh (g_data o)) as (d & Ed & L & W); auto; try lia.
    rewrite Ed. cbn [bind].
    destruct (border_2_ok A K b g o HK Hg Ho Ew Eh Sw Sh d) as (d' & Ed' & L' & W'); auto; try lia.
    rewrite Ed'. eexists; split; [reflexivity|]. split; [reflexivity|]. apply finish; auto.
    eapply win_iff; [|eapply win_seq; [exact W|exact W']]. intros x y _; cbn beta; split; auto; intros _; lia.
Qed.
Lemma convolve_throws : g_sub out = true -> g_width out <> g_width g \/ g_height out <> g_height g ->
  convolve_h A zero K b g out = Throw /\ convolve_v A zero K b g out = Throw /\ convolve_2 A zero K b g out = Throw.
Proof.
  intros H1 H2. unfold convolve_h, convolve_v, convolve_2. now rewrite !reshape_throws.
Qed.
End Top.

(** Both passes of the mean filter. *)
From Verif Require Import BaseFacts M_Image S_Image L_Image M_Border S_Border M_Convolve S_Convolve L_Window
  L_Convolve L_Convolve2 L_ConvolveInt M_Normalized S_Normalized L_Normalized L_NormalizedInt M_Blur S_Blur L_Blur.

Definition roomy (w : gray Z) : Prop := g_offset w + g_width w + g_height w * g_stride w <= 4294967296.

Lemma mean_row_in g r x y lo hi : 0 <= r -> wf g -> inside g x y -> lo <= 0 <= hi \/ 0 <= lo ->
  (forall i v, x - r <= i <= x + r -> pixel g i y = Some v -> lo <= v <= hi) -> lo <= mean_row g r x y <= hi.
Proof.
  intros Hr Hg Hi H0 Hv. destruct (pixel_exists g x y Hg Hi) as (v & E).
  assert (P : 0 < zlen (present (fun i => pixel g i y) (x - r) (Z.to_nat (2 * r + 1)))).
  { apply (present_pos _ _ _ r v); [lia|]. now replace (x - r + r) with x by lia. }
  assert (Q : forall v, In v (present (fun i => pixel g i y) (x - r) (Z.to_nat (2 * r + 1))) -> lo <= v <= hi).
  { intros u Hu. apply present_In in Hu as (j & Hj & E'). apply (Hv (x - r + j)); auto; lia. }
  unfold mean_row. destruct H0; [apply round_mean_range|apply round_mean_range_nonneg]; auto.
Qed.
Lemma mean_col_in g r x y lo hi : 0 <= r -> wf g -> inside g x y -> lo <= 0 <= hi \/ 0 <= lo ->
  (forall i v, y - r <= i <= y + r -> pixel g x i = Some v -> lo <= v <= hi) -> lo <= mean_col g r x y <= hi.
Proof.
  intros Hr Hg Hi H0 Hv. destruct (pixel_exists g x y Hg Hi) as (v & E).
  assert (P : 0 < zlen (present (fun i => pixel g x i) (y - r) (Z.to_nat (2 * r + 1)))).
  { apply (present_pos _ _ _ r v); [lia|]. now replace (y - r + r) with y by lia. }
  assert (Q : forall v, In v (present (fun i => pixel g x i) (y - r) (Z.to_nat (2 * r + 1))) -> lo <= v <= hi).
  { intros u Hu. apply present_In in Hu as (j & Hj & E'). apply (Hv (y - r + j)); auto; lia. }
  unfold mean_col. destruct H0; [apply round_mean_range|apply round_mean_range_nonneg]; auto.
Qed.
Lemma mean_box_in g r x y lo hi : 0 <= r -> wf g -> inside g x y -> lo <= 0 <= hi \/ 0 <= lo ->
  (forall x' y' v, x - r <= x' <= x + r -> y - r <= y' <= y + r -> pixel g x' y' = Some v -> lo <= v <= hi) ->
  lo <= mean_box g r x y <= hi.
Proof.
  intros Hr Hg [I1 I2] H0 Hv.
  set (px := fun i => if (0 <=? i) && (i <? g_height g) then Some (mean_row g r x i) else None).
  assert (P : 0 < zlen (present px (y - r) (Z.to_nat (2 * r + 1)))).
  { apply (present_pos _ _ _ r (mean_row g r x y)); [lia|]. replace (y - r + r) with y by lia. unfold px.
    now replace (_ && _) with true by lia. }
  assert (Q : forall v, In v (present px (y - r) (Z.to_nat (2 * r + 1))) -> lo <= v <= hi).
  { intros u Hu. apply present_In in Hu as (j & Hj & E'). unfold px in E'. destruct (_ && _) eqn:C; [|discriminate].
    injection E' as <-. apply mean_row_in; auto; [split; lia|]. intros i v Hi. apply Hv; lia. }
  unfold mean_box. fold px. destruct H0; [apply round_mean_range|apply round_mean_range_nonneg]; auto.
Qed.

Section Top.
Variables (t : ity) (r M : Z) (g out work : gray Z).
Hypothesis Hr : 0 < r.
Hypothesis Hkw : 2 * r + 1 <= 1073741824.
Hypothesis Hg : wf g.
Hypothesis Hout : wf out.
Hypothesis Hwork : wf work.
Hypothesis Sw : 0 < g_width g <= 1073741824.
Hypothesis Sh : 0 < g_height g <= 1073741824.
Hypothesis HM : 0 <= M.
Hypothesis HP : forall x y v, pixel g x y = Some v -> ity_min t <= v <= ity_max t /\ Z.abs v <= M.
Hypothesis HS : (2 * r + 1) * (M + 1) <= ity_max (signed_type t).
Hypothesis Hs : g_sub out = false \/ (g_width out = g_width g /\ g_height out = g_height g).
Hypothesis Hs' : (g_sub work = false /\ g_width g * (g_height g + 1) <= 4294967296) \/
                 (g_width work = g_width g /\ g_height work = g_height g /\ roomy work).
Hypothesis HC : g_width g < 2 * r + 1 \/ 2 * r + 1 <= g_height g.

Lemma blur_mean_ok :
  exists o out' w work', gray_reshape 0 out (g_width g) (g_height g) = Ok o /\
    gray_reshape 0 work (g_width g) (g_height g) = Ok w /\
    blur_mean (int_narith t) (int_marith t) 0 1 r g out work = Ok (out', work') /\
    holds g o out' (fun x y => Some (mean_box g r x y)) /\ holds g w work' (fun x y => Some (mean_row g r x y)).
Proof.
  destruct (reshape_for 0 g out Hg Hout Hs) as (o & Eo & Ho & Ow & Oh).
  destruct (reshape_for 0 g work Hg Hwork) as (w & Ewk & Hw & Ww & Wh).
  { destruct Hs' as [[S1 _]|(S1 & S2 & _)]; auto. }
  destruct (mean_h_ok t r M g w) as (w' & Ew' & Hh); auto; try lia.
  assert (Hh' := Hh). destruct Hh' as (A1 & A2 & A3 & A4 & A5).
  assert (Wf' : wf w') by (eapply wf_layout; eauto).
  assert (Rm : roomy w').
  { destruct A3 as (B1 & B2 & B3 & B4 & B5 & _). unfold roomy. rewrite B1, B2, B3, B4.
    unfold gray_reshape in Ewk. destruct (_ && _) eqn:C.
    - injection Ewk as <-. destruct Hs' as [[S1 S2]|(S1 & S2 & S3)]; [|exact S3].
      unfold wf in Hwork. destruct Hwork as (_ & _ & _ & _ & _ & _ & Q). destruct (Q S1) as [-> ->]. nia.
    - destruct Hs' as [[S1 S2]|(S1 & S2 & S3)]; [|exfalso; lia]. rewrite S1 in Ewk. injection Ewk as <-. cbn.
      unfold wf in Hwork. destruct Hwork as (_ & _ & _ & _ & _ & _ & Q). destruct (Q S1) as [-> _]. nia. }
  destruct (mean_v_ok t r M w' o) as (o' & Eo' & Hv); auto; try lia; try congruence.
  { intros x y v Hv. pose proof (pixel_Some _ _ _ _ Hv) as [I1 I2]. assert (Hi : inside g x y) by (split; lia).
    rewrite A4 in Hv by auto. injection Hv as <-. pose proof (t_zero t).
    assert (ity_min t <= mean_row g r x y <= ity_max t).
    { apply mean_row_in; auto; try lia. intros i v _ Hv. now apply HP in Hv. }
    assert (- M <= mean_row g r x y <= M).
    { apply mean_row_in; auto; try lia. intros i v _ Hv. apply HP in Hv. lia. }
    lia. }
  exists o, o', w, w'. do 2 (split; auto). split.
  { unfold blur_mean. replace (r <=? 0) with false by lia. rewrite Eo, Ewk. cbn [bind]. rewrite Ew'. cbn [bind]. now rewrite Eo'. }
  split; auto. destruct Hv as (B1 & B2 & B3 & B4 & B5). split; [congruence|]. split; [congruence|]. split; auto.
  split; auto. intros x y Hi. rewrite B4 by (destruct Hi; split; lia). f_equal. unfold mean_col, mean_box. f_equal.
  apply present_ext. intros j Hj. destruct Hi as [I1 I2]. destruct (_ && _) eqn:C.
  - rewrite A4 by (split; lia). reflexivity.
  - apply pixel_outside. unfold inside. lia.
Qed.
Lemma blur_mean_range : t = U8 \/ t = U16 ->
  exists out' work', blur_mean (int_narith t) (int_marith t) 0 1 r g out work = Ok (out', work') /\
    g_width out' = g_width g /\ g_height out' = g_height g /\
    forall x y v lo hi, pixel out' x y = Some v -> 0 <= lo ->
      (forall x' y' u, x - r <= x' <= x + r -> y - r <= y' <= y + r -> pixel g x' y' = Some u -> lo <= u <= hi) ->
      lo <= v <= hi.
Proof.
  intros Ht. destruct blur_mean_ok as (o & out' & w & work' & _ & _ & E & (A1 & A2 & A3 & A4 & A5) & _).
  exists out', work'. do 3 (split; auto). intros x y v lo hi Hv Hl Hr'.
  pose proof (pixel_Some _ _ _ _ Hv) as [I1 I2]. assert (Hi : inside g x y) by (split; lia).
  rewrite A4 in Hv by auto. injection Hv as <-. apply mean_box_in; auto; lia.
Qed.
End Top.

Lemma blur_mean_radius {E S T} (N : narith E S) (M : marith E T) zero c r (g out work : gray E) :
  r <= 0 -> blur_mean N M zero c r g out work = Throw.
Proof. intros H. unfold blur_mean. now replace (r <=? 0) with true by lia. Qed.

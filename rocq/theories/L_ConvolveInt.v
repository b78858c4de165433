(** Integer instances of the convolution theorems. *)
From Verif Require Import BaseFacts M_Image S_Image L_Image M_Border S_Border L_Border M_Convolve S_Convolve L_Window
  L_Convolve L_Convolve2.

Lemma zabs_sum_nonneg ks : 0 <= zabs_sum ks.
Proof. induction ks; cbn [zabs_sum]; lia. Qed.

Lemma signed_type_min t : - ity_max (signed_type t) - 1 = ity_min (signed_type t).
Proof. destruct t; reflexivity. Qed.

Lemma weighted_int t r M ks : forall (px : Z -> option Z) (f : Z -> Z) i s,
  (forall j, 0 <= j < zlen ks -> px (i + j) = Some (f (i + j)) /\ Z.abs (f (i + j)) <= M) ->
  Z.abs s + zabs_sum ks * M <= ity_max (signed_type t) ->
  weighted (int_arith t r) s ks px i = Some (s + zdot ks f i).
Proof.
  induction ks as [|c ks IH]; intros px f i s Hp Hs; cbn [weighted zdot].
  - f_equal; lia.
  - rewrite zlen_cons in Hp. pose proof (zlen_nonneg ks). pose proof (Hp 0 ltac:(lia)) as [P0 B0].
    rewrite Z.add_0_r in *. rewrite P0. cbn [a_prod a_add int_arith]. cbn [zabs_sum] in Hs.
    pose proof (signed_type_min t). pose proof (zabs_sum_nonneg ks).
    assert (Z.abs (c * f i) <= Z.abs c * M) by (rewrite Z.abs_mul; nia).
    assert (0 <= zabs_sum ks * M) by nia.
    rewrite arith_result_in by lia. rewrite arith_result_in by lia.
    rewrite (IH px f); [f_equal; lia| |].
    + intros j Hj. replace (i + 1 + j) with (i + (j + 1)) by lia. apply Hp; lia.
    + lia.
Qed.
Lemma filtered_int t r M ks (px : Z -> option Z) (f : Z -> Z) :
  (forall j, 0 <= j < zlen ks -> px j = Some (f j) /\ Z.abs (f j) <= M) ->
  zabs_sum ks * M <= ity_max (signed_type t) ->
  filtered (int_arith t r) ks px = Some (cast r (zdot ks f 0)).
Proof.
  intros Hp Hs. unfold filtered. change (a_zero (int_arith t r)) with 0. rewrite (weighted_int t r M ks px f 0 0); auto.

Qed.

Section I.
Variables (t r : ity) (zero : Z) (K : kernel Z) (b : border Z) (g out : gray Z) (P : Z -> Z -> Z) (M : Z).
Hypothesis Hg : wf g.
Hypothesis Hout : wf out.
Hypothesis Sw : g_width g <= 1073741824.
Hypothesis Sh : g_height g <= 1073741824.
Hypothesis HP : forall x y, extended b g x y = Some (P x y) /\ Z.abs (P x y) <= M.
Hypothesis HM : zabs_sum (k_data K) * M <= ity_max (signed_type t).
Hypothesis Hs : g_sub out = false \/ (g_width out = g_width g /\ g_height out = g_height g).

Lemma convolve_h_int : kernel1_ok K -> fits b (g_width g) K ->
  exists o out', gray_reshape zero out (g_width g) (g_height g) = Ok o /\
    convolve_h (int_arith t r) zero K b g out = Ok out' /\
    holds g o out' (fun x y => Some (cast r (zdot (k_data K) (fun i => P (x - k_offset K + i) y) 0))).
Proof.
  intros HK HF.
  assert (V : forall x y, value_h (int_arith t r) K b g x y =
     Some (cast r (zdot (k_data K) (fun i => P (x - k_offset K + i) y) 0))).
  { intros x y. unfold value_h. apply (filtered_int t r M); auto. }
  destruct (convolve_h_ok (int_arith t r) zero K b g out) as (o & out' & E1 & E2 & Hh); auto.
  { intros; eexists; apply V. }
  exists o, out'. do 2 (split; auto). destruct Hh as (H1 & H2 & H3 & H4 & H5).
  do 3 (split; auto). split; auto. intros x y Hi. rewrite H4 by auto. apply V.
Qed.
Lemma convolve_v_int : kernel1_ok K -> fits b (g_height g) K ->
  exists o out', gray_reshape zero out (g_width g) (g_height g) = Ok o /\
    convolve_v (int_arith t r) zero K b g out = Ok out' /\
    holds g o out' (fun x y => Some (cast r (zdot (k_data K) (fun i => P x (y - k_offset K + i)) 0))).
Proof.
  intros HK HF.
  assert (V : forall x y, value_v (int_arith t r) K b g x y =
     Some (cast r (zdot (k_data K) (fun i => P x (y - k_offset K + i)) 0))).
  { intros x y. unfold value_v. apply (filtered_int t r M); auto. }
  destruct (convolve_v_ok (int_arith t r) zero K b g out) as (o & out' & E1 & E2 & Hh); auto.
  { intros; eexists; apply V. }
  exists o, out'. do 2 (split; auto). destruct Hh as (H1 & H2 & H3 & H4 & H5).
  do 3 (split; auto). split; auto. intros x y Hi. rewrite H4 by auto. apply V.
Qed.
Lemma convolve_2_int : kernel2_ok K -> fits b (g_width g) K -> fits b (g_height g) K ->
  exists o out', gray_reshape zero out (g_width g) (g_height g) = Ok o /\
    convolve_2 (int_arith t r) zero K b g out = Ok out' /\
    holds g o out' (fun x y => Some (cast r (zdot (k_data K) (fun i =>
       P (x - k_offset K + i mod k_width K) (y - k_offset K + i / k_width K)) 0))).
Proof.
  intros HK HF HF2.
  assert (V : forall x y, value_2 (int_arith t r) K b g x y = Some (cast r (zdot (k_data K) (fun i =>
       P (x - k_offset K + i mod k_width K) (y - k_offset K + i / k_width K)) 0))).
  { intros x y. unfold value_2. apply (filtered_int t r M); auto. }
  destruct (convolve_2_ok (int_arith t r) zero K b g out) as (o & out' & E1 & E2 & Hh); auto.
  { intros; eexists; apply V. }
  exists o, out'. do 2 (split; auto). destruct Hh as (H1 & H2 & H3 & H4 & H5).
  do 3 (split; auto). split; auto. intros x y Hi. rewrite H4 by auto. apply V.
Qed.
End I.

(** ** Naive convolution as an entry point *)
Section N.
Context {E S R : Type}.
Variable A : arith E S R.
Variable K : kernel S.
Variable b : border E.
Variable g : gray E.
Variable o : gray R.
Hypothesis Hg : wf g.
Hypothesis Ho : wf o.
Hypothesis Ew : g_width o = g_width g.
Hypothesis Eh : g_height o = g_height g.
Hypothesis Sw : g_width g <= 1073741824.
Hypothesis Sh : g_height g <= 1073741824.
Hypothesis Hb : b = BExtend \/ exists v, b = BValue v.

Lemma simple_fits n : fits b n K.
Proof. destruct Hb as [->|(v & ->)]; exact I. Qed.

Lemma naive_all :
  (kernel1_ok K -> (forall x y, inside g x y -> exists r, value_h A K b g x y = Some r) ->
    exists d, naive_h A K b g o (g_data o) = Ok d /\ holds g o (with_data o d) (value_h A K b g)) /\
  (kernel1_ok K -> (forall x y, inside g x y -> exists r, value_v A K b g x y = Some r) ->
    exists d, naive_v A K b g o (g_data o) = Ok d /\ holds g o (with_data o d) (value_v A K b g)) /\
  (kernel2_ok K -> (forall x y, inside g x y -> exists r, value_2 A K b g x y = Some r) ->
    exists d, naive_2 A K b g o (g_data o) = Ok d /\ holds g o (with_data o d) (value_2 A K b g)).
Proof.
  split; [|split]; intros HK HV.
  - destruct (naive_h_ok A K b g o HK Hg Ho Ew Eh Sw Sh (g_data o) eq_refl (simple_fits _) HV) as (d & Ed & L & W).
    exists d; split; auto. apply finish; auto.
  - destruct (naive_v_ok A K b g o HK Hg Ho Ew Eh Sw Sh (g_data o) eq_refl (simple_fits _) HV) as (d & Ed & L & W).
    exists d; split; auto. apply finish; auto.
  - destruct (naive_2_ok A K b g o HK Hg Ho Ew Eh Sw Sh (g_data o) eq_refl (simple_fits _) (simple_fits _) HV) as (d & Ed & L & W).
    exists d; split; auto. apply finish; auto.
Qed.
End N.

(** Lemmas about thresholding of float and double images by blocks. *)
From Coq Require Import Reals Lia Lra Psatz.
From Coq Require Import Floats.SpecFloat.
From Flocq Require Import Core BinarySingleNaN.
From Verif Require Import Base BaseFacts M_Image S_Image L_Image M_Convolve S_Convolve M_Float M_Otsu M_Config M_Stats M_Block S_Block
  L_Block L_BlockVar L_BlockInt.
From Verif Require Import S_Ieee L_Ieee L_PointF S_FConv L_FConv S_FNorm S_FBlur L_FBlur S_FStats L_FStats S_FBlock.
From Verif Require L_FLocal.
Local Open Scope R_scope.

Notation rsum l := (fold_right Rplus 0 l).
Notation mags l := (fold_right Rplus 0 (map (fun v => Rabs (val v)) l)).

Lemma mags_le l M : (forall v, In v l -> Rabs (val v) <= M) -> 0 <= mags l <= INR (length l) * M.
Proof.
  induction l as [|a l IH]; intros H; cbn [map fold_right length].
  - cbn. lra.
  - rewrite S_INR. pose proof (H a (or_introl eq_refl)). pose proof (Rabs_pos (val a)).
    destruct IH as [I1 I2]; [intros v Hv; apply H; now right|]. split; lra.
Qed.
Lemma average_near {A} (l : list A) (p q : A -> R) e : (0 < length l)%nat -> (forall a, In a l -> Rabs (p a - q a) <= e) ->
  Rabs (average (map p l) - average (map q l)) <= e.
Proof.
  intros L H. unfold average. rewrite !map_length. assert (P : 0 < INR (length l)) by (apply lt_0_INR; auto).
  assert (X : Rabs (rsum (map p l) - rsum (map q l)) <= INR (length l) * e).
  { clear L P. induction l as [|a l IH]; cbn [map fold_right length].
    - cbn. rewrite Rminus_0_r, Rabs_R0. lra.
    - rewrite S_INR. specialize (IH (fun b Hb => H b (or_intror Hb))). pose proof (H a (or_introl eq_refl)) as Ha.
      replace (p a + rsum (map p l) - (q a + rsum (map q l))) with ((p a - q a) + (rsum (map p l) - rsum (map q l))) by ring.
      eapply Rle_trans; [apply Rabs_triang|]. lra. }
  replace (rsum (map p l) / INR (length l) - rsum (map q l) / INR (length l)) with ((rsum (map p l) - rsum (map q l)) * / INR (length l)) by (field; lra).
  rewrite Rabs_mult, (Rabs_pos_eq (/ _)) by (left; apply Rinv_0_lt_compat; lra).
  apply Rmult_le_reg_r with (INR (length l)); auto. rewrite Rmult_assoc, Rinv_l by lra. lra.
Qed.

Section F.
Variable f : fty.
Hypothesis St : standard f.
Let W : wfty f := standard_wfty f St.
Notation u := (unit_error f).
Notation t := (tiny_error f).

(** Division by a number of pixels. *)
Lemma div_count s S0 A G e n : finite f s -> Rabs S0 <= A -> 1 <= G -> 0 <= e -> Rabs (val s - S0) <= (G - 1) * A + e ->
  (0 < n < 4294967296)%Z -> 2 * (G * A + e) + 1 < huge f ->
  finite f (fdiv f s (float_of_Z f n)) /\
  Rabs (val (fdiv f s (float_of_Z f n)) - S0 / IZR n) <= ((1 + u) ^ 3 * G - 1) * (A / IZR n) + 2 * (e / IZR n) + t.
Proof.
  intros Fs SA G1 e0 Bs Hn HH. destruct (unit_small f St) as [U0 U]. destruct (tiny_small f St) as [T0 T].
  assert (A0 : 0 <= A) by (eapply Rle_trans; [apply Rabs_pos|exact SA]).
  destruct (pixel_count f St n Hn) as (Fn & d & Hd & Vn).
  set (N := IZR n) in *. assert (N1 : 1 <= N) by (apply IZR_le; lia).
  apply Rabs_le_inv in Hd. set (c := / (1 + d)).
  assert (c1 : (1 + d) * c = 1) by (unfold c; field; lra).
  assert (c0 : 0 < c) by (apply Rinv_0_lt_compat; lra).
  assert (cU : c <= 1 + u + 2 * (u * u)) by nra.
  assert (cL : 1 - u <= c) by nra.
  assert (Q : val s / val (float_of_Z f n) = val s / N * c) by (rewrite Vn; unfold c; field; lra).
  assert (sA : Rabs (val s) <= G * A + e).
  { replace (val s) with (S0 + (val s - S0)) by ring. eapply Rle_trans; [apply Rabs_triang|]. lra. }
  assert (NI : 0 < / N <= 1) by (split; [apply Rinv_0_lt_compat; lra|rewrite <- Rinv_1; apply Rinv_le; lra]).
  set (q := val s / N * c) in *. set (a := G * A + e) in *.
  assert (a0 : 0 <= a) by (unfold a; assert (0 <= G * A) by (apply Rmult_le_pos; lra); lra).
  assert (Aq : Rabs q <= a * / N * c).
  { unfold q, Rdiv. rewrite !Rabs_mult, (Rabs_pos_eq c), (Rabs_pos_eq (/ N)) by lra.
    apply Rmult_le_compat_r; [lra|]. apply Rmult_le_compat_r; lra. }
  pose proof (rnd_err f W q) as E.
  assert (aN : 0 <= a * / N <= a) by (split; [apply Rmult_le_pos; lra|]; rewrite <- (Rmult_1_r a) at 2; apply Rmult_le_compat_l; lra).
  assert (cS : c <= 1 + / 1000) by nra.
  assert (L : Rabs (rnd f q) < huge f).
  { replace (rnd f q) with (q + (rnd f q - q)) by ring. eapply Rle_lt_trans; [apply Rabs_triang|].
    assert (Rabs q <= a * c) by (eapply Rle_trans; [exact Aq|]; apply Rmult_le_compat_r; lra).
    assert (u * Rabs q <= / 16777216 * Rabs q) by (apply Rmult_le_compat_r; [apply Rabs_pos|lra]).
    assert (a * c <= a * (1 + / 1000)) by (apply Rmult_le_compat_l; lra).
    lra. }
  destruct (fdiv_fin f W s (float_of_Z f n) Fs Fn) as [Fm Vm].
  { rewrite Vn. apply Rmult_integral_contrapositive. split; lra. }
  { rewrite Q. exact L. }
  rewrite Q in Vm. split; [exact Fm|]. rewrite Vm.
  replace (rnd f q - S0 / N) with ((rnd f q - q) + ((val s - S0) * / N * c + S0 * / N * (c - 1))) by (unfold q; field; lra).
  eapply Rle_trans; [apply Rabs_triang|].
  assert (E1 : Rabs ((val s - S0) * / N * c + S0 * / N * (c - 1)) <= (((G - 1) * A + e) * c + A * Rabs (c - 1)) * / N).
  { eapply Rle_trans; [apply Rabs_triang|]. rewrite !Rabs_mult, (Rabs_pos_eq c), (Rabs_pos_eq (/ N)) by lra.
    assert (X1 : Rabs (val s - S0) * / N * c <= ((G - 1) * A + e) * / N * c).
    { apply Rmult_le_compat_r; [lra|]. apply Rmult_le_compat_r; lra. }
    assert (X2 : Rabs S0 * / N * Rabs (c - 1) <= A * / N * Rabs (c - 1)).
    { apply Rmult_le_compat; try apply Rabs_pos.
      - apply Rmult_le_pos; [apply Rabs_pos|lra].
      - apply Rmult_le_compat_r; lra.
      - lra. }
    replace ((((G - 1) * A + e) * c + A * Rabs (c - 1)) * / N) with (((G - 1) * A + e) * / N * c + A * / N * Rabs (c - 1)) by ring. lra. }
  assert (E2 : u * Rabs q <= u * (a * / N * c)) by (apply Rmult_le_compat_l; lra).
  assert (E3 : u * (a * / N * c) + (((G - 1) * A + e) * c + A * Rabs (c - 1)) * / N <=
    ((1 + u) ^ 3 * G - 1) * (A / N) + 2 * (e / N)).
  { unfold a, Rdiv. replace (u * ((G * A + e) * / N * c) + (((G - 1) * A + e) * c + A * Rabs (c - 1)) * / N)
      with ((A * / N) * ((u * c + c) * G - c + Rabs (c - 1)) + (e * / N) * (u * c + c)) by ring.
    apply Rplus_le_compat.
    2:{ rewrite (Rmult_comm 2). apply Rmult_le_compat_l; [apply Rmult_le_pos; lra|]. nra. }
    rewrite (Rmult_comm (_ - 1)). apply Rmult_le_compat_l; [apply Rmult_le_pos; lra|].
    destruct (Rle_lt_dec 1 c) as [C|C].
    - rewrite Rabs_pos_eq by lra. assert (X0 : c <= (1 + u) * (1 + u)) by nra.
      assert (X : (1 + u) * c <= (1 + u) ^ 3) by (replace ((1 + u) ^ 3) with ((1 + u) * ((1 + u) * (1 + u))) by ring; apply Rmult_le_compat_l; lra).
      assert (Y : (1 + u) * c * G <= (1 + u) ^ 3 * G) by (apply Rmult_le_compat_r; lra). lra.
    - rewrite Rabs_left by lra. assert (X : (u * c + c) * G <= (u + c) * G) by (apply Rmult_le_compat_r; nra).
      assert (X1 : (1 + u) + 2 * u <= (1 + u) ^ 3) by (replace ((1 + u) ^ 3) with (1 + 3 * u + 3 * (u * u) + u * u * u) by ring; nra).
      assert (Y : ((1 + u) + 2 * u) * G <= (1 + u) ^ 3 * G) by (apply Rmult_le_compat_r; lra).
      assert (Y2 : (2 * u + (1 - c)) * 1 <= (2 * u + (1 - c)) * G) by (apply Rmult_le_compat_l; lra). lra. }
  lra.
Qed.

(** Sum of a list. *)
Lemma sum_list l M : (forall v, In v l -> finite f v /\ Rabs (val v) <= M) -> INR (length l) * M * (1 + u) ^ length l < huge f ->
  finite f (fold_left (fadd f) l (S754_zero false)) /\
  Rabs (val (fold_left (fadd f) l (S754_zero false)) - rsum (map val l)) <= ((1 + u) ^ length l - 1) * (INR (length l) * M).
Proof.
  intros H HH. destruct (mags_le l M ltac:(intros; apply H; auto)) as [m0 m1]. pose proof (G_1 f (length l)) as G1.
  destruct (sum_error_list f St l ltac:(intros; apply H; auto) (S754_zero false) 0 0 0) as (s & E & F & B).
  - apply zero_fin; auto.
  - rewrite Rabs_R0. lra.
  - cbn. rewrite Rminus_0_r, Rabs_R0. lra.
  - rewrite Rplus_0_l, Nat.add_0_l. eapply Rle_lt_trans; [|exact HH]. apply Rmult_le_compat_r; lra.
  - rewrite (mfold_pure (fun s v => fadd f s v)) in E. change (Ok (fold_left (fadd f) l (S754_zero false)) = Ok s) in E.
    assert (s = fold_left (fadd f) l (S754_zero false)) as -> by congruence.
    split; auto. rewrite !Rplus_0_l, Nat.add_0_l in B. eapply Rle_trans; [exact B|]. apply Rmult_le_compat_l; lra.
Qed.
Lemma sum_bound l M : (forall v, In v l -> Rabs (val v) <= M) -> Rabs (rsum (map val l)) <= INR (length l) * M.
Proof. intros H. eapply Rle_trans; [apply mag_ge|]. now apply mags_le. Qed.

Lemma len_IZR {A} (l : list A) : IZR (zlen l) = INR (length l).
Proof. unfold zlen. now rewrite INR_IZR_INZ. Qed.

(** Scaled mean of a block. *)
Lemma stat_error l scale M k : finite f scale -> (forall v, In v l -> finite f v /\ Rabs (val v) <= M) ->
  (0 < length l)%nat -> (zlen l < 4294967296)%Z -> (length l <= k)%nat -> 0 <= M ->
  4 * (Rabs (val scale) + 1) * (INR (length l) * M + 1) * (1 + u) ^ (k + 4) < huge f ->
  finite f (float_mean f scale l) /\
  Rabs (val (float_mean f scale l) - val scale * average (map val l)) <= ((1 + u) ^ (k + 4) - 1) * (Rabs (val scale) * M) + 3 * t.
Proof.
  intros Fs H L0 L1 Lk M0 HH. destruct (unit_small f St) as [U0 U]. destruct (tiny_small f St) as [T0 T].
  set (N := INR (length l)) in *. assert (N1 : 1 <= N) by (apply (le_INR 1); lia).
  set (A := N * M) in *. assert (A0 : 0 <= A) by (apply Rmult_le_pos; lra).
  set (c := Rabs (val scale)) in *. assert (c0 : 0 <= c) by apply Rabs_pos.
  pose proof (G_1 f (length l)) as G1. pose proof (G_mono f (length l) (k + 4) ltac:(lia)) as G2.
  set (G := (1 + u) ^ length l) in *. set (GK := (1 + u) ^ (k + 4)) in *.
  assert (X : (A + 1) * G <= (A + 1) * GK) by (apply Rmult_le_compat_l; lra).
  assert (Y : (A + 1) * GK <= (c + 1) * ((A + 1) * GK)).
  { rewrite <- (Rmult_1_l ((A + 1) * GK)) at 1. apply Rmult_le_compat_r; [apply Rmult_le_pos; lra|lra]. }
  destruct (sum_list l M H) as [F1 E1].
  { fold N. fold A. fold G. nra. }
  fold N in E1. fold A G in E1. set (s := fold_left (fadd f) l (S754_zero false)) in *. set (S0 := rsum (map val l)) in *.
  assert (SA : Rabs S0 <= A) by (apply sum_bound; intros; apply H; auto).
  assert (sA : Rabs (val s) <= G * A).
  { replace (val s) with (S0 + (val s - S0)) by ring. eapply Rle_trans; [apply Rabs_triang|]. lra. }
  assert (cs : Rabs (val scale * val s) <= c * (G * A)) by (rewrite Rabs_mult; apply Rmult_le_compat_l; auto).
  assert (cG : c * (G * A) <= (c + 1) * ((A + 1) * GK)).
  { assert (0 <= G * A) by (apply Rmult_le_pos; lra). apply Rmult_le_compat; [exact c0|auto|lra|nra]. }
  assert (one : 1 <= (c + 1) * ((A + 1) * GK)) by nra.
  pose proof (rnd_err f W (val scale * val s)) as E2.
  assert (u * Rabs (val scale * val s) <= u * (c * (G * A))) by (apply Rmult_le_compat_l; lra).
  assert (u * (c * (G * A)) <= / 16777216 * (c * (G * A))) by (apply Rmult_le_compat_r; [apply Rmult_le_pos; auto; apply Rmult_le_pos; lra|lra]).
  destruct (fmul_fin f W scale s Fs F1) as [F2 V2].
  { replace (rnd f (val scale * val s)) with (val scale * val s + (rnd f (val scale * val s) - val scale * val s)) by ring.
    eapply Rle_lt_trans; [apply Rabs_triang|]. lra. }
  assert (E3 : Rabs (val (fmul f scale s) - val scale * S0) <= ((1 + u) * G - 1) * (c * A) + t).
  { rewrite V2. replace (rnd f (val scale * val s) - val scale * S0) with
      ((rnd f (val scale * val s) - val scale * val s) + val scale * (val s - S0)) by ring.
    eapply Rle_trans; [apply Rabs_triang|]. rewrite (Rabs_mult (val scale) (val s - S0)). fold c.
    assert (c * Rabs (val s - S0) <= c * ((G - 1) * A)) by (apply Rmult_le_compat_l; auto). lra. }
  assert (uG : (1 + u) * G <= GK).
  { unfold G, GK. change ((1 + u) * (1 + u) ^ length l) with ((1 + u) ^ S (length l)). apply G_mono. lia. }
  assert (cA : 0 <= c * A) by (apply Rmult_le_pos; auto).
  destruct (div_count (fmul f scale s) (val scale * S0) (c * A) ((1 + u) * G) t (zlen l)) as [F4 E4]; auto.
  - rewrite Rabs_mult. apply Rmult_le_compat_l; auto.
  - nra.
  - lra.
  - unfold zlen in *. lia.
  - assert ((1 + u) * G * (c * A) <= GK * (c * A)) by (apply Rmult_le_compat_r; auto).
    assert (GK * (c * A) <= (c + 1) * ((A + 1) * GK)) by nra. lra.
  - unfold float_mean. fold s. split; auto. rewrite len_IZR in E4. fold N in E4.
    replace (val scale * average (map val l)) with (val scale * S0 / N) by (unfold average; rewrite map_length; fold N S0; unfold Rdiv; ring).
    eapply Rle_trans; [exact E4|].
    replace (c * A / N) with (c * M) by (unfold A; field; lra).
    assert (tN : t / N <= t).
    { unfold Rdiv. rewrite <- (Rmult_1_r t) at 2. apply Rmult_le_compat_l; [lra|]. rewrite <- Rinv_1. apply Rinv_le; lra. }
    assert (E5 : (1 + u) ^ 3 * ((1 + u) * G) <= GK).
    { unfold G, GK. change ((1 + u) * (1 + u) ^ length l) with ((1 + u) ^ S (length l)). rewrite <- pow_add. apply G_mono. lia. }
    assert (((1 + u) ^ 3 * ((1 + u) * G) - 1) * (c * M) <= (GK - 1) * (c * M)) by (apply Rmult_le_compat_r; [apply Rmult_le_pos; auto|lra]).
    lra.
Qed.
Lemma pow_small k : (k <= 12)%nat -> (1 + u) ^ k <= 1 + / 1000.
Proof.
  intros Hk. eapply Rle_trans; [apply (G_mono f k 12); auto|]. destruct (unit_small f St) as [U0 U].
  eapply Rle_trans; [apply pow_incr; split; [lra|apply Rplus_le_compat_l; exact U]|]. lra.
Qed.
End F.

Section G.
Variable f : fty.
Hypothesis St : standard f.
Let W : wfty f := standard_wfty f St.
Notation u := (unit_error f).
Notation t := (tiny_error f).
Variables (g : gray spec_float) (req : Z) (local : bool).
Hypothesis Hg : wf g.
Hypothesis Hw : (1 <= req <= g_width g)%Z.
Hypothesis Hh : (1 <= req <= g_height g)%Z.

Lemma near_few b : is_block g req b -> (0 < zlen (near_blocks g req local b) <= 9)%Z.
Proof.
  intros B. split; [apply (near_len_small local g req Hg Hw Hh b B)|]. rewrite (near_blocks_len g req Hg Hw Hh) by auto.
  destruct B as [B1 B2]. pose proof (dims g req Hg Hw Hh) as (D1 & D2 & D3 & D4).
  assert (X : forall n i, (0 <= i < n)%Z -> (n < 4294967296)%Z -> (0 < block_last local n i - block_first local i + 1 <= 3)%Z).
  { intros n i Hi Hn. destruct (around_first local n i Hi Hn) as (L & _ & _ & _). split; [lia|]. unfold block_first, block_last.
    destruct local; [|lia]. rewrite (u32_id (n - 1)), (u32_id (i + 1)) by lia. destruct (Z.ltb_spec 0 i); [rewrite u32_id by lia|]; lia. }
  pose proof (X (cols g req) (fst b) B1 ltac:(lia)). pose proof (X (rows g req) (snd b) B2 ltac:(lia)). nia.
Qed.
Lemma area_small b : is_block g req b -> (0 < zlen (block_pixels g req b) < 4294967296)%Z.
Proof.
  intros B. pose proof (block_area g req Hg Hw Hh b B). assert (X := Hg). unfold wf in X. nia.
Qed.

Section Mean.
Variables (scale : spec_float) (M : R) (n : Z).
Hypothesis Fs : finite f scale.
Hypothesis Hb : bounded_numbers f g M.
Hypothesis Hn : forall b, is_block g req b -> (zlen (block_pixels g req b) <= n)%Z.
Hypothesis HH : 40 * (Rabs (val scale) + 1) * (IZR n * M + 1) * (1 + u) ^ Z.to_nat (n + 16) < huge f.

Lemma block_numbers b v : is_block g req b -> In v (block_pixels g req b) -> finite f v /\ Rabs (val v) <= M.
Proof.
  intros B Hv. apply (block_pixels_In g req Hw Hh b v B) in Hv as (x & y & _ & E). apply (Hb x y v); auto. eapply pixel_Some; eauto.
Qed.
Lemma M_pos : 0 <= M.
Proof.
  destruct (pixel_exists g 0 0 Hg) as (v & E); [split; lia|]. pose proof (Hb 0%Z 0%Z v ltac:(split; lia) E) as [_ X].
  eapply Rle_trans; [apply Rabs_pos|exact X].
Qed.

Lemma level_near b : is_block g req b ->
  finite f (float_level f scale g req local b) /\
  Rabs (val (float_level f scale g req local b) - level (val scale) g req local b) <= level_error f n (val scale) M.
Proof.
  intros B. destruct (unit_small f St) as [U0 U]. destruct (tiny_small f St) as [T0 T]. pose proof M_pos as M0.
  assert (n1 : (1 <= n)%Z) by (pose proof (Hn b B); pose proof (area_small b B); lia).
  set (k := Z.to_nat n). assert (Kn : INR k = IZR n) by (unfold k; rewrite INR_IZR_INZ, Z2Nat.id by lia; reflexivity).
  replace (Z.to_nat (n + 16)) with (k + 16)%nat in HH by (unfold k; lia).
  set (c := Rabs (val scale)) in *. assert (c0 : 0 <= c) by apply Rabs_pos.
  assert (N1 : 1 <= IZR n) by (apply IZR_le; lia).
  pose proof (G_1 f (k + 4)) as G4. pose proof (G_mono f (k + 4) (k + 16) ltac:(lia)) as G5.
  set (e1 := ((1 + u) ^ (k + 4) - 1) * (c * M) + 3 * t).
  assert (cM : 0 <= c * M) by (apply Rmult_le_pos; auto).
  assert (nM : 0 <= IZR n * M) by (apply Rmult_le_pos; lra).
  assert (Stat : forall a, is_block g req a -> finite f (float_mean f scale (block_pixels g req a)) /\
    Rabs (val (float_mean f scale (block_pixels g req a)) - val scale * average (map val (block_pixels g req a))) <= e1).
  { intros a Ba. pose proof (area_small a Ba) as Aa. pose proof (Hn a Ba) as La.
    apply (stat_error f St); auto.
    - intros v Hv. now apply (block_numbers a).
    - unfold zlen in Aa. lia.
    - lia.
    - unfold zlen, k in *. lia.
    - fold c. eapply Rle_lt_trans; [|exact HH]. rewrite <- len_IZR.
      assert (IZR (zlen (block_pixels g req a)) * M <= IZR n * M) by (apply Rmult_le_compat_r; auto; apply IZR_le; lia).
      assert (0 <= IZR (zlen (block_pixels g req a)) * M) by (apply Rmult_le_pos; auto; apply IZR_le; lia).
      apply Rmult_le_compat; try lra; [apply Rmult_le_pos; lra|].
      assert ((c + 1) * (IZR (zlen (block_pixels g req a)) * M + 1) <= (c + 1) * (IZR n * M + 1)) by (apply Rmult_le_compat_l; lra).
      assert (0 <= (c + 1) * (IZR n * M + 1)) by (apply Rmult_le_pos; lra). lra. }
  set (bs := near_blocks g req local b). assert (L := near_few b B). fold bs in L.
  assert (Lb : (0 < length bs <= 9)%nat) by (unfold zlen in L; lia).
  set (ms := map (fun a => float_mean f scale (block_pixels g req a)) bs).
  assert (Lm : length ms = length bs) by apply map_length.
  set (Bd := (1 + u) ^ (k + 4) * (c * M) + 3 * t).
  assert (Hms : forall v, In v ms -> finite f v /\ Rabs (val v) <= Bd).
  { intros v Hv. apply in_map_iff in Hv as (a & <- & Ha). assert (Ba : is_block g req a) by (eapply near_blocks_ok; eauto).
    destruct (Stat a Ba) as [Fa Ea]. split; auto.
    set (X := val scale * average (map val (block_pixels g req a))) in *.
    assert (AX : Rabs X <= c * M).
    { unfold X. rewrite Rabs_mult. apply Rmult_le_compat_l; auto. unfold average.
      pose proof (area_small a Ba) as Aa. rewrite map_length.
      assert (P : 0 < INR (length (block_pixels g req a))) by (apply lt_0_INR; unfold zlen in Aa; lia).
      unfold Rdiv. rewrite Rabs_mult, (Rabs_pos_eq (/ _)) by (left; apply Rinv_0_lt_compat; lra).
      apply Rmult_le_reg_r with (INR (length (block_pixels g req a))); auto. rewrite Rmult_assoc, Rinv_l by lra. rewrite Rmult_1_r, Rmult_comm.
      apply sum_bound. intros w Hw'. now apply (block_numbers a). }
    replace (val (float_mean f scale (block_pixels g req a))) with (X + (val (float_mean f scale (block_pixels g req a)) - X)) by ring.
    eapply Rle_trans; [apply Rabs_triang|]. unfold Bd, e1 in *. lra. }
  assert (P9 : forall j, (j <= 12)%nat -> 1 <= (1 + u) ^ j <= 1 + / 1000) by (intros j Hj; split; [apply G_1|apply (pow_small f St); auto]).
  assert (Bd0 : 0 <= Bd) by (unfold Bd; assert (0 <= (1 + u) ^ (k + 4) * (c * M)) by (apply Rmult_le_pos; lra); lra).
  assert (Bb : Bd <= (c + 1) * (IZR n * M + 1) * (1 + u) ^ (k + 16)).
  { unfold Bd. apply Rle_trans with ((1 + u) ^ (k + 16) * (c * M + 1)).
    - assert ((1 + u) ^ (k + 4) * (c * M) <= (1 + u) ^ (k + 16) * (c * M)) by (apply Rmult_le_compat_r; lra). lra.
    - rewrite Rmult_comm. apply Rmult_le_compat_r; [lra|]. nra. }
  assert (I9 : 1 <= INR (length ms) <= 9).
  { rewrite Lm. split; [apply (le_INR 1); lia|]. replace 9 with (INR 9) by (cbn; lra). apply le_INR; lia. }
  assert (nB : 0 <= INR (length ms) * Bd <= 9 * Bd) by (split; [apply Rmult_le_pos; lra|apply Rmult_le_compat_r; lra]).
  assert (Hq : 40 * Bd < huge f) by lra.
  pose proof (huge_more f St) as HM.
  destruct (sum_list f St ms Bd Hms) as [F1 E1].
  { pose proof (P9 (length ms) ltac:(lia)) as P. nra. }
  assert (SA : Rabs (rsum (map val ms)) <= INR (length ms) * Bd) by (apply sum_bound; intros; apply Hms; auto).
  destruct (div_count f St (fold_left (fadd f) ms (S754_zero false)) (rsum (map val ms)) (INR (length ms) * Bd) ((1 + u) ^ length ms) 0 (zlen ms)) as [F2 E2]; auto.
  - apply G_1.
  - lra.
  - lra.
  - unfold zlen in *. lia.
  - pose proof (P9 (length ms) ltac:(lia)) as P.
    assert ((1 + u) ^ length ms * (INR (length ms) * Bd) <= (1 + / 1000) * (9 * Bd)) by (apply Rmult_le_compat; lra).
    destruct (Rle_lt_dec Bd 1); lra.
  - assert (Lev : float_level f scale g req local b = fdiv f (fold_left (fadd f) ms (S754_zero false)) (float_of_Z f (zlen ms))).
    { unfold float_level. fold bs. f_equal.
      - unfold ms. generalize (S754_zero false). generalize bs. intros l. induction l as [|a l IH]; intros s; cbn [map fold_left]; auto.
      - unfold zlen. now rewrite Lm. }
    rewrite Lev. split; [exact F2|].
    assert (Av : Rabs (average (map val ms) - level (val scale) g req local b) <= e1).
    { unfold level. fold bs. unfold ms. rewrite map_map. apply average_near; [lia|]. intros a Ha. apply Stat. eapply near_blocks_ok; eauto. }
    rewrite len_IZR in E2.
    assert (Q : rsum (map val ms) / INR (length ms) = average (map val ms)) by (unfold average; now rewrite map_length).
    rewrite Q in E2. replace (INR (length ms) * Bd / INR (length ms)) with Bd in E2 by (field; lra).
    set (m := val (fdiv f (fold_left (fadd f) ms (S754_zero false)) (float_of_Z f (zlen ms)))) in *.
    replace (m - level (val scale) g req local b) with ((m - average (map val ms)) + (average (map val ms) - level (val scale) g req local b)) by ring.
    eapply Rle_trans; [apply Rabs_triang|]. unfold level_error. fold c. replace (Z.to_nat (n + 16)) with (k + 16)%nat by (unfold k; lia).
    assert (G12 : (1 + u) ^ 3 * (1 + u) ^ length ms <= (1 + u) ^ 12) by (rewrite <- pow_add; apply G_mono; lia).
    assert (E3 : ((1 + u) ^ 3 * (1 + u) ^ length ms - 1) * Bd <= ((1 + u) ^ 12 - 1) * Bd) by (apply Rmult_le_compat_r; lra).
    assert (E4 : ((1 + u) ^ 12 - 1) * Bd = ((1 + u) ^ (k + 16) - (1 + u) ^ (k + 4)) * (c * M) + ((1 + u) ^ 12 - 1) * (3 * t)).
    { unfold Bd. replace (k + 16)%nat with (12 + (k + 4))%nat by lia. rewrite (pow_add (1 + u) 12). ring. }
    pose proof (P9 12%nat ltac:(lia)) as P12.
    assert (((1 + u) ^ 12 - 1) * (3 * t) <= / 1000 * (3 * t)) by (apply Rmult_le_compat_r; lra).
    assert (0 / INR (length ms) = 0) by (unfold Rdiv; ring). unfold e1 in Av. lra.
Qed.
End Mean.

(** ** Range of values *)
Section MinMax.
Variables (spread scale : spec_float) (M : R).
Hypothesis Fs : finite f scale.
Hypothesis Fp : finite f spread.
Hypothesis Hb : bounded_numbers f g M.
Notation B := (float_bminmax f spread scale).

Definition inrange (mm : spec_float * spec_float) (v : spec_float) : Prop := val (fst mm) <= val v <= val (snd mm).
Definition fin2 (mm : spec_float * spec_float) : Prop := finite f (fst mm) /\ finite f (snd mm).

Lemma step_ok mm v : fin2 mm -> finite f v -> val (fst mm) <= val (snd mm) -> let mm' := mm_step B mm v in
  fin2 mm' /\ val (fst mm') <= val (fst mm) /\ val (snd mm) <= val (snd mm') /\ inrange mm' v /\
  (fst mm' = fst mm \/ fst mm' = v) /\ (snd mm' = snd mm \/ snd mm' = v).
Proof.
  intros [F1 F2] Fv L. unfold mm_step. cbn [mm_lt float_bminmax]. unfold inrange.
  rewrite (ltb_val f v (fst mm)), (ltb_val f (snd mm) v) by auto.
  destruct (Rlt_bool_spec (val v) (val (fst mm))); cbn [fst snd].
  - split; [split; auto|]. split; [lra|]. split; [lra|]. split; [lra|]. auto.
  - destruct (Rlt_bool_spec (val (snd mm)) (val v)); cbn [fst snd].
    + split; [split; auto|]. split; [lra|]. split; [lra|]. split; [lra|]. auto.
    + split; [split; auto|]. split; [lra|]. split; [lra|]. split; [lra|]. auto.
Qed.
Lemma steps_ok l : (forall v, In v l -> finite f v) -> forall mm, fin2 mm -> val (fst mm) <= val (snd mm) ->
  let mm' := fold_left (mm_step B) l mm in
  fin2 mm' /\ val (fst mm') <= val (fst mm) /\ val (snd mm) <= val (snd mm') /\ (forall v, In v l -> inrange mm' v) /\
  (fst mm' = fst mm \/ In (fst mm') l) /\ (snd mm' = snd mm \/ In (snd mm') l).
Proof.
  induction l as [|a l IH]; intros Hl mm F L; cbn [fold_left]; cbn zeta.
  - split; auto. split; [lra|]. split; [lra|]. split; [intros v []|]. auto.
  - destruct (step_ok mm a F (Hl a (or_introl eq_refl)) L) as (F' & L1 & L2 & I & C1 & C2).
    assert (L' : val (fst (mm_step B mm a)) <= val (snd (mm_step B mm a))) by lra.
    destruct (IH (fun v Hv => Hl v (or_intror Hv)) (mm_step B mm a) F' L') as (F'' & L3 & L4 & I' & D1 & D2).
    split; auto. split; [lra|]. split; [lra|]. split.
    + intros v [<-|Hv]; [unfold inrange in *; lra|auto].
    + split.
      * destruct D1 as [->|D1]; [|right; now right]. destruct C1 as [->| ->]; [now left|right; now left].
      * destruct D2 as [->|D2]; [|right; now right]. destruct C2 as [->| ->]; [now left|right; now left].
Qed.
Lemma stat_range b : is_block g req b -> let mm := mm_stat B g req b in
  fin2 mm /\ In (fst mm) (block_pixels g req b) /\ In (snd mm) (block_pixels g req b) /\ forall v, In v (block_pixels g req b) -> inrange mm v.
Proof.
  intros Bl. unfold mm_stat. pose proof (area_small b Bl) as A. pose proof (fun v => block_numbers M Hb b v Bl) as N.
  destruct (block_pixels g req b) as [|v l]; [unfold zlen in A; cbn in A; lia|]. cbn zeta.
  assert (Fv : finite f v) by (apply N; now left).
  destruct (steps_ok (v :: l) ltac:(intros w Hw'; apply N; auto) (v, v) (conj Fv Fv) ltac:(cbn; lra)) as (F & _ & _ & I & C1 & C2).
  split; auto. split; [destruct C1 as [->|C1]; [now left|auto]|]. split; [destruct C2 as [->|C2]; [now left|auto]|]. auto.
Qed.
Lemma join_ok bs : (forall b, In b bs -> is_block g req b) -> forall mm, fin2 mm ->
  let mm' := fold_left (mm_join B) (map (mm_stat B g req) bs) mm in let l := flat_map (block_pixels g req) bs in
  fin2 mm' /\ val (fst mm') <= val (fst mm) /\ val (snd mm) <= val (snd mm') /\ (forall v, In v l -> inrange mm' v) /\
  (fst mm' = fst mm \/ In (fst mm') l) /\ (snd mm' = snd mm \/ In (snd mm') l).
Proof.
  induction bs as [|b bs IH]; intros H mm F; cbn [map fold_left flat_map]; cbn zeta.
  - split; auto. split; [lra|]. split; [lra|]. split; [intros v []|]. auto.
  - destruct (stat_range b (H b (or_introl eq_refl))) as ([S1 S2] & I1 & I2 & I3).
    set (s := mm_stat B g req b) in *. destruct F as [F1 F2].
    assert (J : fin2 (mm_join B mm s) /\ val (fst (mm_join B mm s)) <= val (fst mm) /\ val (fst (mm_join B mm s)) <= val (fst s) /\
      val (snd mm) <= val (snd (mm_join B mm s)) /\ val (snd s) <= val (snd (mm_join B mm s)) /\
      (fst (mm_join B mm s) = fst mm \/ fst (mm_join B mm s) = fst s) /\ (snd (mm_join B mm s) = snd mm \/ snd (mm_join B mm s) = snd s)).
    { unfold mm_join, fin2. cbn [mm_lt float_bminmax fst snd]. rewrite (ltb_val f (fst s) (fst mm)), (ltb_val f (snd mm) (snd s)) by auto.
      destruct (Rlt_bool_spec (val (fst s)) (val (fst mm))); destruct (Rlt_bool_spec (val (snd mm)) (val (snd s)));
        (split; [split; auto|]); repeat (split; [lra|]); auto. }
    destruct J as (JF & J1 & J2 & J3 & J4 & J5 & J6).
    destruct (IH (fun a Ha => H a (or_intror Ha)) _ JF) as (F' & L1 & L2 & I & C1 & C2).
    split; auto. split; [lra|]. split; [lra|]. split.
    + intros v Hv. apply in_app_or in Hv as [Hv|Hv]; [|auto]. specialize (I3 v Hv). unfold inrange in *. lra.
    + split; [destruct C1 as [->|C1]; [destruct J5 as [->| ->]; [now left|right; apply in_or_app; now left]|right; apply in_or_app; now right]|].
      destruct C2 as [->|C2]; [destruct J6 as [->| ->]; [now left|right; apply in_or_app; now left]|right; apply in_or_app; now right].
Qed.
Lemma near_numbers b v : is_block g req b -> In v (near_pixels g req local b) -> finite f v /\ Rabs (val v) <= M.
Proof.
  intros Bl Hv. unfold near_pixels in Hv. apply in_flat_map in Hv as (a & Ha & Hv). apply (block_numbers M Hb a); auto. eapply near_blocks_ok; eauto.
Qed.
Lemma range_near b lo hi : is_block g req b -> spans (near_pixels g req local b) lo hi -> smallest_normal f <= hi ->
  let mm := mm_range B g req local b in fin2 mm /\ val (fst mm) = lo /\ val (snd mm) = hi.
Proof.
  intros Bl ((v1 & I1 & V1) & (v2 & I2 & V2) & Hl) Hi. cbn zeta. unfold mm_range. cbn [mm_max mm_min float_bminmax].
  destruct (limit_max f St) as [F1 L1]. destruct (limit_min f St) as [F2 L2].
  destruct (join_ok (near_blocks g req local b) (fun a Ha => near_blocks_ok g req Hg Hw Hh local b a Bl Ha)
    (float_limit_max f, float_limit_min f) (conj F1 F2)) as (F & A1 & A2 & I & C1 & C2).
  fold (near_pixels g req local b) in I, C1, C2. set (mm := fold_left _ _ _) in *. cbn [fst snd] in *.
  split; auto. pose proof (I v1 I1) as X1. pose proof (I v2 I2) as X2. unfold inrange in X1, X2. split.
  - destruct C1 as [C1|C1].
    + pose proof (L1 v1 (proj1 (near_numbers b v1 Bl I1))). rewrite C1 in *. lra.
    + pose proof (Hl _ C1). lra.
  - destruct C2 as [C2|C2].
    + rewrite C2, L2 in *. lra.
    + pose proof (Hl _ C2). lra.
Qed.

Hypothesis HH : 4 * (Rabs (val scale) + 1) * (M + 1) < huge f.
Lemma value_near down x y v lo hi : pixel g x y = Some v -> spans (near_pixels g req local (home g req x y)) lo hi -> smallest_normal f <= hi ->
  exists z, mm_value B g req local down x y = Ok z /\ (z = 0 \/ z = 1)%Z /\
    (hi - lo <= val spread -> z = 1%Z) /\
    (val spread < (1 - u) * (hi - lo) ->
      (val v < val scale * middle lo hi - middle_error f (val scale) lo hi -> z = side down true) /\
      (val scale * middle lo hi + middle_error f (val scale) lo hi < val v -> z = side down false)).
Proof.
  intros Ev Sp Hi. destruct (unit_small f St) as [U0 U]. destruct (tiny_small f St) as [T0 T].
  pose proof (pixel_Some _ _ _ _ Ev) as I. pose proof (home_block g req Hw Hh x y I) as Bl. unfold mm_value. rewrite Ev.
  destruct (range_near _ lo hi Bl Sp Hi) as ([F1 F2] & V1 & V2).
  destruct (Hb x y v I Ev) as [Fv _].
  destruct Sp as ((v1 & I1 & W1) & (v2 & I2 & W2) & Hl).
  destruct (near_numbers _ v1 Bl I1) as [_ B1]. destruct (near_numbers _ v2 Bl I2) as [_ B2]. rewrite W1 in B1. rewrite W2 in B2.
  assert (Lh : lo <= hi) by (rewrite <- W1; apply Hl; auto).
  destruct (mm_range B g req local (home g req x y)) as [mn mx]. cbn [fst snd] in *.
  cbn [mm_texture mm_flat mm_average mm_le float_bminmax bind].
  set (c := Rabs (val scale)) in *. assert (c0 : 0 <= c) by apply Rabs_pos.
  assert (M0 : 0 <= M) by (eapply Rle_trans; [apply Rabs_pos|exact B1]).
  assert (H1 : 4 * (M + 1) < huge f).
  { eapply Rle_lt_trans; [|exact HH]. rewrite (Rmult_assoc 4). apply Rmult_le_compat_l; [lra|]. rewrite <- (Rmult_1_l (M + 1)) at 1. apply Rmult_le_compat_r; lra. }
  apply Rabs_le_inv in B1. apply Rabs_le_inv in B2.
  pose proof (rnd_add_err f W (val mx) (- val mn)) as ED.
  assert (Fm : fmt f (- val mn)) by (apply generic_format_opp; now apply finite_fmt).
  specialize (ED (finite_fmt f mx F2) Fm). replace (val mx + - val mn) with (hi - lo) in ED by (rewrite V1, V2; ring).
  rewrite (Rabs_pos_eq (hi - lo)) in ED by lra.
  assert (uD : u * (hi - lo) <= / 16777216 * (hi - lo)) by (apply Rmult_le_compat_r; lra).
  apply Rabs_le_inv in ED.
  destruct (fsub_fin f W mx mn F2 F1) as [FD VD].
  { rewrite V1, V2. rewrite Rabs_pos_eq; lra. }
  rewrite V1, V2 in VD.
  assert (Flat : SFleb (fsub f mx mn) spread = true <-> rnd f (hi - lo) <= val spread).
  { rewrite (L_FLocal.leb_val f _ _ FD Fp). now rewrite VD. }
  assert (Fl1 : hi - lo <= val spread -> rnd f (hi - lo) <= val spread).
  { intros X. rewrite <- (rnd_id f (val spread)) by (now apply finite_fmt). apply rnd_le; auto. }
  (* the middle *)
  pose proof (rnd_add_err f W (val mx) (val mn) (finite_fmt f mx F2) (finite_fmt f mn F1)) as ES.
  replace (val mx + val mn) with (2 * middle lo hi) in ES by (rewrite V1, V2; unfold middle; field).
  set (m := middle lo hi) in *. assert (Am : Rabs m <= M) by (unfold m, middle; apply Rabs_le; lra).
  rewrite Rabs_mult, (Rabs_pos_eq 2) in ES by lra.
  destruct (fadd_fin f W mx mn F2 F1) as [FS VS].
  { replace (val mx + val mn) with (2 * m) by (rewrite V1, V2; unfold m, middle; field).
    replace (rnd f (2 * m)) with (2 * m + (rnd f (2 * m) - 2 * m)) by ring. eapply Rle_lt_trans; [apply Rabs_triang|].
    rewrite Rabs_mult, (Rabs_pos_eq 2) by lra. assert (u * (2 * Rabs m) <= / 16777216 * (2 * Rabs m)) by (apply Rmult_le_compat_r; [pose proof (Rabs_pos m); lra|lra]). lra. }
  replace (val mx + val mn) with (2 * m) in VS by (rewrite V1, V2; unfold m, middle; field). rewrite <- VS in ES.
  set (s := val (fadd f mx mn)) in *.
  destruct (float_of_Z_exact f W 2) as [F22 V22]; [destruct St as [E|E]; rewrite E; cbn; lia|].
  assert (As : Rabs (s / 2) <= (1 + u) * Rabs m).
  { replace (s / 2) with (m + (s - 2 * m) / 2) by field. eapply Rle_trans; [apply Rabs_triang|]. unfold Rdiv. rewrite Rabs_mult, (Rabs_pos_eq (/ 2)) by lra. lra. }
  pose proof (rnd_err f W (s / 2)) as EQ. pose proof (Rabs_pos m) as m0.
  assert (uM : u * Rabs m <= / 16777216 * Rabs m) by (apply Rmult_le_compat_r; lra).
  assert (uS : u * Rabs (s / 2) <= u * ((1 + u) * Rabs m)) by (apply Rmult_le_compat_l; lra).
  assert (uuM : u * ((1 + u) * Rabs m) <= / 16777216 * (2 * Rabs m)) by (apply Rmult_le_compat; [lra|apply Rmult_le_pos; lra|lra|apply Rmult_le_compat_r; lra]).
  destruct (fdiv_fin f W (fadd f mx mn) (float_of_Z f 2) FS F22) as [FQ VQ].
  { rewrite V22. lra. }
  { rewrite V22. fold s. replace (rnd f (s / 2)) with (s / 2 + (rnd f (s / 2) - s / 2)) by ring. eapply Rle_lt_trans; [apply Rabs_triang|]. lra. }
  rewrite V22 in VQ. fold s in VQ. set (q := val (fdiv f (fadd f mx mn) (float_of_Z f 2))) in *.
  assert (E3 : Rabs (q - m) <= ((1 + u) ^ 2 - 1) * Rabs m + t).
  { rewrite VQ. replace (rnd f (s / 2) - m) with ((rnd f (s / 2) - s / 2) + (s - 2 * m) / 2) by field.
    eapply Rle_trans; [apply Rabs_triang|]. unfold Rdiv at 3. rewrite (Rabs_mult (s - 2 * m)), (Rabs_pos_eq (/ 2)) by lra.
    replace ((1 + u) ^ 2) with ((1 + u) * (1 + u)) by ring. lra. }
  assert (G2 : (1 + u) ^ 2 <= 1 + / 1000) by (apply (pow_small f St); lia).
  assert (Aq : Rabs q <= (1 + u) ^ 2 * Rabs m + t).
  { replace q with (m + (q - m)) by ring. eapply Rle_trans; [apply Rabs_triang|]. lra. }
  assert (Aq' : (1 + u) ^ 2 * Rabs m + t <= 2 * (M + 1)) by nra.
  pose proof (rnd_err f W (val scale * q)) as EM.
  assert (cq : Rabs (val scale * q) <= c * ((1 + u) ^ 2 * Rabs m + t)) by (rewrite Rabs_mult; apply Rmult_le_compat_l; auto).
  assert (cq' : c * ((1 + u) ^ 2 * Rabs m + t) <= c * (2 * (M + 1))) by (apply Rmult_le_compat_l; auto).
  assert (uq : u * Rabs (val scale * q) <= u * (c * ((1 + u) ^ 2 * Rabs m + t))) by (apply Rmult_le_compat_l; lra).
  assert (uq' : u * Rabs (val scale * q) <= / 16777216 * Rabs (val scale * q)) by (apply Rmult_le_compat_r; [apply Rabs_pos|lra]).
  destruct (fmul_fin f W scale (fdiv f (fadd f mx mn) (float_of_Z f 2)) Fs FQ) as [FA VA].
  { fold q. replace (rnd f (val scale * q)) with (val scale * q + (rnd f (val scale * q) - val scale * q)) by ring.
    eapply Rle_lt_trans; [apply Rabs_triang|]. assert (0 <= c * (M + 1)) by (apply Rmult_le_pos; lra). lra. }
  fold q in VA. set (a := fmul f scale _) in *.
  assert (E5 : Rabs (val a - val scale * m) <= middle_error f (val scale) lo hi).
  { rewrite VA. replace (rnd f (val scale * q) - val scale * m) with ((rnd f (val scale * q) - val scale * q) + val scale * (q - m)) by ring.
    eapply Rle_trans; [apply Rabs_triang|]. rewrite (Rabs_mult (val scale) (q - m)). fold c.
    assert (c * Rabs (q - m) <= c * (((1 + u) ^ 2 - 1) * Rabs m + t)) by (apply Rmult_le_compat_l; auto).
    unfold middle_error. fold m c. replace ((1 + u) ^ 3) with ((1 + u) * (1 + u) ^ 2) by ring.
    assert (c * (u * t) <= c * t) by (apply Rmult_le_compat_l; auto; nra).
    replace (c * (((1 + u) * (1 + u) ^ 2 - 1) * Rabs m + 2 * t) + t) with
      (u * (c * ((1 + u) ^ 2 * Rabs m)) + c * (((1 + u) ^ 2 - 1) * Rabs m + t) + c * t + t) by ring.
    replace (u * (c * ((1 + u) ^ 2 * Rabs m + t))) with (u * (c * ((1 + u) ^ 2 * Rabs m)) + c * (u * t)) in uq by ring. lra. }
  apply Rabs_le_inv in E5.
  destruct (SFleb (fsub f mx mn) spread).
  - exists 1%Z. split; auto. split; auto. split; auto. intros X. exfalso. pose proof (proj1 Flat eq_refl). lra.
  - assert (NF : ~ rnd f (hi - lo) <= val spread) by (intros X; apply Flat in X; discriminate).
    eexists. split; [reflexivity|]. pose proof (L_FLocal.leb_val f v a Fv FA) as LE. split; [destruct (SFleb v a), down; cbn; auto|].
    split; [intros X; exfalso; auto|]. intros _. split; intros X.
    + replace (SFleb v a) with true; auto. symmetry. apply LE. lra.
    + destruct (SFleb v a); auto. exfalso. pose proof (proj1 LE eq_refl). lra.
Qed.
End MinMax.
End G.

(** ** The filters *)
Section Top.
Variable f : fty.
Hypothesis St : standard f.
Notation zero := (S754_zero false).

Lemma mean_near_real scale local down (c : clen spec_float) g o req st0 M n : fits double c g o req ->
  ready (block_mean (float_bmean f scale) zero local down) st0 -> finite f scale -> bounded_numbers f g M ->
  (forall b, is_block g req b -> (zlen (block_pixels g req b) <= n)%Z) ->
  40 * (Rabs (val scale) + 1) * (IZR n * M + 1) * (1 + unit_error f) ^ Z.to_nat (n + 16) < huge f ->
  exists st out low, block_process (block_mean (float_bmean f scale) zero local down) double c st0 g o = Ok (st, out) /\
    ready (block_mean (float_bmean f scale) zero local down) st /\
    holds g o out (fun x y => Some (side down (low x y))) /\
    forall x y v, pixel g x y = Some v ->
      let t := level (val scale) g req local (home g req x y) in let e := level_error f n (val scale) M in
      (val v < t - e -> low x y = true) /\ (t + e < val v -> low x y = false).
Proof.
  intros F R Fs Hb Hn HH. destruct (float_mean_fits f scale local down c g o req st0 F R) as (st & out & E & R' & H).
  destruct F as (F1 & F2 & F3 & F4 & F5 & F6 & F7).
  exists st, out, (fun x y => match pixel g x y with Some v => SFleb v (float_level f scale g req local (home g req x y)) | None => false end).
  split; auto. split; auto. split.
  - eapply holds_ext; [|exact H]. intros x y I. cbn beta. destruct (pixel_exists g x y F1 I) as (v & ->). reflexivity.
  - intros x y v Ev. cbn zeta. rewrite Ev. pose proof (pixel_Some _ _ _ _ Ev) as I.
    destruct (level_near f St g req local F1 F6 F7 scale M n Fs Hb Hn HH _ (home_block g req F6 F7 x y I)) as [Fl El].
    destruct (Hb x y v I Ev) as [Fv _]. pose proof (L_FLocal.leb_val f v _ Fv Fl) as LE. apply Rabs_le_inv in El. split; intros X.
    + apply LE. lra.
    + destruct (SFleb v _); auto. exfalso. pose proof (proj1 LE eq_refl). lra.
Qed.

Lemma minmax_near_real spread scale local down (c : clen spec_float) g o req st0 M : fits double c g o req ->
  (cols g req * rows g req * 2 < 4294967296)%Z ->
  ready (block_minmax (float_bminmax f spread scale) zero local down) st0 -> finite f spread -> finite f scale -> bounded_numbers f g M ->
  4 * (Rabs (val scale) + 1) * (M + 1) < huge f ->
  exists st out bit, block_process (block_minmax (float_bminmax f spread scale) zero local down) double c st0 g o = Ok (st, out) /\
    ready (block_minmax (float_bminmax f spread scale) zero local down) st /\
    holds g o out (fun x y => Some (bit x y)) /\ (forall x y, bit x y = 0 \/ bit x y = 1)%Z /\
    forall x y v lo hi, pixel g x y = Some v -> spans (near_pixels g req local (home g req x y)) lo hi -> smallest_normal f <= hi ->
      (hi - lo <= val spread -> bit x y = 1%Z) /\
      (val spread < (1 - unit_error f) * (hi - lo) ->
        let t := val scale * middle lo hi in let e := middle_error f (val scale) lo hi in
        (val v < t - e -> bit x y = side down true) /\ (t + e < val v -> bit x y = side down false)).
Proof.
  intros F Hn R Fp Fs Hb HH. assert (F' := F). destruct F' as (F1 & F2 & F3 & F4 & F5 & F6 & F7).
  assert (Def : forall x y, inside g x y -> exists v, mm_value (float_bminmax f spread scale) g req local down x y = Ok v).
  { intros x y I. unfold mm_value. destruct (pixel_exists g x y F1 I) as (v & ->). destruct (mm_range _ _ _ _ _) as [mn mx].
    cbn [mm_texture mm_flat mm_average mm_le float_bminmax bind]. destruct (SFleb _ _); eauto. }
  destruct (minmax_any (float_bminmax f spread scale) zero local down double c g o req st0 F Hn Def R) as (st & out & E & R' & H).
  exists st, out, (fun x y => match mm_value (float_bminmax f spread scale) g req local down x y with Ok z => z | _ => 0%Z end).
  split; auto. split; auto. split.
  - eapply holds_ext; [|exact H]. intros x y I. cbn beta. destruct (Def x y I) as (v & ->). reflexivity.
  - split.
    + intros x y. unfold mm_value. destruct (pixel g x y); auto. destruct (mm_range _ _ _ _ _) as [mn mx].
      cbn [mm_texture mm_flat mm_average mm_le float_bminmax bind]. destruct (SFleb _ _); auto. destruct (SFleb _ _), down; cbn; auto.
    + intros x y v lo hi Ev Sp Hi. destruct (value_near f St g req local F1 F6 F7 spread scale M Fs Fp Hb HH down x y v lo hi Ev Sp Hi)
        as (z & -> & Z1 & Z2 & Z3). cbn zeta. auto.
Qed.
End Top.

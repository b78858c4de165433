(** Lemmas about images that share memory: when a shared output is allowed, and witnesses that it must be. *)
From Coq Require Import Floats.SpecFloat.
From Verif Require Import BaseFacts M_Image S_Image L_Image L_Window M_Convolve S_Convolve M_Heap S_Heap L_Heap M_Binary L_Binary M_Shared S_Shared L_Shared.

Lemma target_self a : target a a = a.
Proof. unfold target. now rewrite !Z.eqb_refl. Qed.
Lemma behind_aligned a b : h_block a = h_block b -> aligned a b -> behind a b.
Proof. intros Eb Al x y x' y' A B C D E. destruct (Al Eb x y x' y' A B C D E). unfold before. lia. Qed.

Lemma take_self H a (g : gray Z) : good H a g -> may_take a a /\ aligned a a.
Proof.
  intros G. pose proof (aligned_self H a g G) as Al. split; auto. split; [auto|]. intros _. rewrite target_self. now apply behind_aligned.
Qed.
Lemma take_other a out : h_width out = h_width a /\ h_height out = h_height a \/ h_sub out = false -> h_block a <> h_block out ->
  may_take a out /\ aligned a out /\ apart a (target a out).
Proof.
  intros Hs N. split; [split; auto; contradiction|]. split; [intros E; contradiction|]. intros E. exfalso. apply N.
  revert E. unfold target. destruct (_ && _); auto.
Qed.

Lemma take_parent {Px} (H : heap Px) p (gp : gray Px) x0 y0 x1 y1 s : good H p gp -> h_sub p = false ->
  is32 x0 -> is32 y0 -> is32 x1 -> is32 y1 -> h_subimage p x0 y0 x1 y1 = Ok s ->
  exists gs, good H s gs /\ may_take s p.
Proof.
  intros G Sp I1 I2 I3 I4 E. assert (G' := G). destruct G' as (V & W & L). pose proof (view_inv _ _ _ V) as (D & E1 & E2 & E3 & E4 & E5).
  unfold h_subimage in E. destruct (_ || _) eqn:B; [discriminate|]. injection E as <-. unfold is32 in *.
  pose proof (wf_small gp W) as Sm. unfold small in Sm. assert (W' := W). unfold wf in W'.
  destruct W' as (W1 & W2 & W3 & W4 & W5 & W6 & W7). destruct W7 as [W7 W8]; [congruence|].
  rewrite (u32_id (x1 - x0)), (u32_id (y1 - y0)) by lia.
  assert (O : x0 < x1 -> y0 < y1 -> h_offset p + y0 * h_stride p + x0 < 4294967296).
  { intros A C. specialize (W6 ltac:(lia) ltac:(lia)). nia. }
  destruct (Z.eq_dec x0 x1) as [Ex|Nx]; [|destruct (Z.eq_dec y0 y1) as [Ey|Ny]].
  3:{ rewrite (u32_id (h_offset p + y0 * h_stride p + x0)) by (specialize (O ltac:(lia) ltac:(lia)); nia).
      eexists. split.
      - split; [apply view_Some; exact D|]. split; [|exact L]. cbn. specialize (W6 ltac:(lia) ltac:(lia)).
        unfold wf. cbn. split; [lia|]. split; [lia|]. split; [nia|]. split; [lia|]. split; [lia|]. split; [intros _ _; nia|discriminate].
      - split; [now right|]. cbn [h_block]. intros _ x y x' y'. unfold target. cbn [h_width h_height h_offset h_stride].
        intros A C. assert (Y : 0 <= y0 * h_stride p) by (apply Z.mul_nonneg_nonneg; lia).
        assert (M1 : y * (x1 - x0) <= y * h_stride p) by (apply Z.mul_le_mono_nonneg_l; lia).
        destruct (_ && _) eqn:Q; cbn [h_width h_height h_offset h_stride]; intros D' F Ep [Lt|[-> Lt]]; try lia.
        + assert (M2 : (y' + 1) * h_stride p <= y * h_stride p) by (apply Z.mul_le_mono_nonneg_r; lia). lia.
        + assert (M2 : (y' + 1) * (x1 - x0) <= y * (x1 - x0)) by (apply Z.mul_le_mono_nonneg_r; lia). lia. }
  all: eexists; split; [split; [apply view_Some; exact D|split; [|exact L]]|
    split; [now right|]; cbn [h_block]; intros _ x y x' y' A C; cbn in A, C; lia].
  all: unfold wf; cbn; pose proof (u32_range (h_offset p + y0 * h_stride p + x0)); repeat split; try lia; try discriminate.
Qed.

(** In place, in terms of pixels. *)
Lemma threshold_in_place H a g t down : good H a g ->
  exists H' g', h_threshold H a t down a = Ok (H', a) /\ good H' a g' /\
    (forall x y v, pixel g x y = Some v -> pixel g' x y = Some (if (if down then v <=? t else v >? t) then 1 else 0)) /\
    (forall j, outside_window g j -> znth (g_data g') j = znth (g_data g) j) /\
    (forall k, k <> h_block a -> (k < length H)%nat -> nth_error H' k = nth_error H k).
Proof.
  intros G. destruct (take_self H a g G) as [T _]. pose proof (threshold_shared H a a g g t down G G T) as S.
  assert (G' := G). destruct G' as (V & W & L). pose proof (view_inv _ _ _ V) as (D & E1 & E2 & E3 & E4 & E5).
  destruct (threshold_ok Z.leb Z.gtb g t down g g W W) as (g' & E & Hd).
  { unfold gray_reshape. now rewrite !Z.eqb_refl. }
  rewrite E in S. cbn [only bind as_copies] in S. destruct (h_threshold H a t down a) as [[H' o']| | |] eqn:Eh; cbn in S; try contradiction.
  destruct S as (_ & V' & Fr).
  assert (Eo : o' = a).
  { revert Eh. unfold h_threshold, h_reshape. rewrite !Z.eqb_refl. cbn [andb bind]. destruct (h_pixels _ _ _ _); cbn; try discriminate.
    intros Q. now injection Q as _ <-. }
  subst o'. exists H', g'. split; auto. destruct Hd as (A1 & A2 & (B1 & B2 & B3 & B4 & B5 & B6) & C1 & C2).
  split.
  { split; auto. split; [|congruence]. clear - W B1 B2 B3 B4 B5 B6. unfold wf in *. now rewrite B1, B2, B3, B4, B5, B6. }
  split.
  { intros x y v Px. rewrite C1 by now apply pixel_Some in Px. now rewrite Px. }
  auto.
Qed.

(** Writing ahead of the reads spoils the input. *)
Definition overlap_heap : heap Z := [Some [2;9;9]].
Definition overlap_in : himg := mkHimg 2 1 0 3 true 0 3.
Definition overlap_out : himg := mkHimg 2 1 1 3 true 0 3.
Definition at0 : gray Z := mkGray 2 1 0 3 true [2;9;9].
Definition at1 : gray Z := mkGray 2 1 1 3 true [2;9;9].
Ltac good_tac := split; [reflexivity|split; [unfold wf; cbn; repeat split; try lia; intros; discriminate|reflexivity]].
Lemma threshold_overlap : exists H a out g go t, good H a g /\ good H out go /\
  h_width out = h_width a /\ h_height out = h_height a /\
  ~ as_copies H out (only (threshold Z.leb Z.gtb g t true go)) (only (h_threshold H a t true out)).
Proof.
  exists overlap_heap, overlap_in, overlap_out, at0, at1, 5. split; [good_tac|]. split; [good_tac|].
  split; [reflexivity|]. split; [reflexivity|]. vm_compute. intros (_ & E & _). discriminate.
Qed.

(** Morphology in place. *)
Definition dot : himg := mkHimg 4 3 0 4 false 0 12.
Definition dot_data : list Z := [0;0;0;0; 1;0;0;0; 0;0;0;0].
Definition full_data : list Z := [1;1;1;1; 1;1;1;1; 1;0;1;1].
Lemma dilate_in_place : exists H a g, good H a g /\ 
  ~ as_copies H a (only (dilate4 g g)) (only (h_dilate4 H a a)).
Proof.
  exists [Some dot_data], dot, (mkGray 4 3 0 4 false dot_data). split; [good_tac|]. vm_compute. intros (_ & E & _). discriminate.
Qed.
Lemma erode_in_place : exists H a g, good H a g /\
  ~ as_copies H a (only (erode4 g g)) (only (h_erode4 H a a)).
Proof.
  exists [Some full_data], dot, (mkGray 4 3 0 4 false full_data). split; [good_tac|]. vm_compute. intros (_ & E & _). discriminate.
Qed.

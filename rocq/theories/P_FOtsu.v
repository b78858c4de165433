(** Theorems about Otsu thresholds computed with [double] (C112). *)
From Coq Require Import QArith Reals Qreals Lia Lra.
From Coq Require Import Floats.SpecFloat.
From Verif Require Import BaseFacts M_Image M_Convolve S_Image L_Image M_GrowArray S_Blur M_Stats S_Stats S_Convolve M_Float M_Otsu S_Otsu
  S_Ieee S_FOtsu L_FOtsu P_Otsu.
Open Scope Z_scope.

(** C112: the split chosen with doubles separates the classes as well as any other, up to a bound on rounding errors. *)
Theorem C112_otsu : forall l h down, counts l -> holds_counts h l -> 0 < zlen l <= 2147483648 ->
  exists v t, otsu_compute double false (d_of double 0) down (d_of double 1) h (zsum l) = Ok (v, d_of double t) /\ near_best l t.
Proof. exact otsu_plain_double. Qed.
Print Assumptions C112_otsu.

(** A best split that beats the others by more than this bound is the one found. *)
Theorem C112_unique : forall l t t', best_split l t -> near_best l t' ->
  (forall i, 0 <= i < zlen l -> i <> t -> (Q2R (separation l i) + separation_loss (zlen l) (zsum l) < Q2R (separation l t))%R) -> t' = t.
Proof. exact near_best_exact. Qed.
Print Assumptions C112_unique.

(** The variant yields the middle between the means of the two classes of such a split. *)
Theorem C112_otsu2 : forall l h down, counts l -> holds_counts h l -> 0 < zlen l <= 65536 ->
  exists v t, otsu_compute double true (d_of double 0) down (d_of double 1) h (zsum l) = Ok (v, d_of double t) /\
    0 <= t < 4294967296 /\ near_middle l t.
Proof. exact otsu_middle_double. Qed.
Print Assumptions C112_otsu2.

(** The number returned for an image. *)
Theorem C112_index : forall t g mn mx, wf g -> (forall x y v, pixel g x y = Some v -> mn <= v <= mx) ->
  0 <= mx - mn < 2147483647 -> ity_min (promote t) <= mn -> mx < ity_max (promote t) -> mn < ity_max (promote t) ->
  exists th, image_otsu double t g mn mx false = Ok th /\ near_best (value_counts g mn mx) th.
Proof. exact image_otsu_double. Qed.
Print Assumptions C112_index.
Theorem C112_index2 : forall t g mn mx, wf g -> (forall x y v, pixel g x y = Some v -> mn <= v <= mx) ->
  0 <= mx - mn < 65536 -> ity_min (promote t) <= mn -> mx < ity_max (promote t) -> mn < ity_max (promote t) ->
  exists th, image_otsu double t g mn mx true = Ok th /\ near_middle (value_counts g mn mx) th.
Proof. exact image_middle_double. Qed.
Print Assumptions C112_index2.

(** The filter applies such a split if the range starts at 0. *)
Theorem C112_filter : forall t g mx down out o, wf g -> wf out -> gray_reshape 0 out (g_width g) (g_height g) = Ok o ->
  (forall x y v, pixel g x y = Some v -> 0 <= v <= mx) -> 0 <= mx < 2147483647 -> mx <= ity_max t ->
  exists th out', global_otsu double t g 0 mx down out = Ok out' /\ near_best (value_counts g 0 mx) th /\
    holds g o out' (fun x y => match pixel g x y with
      | Some v => Some (if (if down then v <=? th else v >? th) then 1 else 0) | None => None end).
Proof. exact global_otsu_double. Qed.
Print Assumptions C112_filter.

(** The bound is small: with 6 bins and 25 pixels less than 1 / 10^9 is lost, the best split wins by more than 1. *)
Definition dcounts : list Z := [3;5;1;7;8;1].
Definition dhist : growarr Z := ga_of_list (int_mem U32) dcounts.
Lemma small_loss : (separation_loss 6 25 < 1 / 1000000000)%R.
Proof. unfold separation_loss, bins_error. rewrite u_val. change (2 * 6 + 4) with 16. lra. Qed.
Lemma dhist_counts : counts dcounts /\ holds_counts dhist dcounts /\ 0 < zlen dcounts <= 65536 /\ zsum dcounts = 25.
Proof.
  split; [|split; [|split]].
  - split; [|split; reflexivity]. repeat constructor; discriminate.
  - split; [reflexivity|]. intros i v E. apply znth_Some_range in E as R. change (zlen dcounts) with 6 in R.
    assert (i = 0 \/ i = 1 \/ i = 2 \/ i = 3 \/ i = 4 \/ i = 5) as [->|[->|[->|[->|[->| ->]]]]] by lia;
      cbn in E; injection E as <-; reflexivity.
  - change (zlen dcounts) with 6. lia.
  - reflexivity.
Qed.
Example C112_hypotheses : counts dcounts /\ holds_counts dhist dcounts /\ 0 < zlen dcounts <= 65536 /\ best_split dcounts 2 /\
  (forall i, 0 <= i < zlen dcounts -> i <> 2 ->
    (Q2R (separation dcounts i) + separation_loss (zlen dcounts) (zsum dcounts) < Q2R (separation dcounts 2))%R) /\
  near_best dcounts 2 /\ (exists v, otsu_compute double true (d_of double 0) true (d_of double 1) dhist 25 = Ok (v, d_of double 2)).
Proof.
  destruct dhist_counts as (H1 & H2 & H3 & H4). split; [exact H1|]. split; [exact H2|]. split; [exact H3|].
  assert (S : forall i, 0 <= i < 6 -> i <> 2 -> (separation dcounts i + 1 < separation dcounts 2)%Q).
  { intros i Hi Ni. assert (i = 0 \/ i = 1 \/ i = 3 \/ i = 4 \/ i = 5) as [->|[->|[->|[->| ->]]]] by lia; now vm_compute. }
  assert (B : best_split dcounts 2).
  { split; [change (zlen dcounts) with 6; lia|]. change (zlen dcounts) with 6. split; intros i Hi.
    - destruct (Z.eq_dec i 2) as [->|N]; [apply Qle_refl|]. specialize (S i Hi N). eapply Qle_trans; [|apply Qlt_le_weak, S].
      rewrite <- (Qplus_0_r (separation dcounts i)) at 1. apply Qplus_le_r. discriminate.
    - specialize (S i ltac:(lia) ltac:(lia)). eapply Qle_lt_trans; [|apply S].
      rewrite <- (Qplus_0_r (separation dcounts i)) at 1. apply Qplus_le_r. discriminate. }
  assert (M : forall i, 0 <= i < zlen dcounts -> i <> 2 ->
    (Q2R (separation dcounts i) + separation_loss (zlen dcounts) (zsum dcounts) < Q2R (separation dcounts 2))%R).
  { intros i Hi Ni. rewrite H4. change (zlen dcounts) with 6 in *. specialize (S i Hi Ni). apply Qlt_Rlt in S. rewrite Q2R_plus in S.
    replace (Q2R 1) with 1%R in S by (unfold Q2R; cbn; lra). pose proof small_loss. lra. }
  split; [exact B|]. split; [exact M|]. split.
  - destruct (C112_otsu dcounts dhist true H1 H2 ltac:(lia)) as (v & t & _ & N). now rewrite <- (C112_unique _ _ _ B N M).
  - eexists. vm_compute. reflexivity.
Qed.
(** With the values of [oimg] the two thresholds are 11 and 15. *)
Example C112_image : wf oimg /\ (forall x y v, pixel oimg x y = Some v -> 0 <= v <= 20) /\
  image_otsu double U8 oimg 0 20 false = Ok 11 /\ image_otsu double U8 oimg 0 20 true = Ok 15 /\
  global_otsu double U8 oimg 0 20 true (gray_new 7 1 1) = Ok (mkGray 4 1 0 4 false [1;1;0;0]).
Proof.
  destruct C36_hypotheses as (H1 & H2 & _). split; [exact H1|]. split; [exact H2|]. repeat split; vm_compute; reflexivity.
Qed.

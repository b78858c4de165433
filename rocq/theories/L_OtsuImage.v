(** Lemmas about Otsu's method applied to images. *)
From Coq Require Import QArith Qround FinFun.
From Verif Require Import BaseFacts M_Image M_Convolve S_Image L_Image M_GrowArray L_GrowArray S_Blur L_Blur M_Stats S_Stats L_Stats
  M_Binary L_Binary S_Convolve M_Otsu S_Otsu L_Otsu.
Open Scope Z_scope.

Lemma zsum_zero (k : list Z) : zsum (map (fun _ => 0) k) = 0.
Proof. induction k; cbn [map]; rewrite ?zsum_cons; [reflexivity|lia]. Qed.
Lemma zsum_plus {B} (f g : B -> Z) (k : list B) : zsum (map (fun i => f i + g i) k) = zsum (map f k) + zsum (map g k).
Proof. induction k; cbn [map]; rewrite ?zsum_cons; [reflexivity|lia]. Qed.
Lemma zsum_once_aux a k : NoDup k -> zsum (map (fun i => if a =? i then 1 else 0) k) = if in_dec Z.eq_dec a k then 1 else 0.
Proof.
  induction 1 as [|x k N D IH]; [reflexivity|]. cbn [map]. rewrite zsum_cons, IH.
  destruct (Z.eqb_spec a x) as [->|E].
  - destruct (in_dec Z.eq_dec x k); [contradiction|]. destruct (in_dec Z.eq_dec x (x :: k)) as [|M]; [lia|].
    exfalso. apply M. now left.
  - destruct (in_dec Z.eq_dec a k) as [I|I], (in_dec Z.eq_dec a (x :: k)) as [M|M]; try lia.
    + exfalso. apply M. now right.
    + exfalso. destruct M; congruence.
Qed.
Lemma NoDup_zrange m : NoDup (zrange m).
Proof.
  unfold zrange. apply FinFun.Injective_map_NoDup; [|apply seq_NoDup]. intros x y. lia.
Qed.

(** Every pixel is counted in exactly one bin. *)
Lemma counts_total (px : list Z) mn m : (forall v, In v px -> 0 <= v - mn < m) ->
  zsum (map (fun i => zcount (mn + i) px) (zrange m)) = zlen px.
Proof.
  induction px as [|a px IH]; intros H; cbn [zcount].
  - zlen_nil. apply zsum_zero.
  - rewrite zsum_plus, IH by (intros; apply H; now right). rewrite zlen_cons.
    rewrite (map_ext _ (fun i => if a - mn =? i then 1 else 0)).
    + rewrite zsum_once_aux by apply NoDup_zrange. destruct (in_dec Z.eq_dec (a - mn) (zrange m)) as [|N]; [lia|].
      exfalso. apply N. apply zrange_In. apply H. now left.
    + intros i. destruct (Z.eqb_spec a (mn + i)), (Z.eqb_spec (a - mn) i); auto; lia.
Qed.

Lemma znth_zrange m i : 0 <= i < m -> znth (zrange m) i = Some i.
Proof.
  intros Hi. unfold zrange. rewrite znth_map. unfold znth. replace (i <? 0) with false by lia.
  rewrite (nth_error_nth' _ 0%nat) by (rewrite seq_length; lia). cbn. rewrite seq_nth by lia. f_equal. lia.
Qed.

Section Img.
Variables (g : gray Z) (mn mx : Z).
Hypothesis Hg : wf g.
Hypothesis Hp : forall x y v, pixel g x y = Some v -> mn <= v <= mx.
Hypothesis Hr : 0 <= mx - mn < 2147483647.
Notation l := (value_counts g mn mx).

Lemma value_counts_len : zlen l = mx - mn + 1.
Proof. clear Hp Hg. unfold value_counts. unfold zlen at 1. rewrite map_length. fold (zlen (zrange (mx - mn + 1))). apply zlen_zrange. lia. Qed.
Lemma value_counts_sum : zsum l = g_width g * g_height g.
Proof.
  unfold value_counts. rewrite counts_total; [now apply all_pixels_len|]. intros v Hv. apply all_pixels_In in Hv as (x & y & E).
  apply Hp in E. lia.
Qed.
Lemma value_counts_counts : counts l.
Proof.
  split; [|split].
  - unfold value_counts. apply Forall_map, Forall_forall. intros i _. apply zcount_range.
  - rewrite value_counts_sum. apply (wf_small g Hg).
  - rewrite value_counts_len. lia.
Qed.
Lemma value_counts_nth i : 0 <= i <= mx - mn -> znth l i = Some (zcount (mn + i) (all_pixels g)).
Proof. clear Hp Hg. intros Hi. unfold value_counts. rewrite znth_map, znth_zrange by lia. reflexivity. Qed.
End Img.

Lemma image_otsu_ok t g mn mx : wf g -> (forall x y v, pixel g x y = Some v -> mn <= v <= mx) ->
  0 <= mx - mn < 2147483647 -> ity_min (promote t) <= mn -> mx < ity_max (promote t) -> mn < ity_max (promote t) ->
  exists th, image_otsu exact t g mn mx false = Ok th /\ best_split (value_counts g mn mx) th.
Proof.
  intros Hg Hp Hr H1 H2 H3. unfold image_otsu.
  rewrite arith_result_in by lia. cbn [bind]. rewrite arith_result_in.
  2: { destruct t; cbn in *; lia. }
  cbn [bind]. rewrite (u32_id (1 + mx - mn)) by lia.
  destruct (histogram_ok t g mn (ga_new (int_mem U32) (1 + mx - mn))) as (h & E & S & V); auto.
  - cbn [ga_new ga_data ga_size]. rewrite zlen_repeat. lia.
  - cbn [ga_new ga_size]. lia.
  - intros x y v E. apply Hp in E. cbn [ga_new ga_size]. lia.
  - rewrite E. cbn [bind]. cbn [ga_new ga_size] in S, V.
    set (l := value_counts g mn mx). pose proof (value_counts_len g mn mx Hr) as Ll.
    destruct (otsu_plain l h true) as (v & th & Eo & B).
    + now apply value_counts_counts.
    + split; [fold l in Ll; lia|]. intros i c Ec. apply znth_Some_range in Ec as R. fold l in Ll.
      unfold l in Ec. rewrite value_counts_nth in Ec by lia. injection Ec as <-. apply V. lia.
    + fold l in Ll. lia.
    + unfold gray_total_pixels. assert (T : u32 (g_width g * g_height g) = zsum l).
      { unfold l. rewrite value_counts_sum by auto. apply u32_id. pose proof (wf_small g Hg) as Sm. unfold small in Sm.
        unfold wf in Hg. nia. }
      rewrite T. cbn [d_of exact]. change (inject_Z 0) with 0%Q. change (inject_Z 1) with 1%Q. rewrite Eo. cbn [bind snd].
      exists th. split; auto. unfold d_to. destruct B as (B & _). fold l in Ll.
      rewrite d_int_exact by (apply inj_nonneg; lia). rewrite Qfloor_Z.
      replace ((ity_min U32 <=? th) && (th <=? ity_max U32)) with true; auto. symmetry. apply Bool.andb_true_iff. cbn. lia.
Qed.

Lemma global_otsu_ok t g mx down out o : wf g -> wf out -> gray_reshape 0 out (g_width g) (g_height g) = Ok o ->
  (forall x y v, pixel g x y = Some v -> 0 <= v <= mx) -> 0 <= mx < 2147483647 -> mx <= ity_max t ->
  exists th out', global_otsu exact t g 0 mx down out = Ok out' /\ best_split (value_counts g 0 mx) th /\
    holds g o out' (fun x y => match pixel g x y with
      | Some v => Some (if (if down then v <=? th else v >? th) then 1 else 0) | None => None end).
Proof.
  intros Hg Ho Eo Hp Hm Ht. unfold global_otsu.
  destruct (image_otsu_ok t g 0 mx) as (th & E & B); auto; try lia; try (destruct t; cbn in *; lia).
  rewrite E. cbn [bind].
  assert (C : cast t th = th).
  { destruct B as (B & _). rewrite value_counts_len in B by lia. apply cast_id. destruct t; cbn in *; lia. }
  rewrite C. destruct (threshold_ok Z.leb Z.gtb g th down out o Hg Ho Eo) as (out' & E' & R). exists th, out'. auto.
Qed.

(** Any arithmetic, IEEE included: no access outside the histogram, the threshold is one of its bins. *)
Lemma otsu_1_in_range {D} (O : dops D) l h total : holds_counts h l -> 0 < zlen l ->
  exists v i, otsu_1 O h total = Ok (v, d_of O i) /\ 0 <= i < zlen l.
Proof.
  intros Hh Hz. assert (IX : forall i, 0 <= i < zlen l -> exists v, ga_idx h i = Ok v).
  { intros i Hi. destruct (idx_ok l h Hh i Hi) as (v & _ & E). eauto. }
  destruct Hh as [Es _]. unfold otsu_1, otsu_total, otsu_loop. rewrite Es.
  match goal with |- context [for_range 0 (zlen l) ?f ?s] =>
    destruct (for_range_inv (fun _ _ => True) 0 (zlen l) f s) as (sum & E & _) end; auto; [lia| |].
  { intros i s Hi _. destruct (IX i Hi) as (v & ->). cbn [bind]. eauto. }
  rewrite E. cbn [bind].
  match goal with |- context [for_range 0 (zlen l) ?f ?s] =>
    destruct (for_range_inv (fun _ q => 0 <= o_index q < zlen l) 0 (zlen l) f s) as (s' & E' & R) end; auto; [lia|cbn; lia| |].
  { intros i s Hi R. unfold otsu_step. destruct (o_stop s); [eauto|]. destruct (IX i Hi) as (v & ->). cbn [bind].
    destruct (_ =? 0); [eexists; split; [reflexivity|auto]|]. destruct (_ =? 0); [eexists; split; [reflexivity|auto]|].
    destruct (d_lt O _ _); (eexists; split; [reflexivity|]); cbn; auto. }
  rewrite E'. cbn [bind]. eexists _, _. split; [reflexivity|auto].
Qed.

Lemma double_ties : exists l h v t,
  counts l /\ holds_counts h l /\ 0 < zlen l <= 2147483648 /\
  otsu_compute double false (d_of double 0) true (d_of double 1) h (zsum l) = Ok (v, d_of double t) /\ ~ best_split l t.
Proof.
  exists [1;1;1], (ga_of_list (int_mem U32) [1;1;1]). eexists. exists 1. split; [|split; [|split; [|split]]].
  - split; [|split; reflexivity]. repeat constructor; discriminate.
  - split; [reflexivity|]. intros i v E. apply znth_Some_range in E as R. change (zlen [1;1;1]) with 3 in R.
    assert (i = 0 \/ i = 1 \/ i = 2) as [->|[->| ->]] by lia; cbn in E; injection E as <-; reflexivity.
  - split; [reflexivity|discriminate].
  - vm_compute. reflexivity.
  - intros (_ & _ & S). specialize (S 0 ltac:(lia)). vm_compute in S. discriminate.
Qed.

Lemma nonzero_minimum : exists (g : gray Z) mn mx th out x y v,
  wf g /\ (forall x y v, pixel g x y = Some v -> mn <= v <= mx) /\ 0 <= mn <= mx /\ mx <= ity_max U8 /\
  best_split (value_counts g mn mx) th /\
  global_otsu exact U8 g mn mx true (gray_new 7 1 1) = Ok out /\
  global_otsu double U8 g mn mx true (gray_new 7 1 1) = Ok out /\
  pixel g x y = Some v /\ v <= mn + th /\ pixel out x y = Some 0.
Proof.
  set (g := mkGray 4 1 0 4 false [10;11;20;20]).
  assert (Hg : wf g) by (unfold wf; cbn; repeat split; try lia; intros; discriminate).
  assert (Hp : forall x y v, pixel g x y = Some v -> 10 <= v <= 20).
  { intros x y v E. pose proof (pixel_Some _ _ _ _ E) as [[X1 X2] [Y1 Y2]]. cbn in X2, Y2. assert (y = 0) as -> by lia.
    assert (x = 0 \/ x = 1 \/ x = 2 \/ x = 3) as [->|[->|[->| ->]]] by lia; cbn in E; injection E as <-; lia. }
  destruct (image_otsu_ok U8 g 10 20) as (th & E & B); auto; try (cbn; lia).
  exists g, 10, 20, th. eexists _, 0, 0, 10. split; auto. split; auto. split; [lia|]. split; [cbn; lia|]. split; auto.
  split; [vm_compute; reflexivity|]. split; [vm_compute; reflexivity|]. split; [reflexivity|].
  split; [destruct B as (B & _); lia|reflexivity].
Qed.

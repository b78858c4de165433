(** The whole of the labeller: bordered copy, scan of all rows. *)
From Verif Require Import Base BaseFacts M_Image S_Image L_Image M_Misc S_Convolve S_Stats L_Misc M_PackedSet S_PackedSet L_PackedSet
  M_Contour S_Contour L_Crack L_Cycle L_Step L_Trace L_Trig L_Label.
From Coq Require Import Lia Sorted.

(** Foreground of the bordered copy of [g]. *)
Definition pic (g : gray Z) (x y : Z) : bool := match pixel g (x - 1) (y - 1) with Some v => v =? 1 | None => false end.
Lemma pic_dims g x y : pic g x y = true -> 1 <= x <= g_width g /\ 1 <= y <= g_height g.
Proof.
  unfold pic. destruct (pixel g (x - 1) (y - 1)) eqn:E; [|discriminate]. intros _. apply pixel_Some in E. destruct E. lia.
Qed.

(** The bordered image the labeller keeps: not shared, and its ring holds no foreground. *)
Record border_ok (b : gray Z) : Prop := {
  bo_wf : wf b;
  bo_sub : g_sub b = false;
  bo_ring : forall x y, near_edge b 1 x y = true -> pixel b x y <> Some 1 }.

Section Border.
Variables (b g : gray Z).
Hypothesis Bo : border_ok b.
Hypothesis Wg : wf g.
Hypothesis Bin : forall x y v, pixel g x y = Some v -> v = 0 \/ v = 1.
Hypothesis Hsz : 4 * (g_width g + 2) * (g_height g + 2) < 4294967296.

Lemma sizes : 0 <= g_width g < 536870910 /\ 0 <= g_height g < 536870910 /\ (g_width g + 2) * (g_height g + 2) < 4294967296.
Proof. destruct Wg as (H1 & H2 & _). nia. Qed.

Lemma make_border_ok : exists b', make_border b g = Ok b' /\
  bin_ok (pic g) (g_width g) (g_height g) b' /\ border_ok b' /\
  (forall x y, 1 <= x <= g_width g -> 1 <= y <= g_height g -> pic g x y = false -> pixel b' x y = Some 0).
Proof.
  pose proof sizes as (Dw & Dh & Dm). destruct Bo as [W S Ri]. unfold make_border. rewrite !(u32_id (_ + 2)) by lia.
  assert (exists b1, (if negb (g_width b =? g_width g + 2) || negb (g_height b =? g_height g + 2)
              then let* r := gray_reshape 0 b (g_width g + 2) (g_height g + 2) in gray_fill_border r 0 1
              else Ok b) = Ok b1 /\ border_ok b1 /\ g_width b1 = g_width g + 2 /\ g_height b1 = g_height g + 2) as (b1 & E1 & Bo1 & W1 & H1).
  { destruct (negb _ || negb _) eqn:E.
    - assert (exists r, gray_reshape 0 b (g_width g + 2) (g_height g + 2) = Ok r /\ g_sub r = false) as (r & Er & Sr).
      { unfold gray_reshape. destruct (_ && _); [eauto|]. rewrite S. eauto. }
      destruct (gray_reshape_wf 0 b (g_width g + 2) (g_height g + 2) r W ltac:(lia) ltac:(lia) ltac:(lia) Er) as (Wr & E1 & E2). rewrite Er. cbn [bind].
      destruct (gray_fill_border_ok r Wr 0 1 ltac:(lia)) as (b1 & Eb & F1 & F2 & F3 & F4 & _). exists b1. split; auto.
      split; [|lia]. split; [now apply (wf_layout r)| |].
      { destruct F3 as (_ & _ & _ & _ & F & _). congruence. }
      intros x y Hn Hp. pose proof (pixel_Some _ _ _ _ Hp) as I. apply (inside_layout r b1) in I; auto. rewrite F4 in Hp by auto.
      replace (near_edge r 1 x y) with true in Hp; [discriminate|]. symmetry. unfold near_edge in *. now rewrite F1, F2 in Hn.
    - exists b. split; auto. split; [now split|]. lia. }
  rewrite E1. cbn [bind]. destruct Bo1 as [Wb1 S1 R1].
  rewrite W1, H1, !u32_id by lia. replace (g_width g + 2 - 1) with (g_width g + 1) by lia. replace (g_height g + 2 - 1) with (g_height g + 1) by lia.
  assert (exists s, gray_subimage b1 1 1 (g_width g + 1) (g_height g + 1) = Ok s) as (s & Es).
  { unfold gray_subimage. replace (_ || _) with false by lia. eauto. }
  rewrite Es. cbn [bind]. pose proof (gray_subimage_ok b1 1 1 (g_width g + 1) (g_height g + 1) s Wb1 ltac:(lia) ltac:(lia) Es) as (_ & _ & _ & _ & Sw & Sh & Ss & Sd & _).
  pose proof (gray_subimage_wf b1 1 1 (g_width g + 1) (g_height g + 1) s Wb1 ltac:(lia) ltac:(lia) Es) as Ws.
  destruct (gray_copy_ok 0 s g Ws Wg ltac:(nia)) as (s1 & s' & Er & Ec & Ls & Ws' & W' & H' & P' & F'); [right; lia|].
  assert (s1 = s) as ->.
  { unfold gray_reshape in Er. replace (_ && _) with true in Er by lia. congruence. }
  rewrite Ec. cbn [bind]. eexists. split; [reflexivity|].
  assert (zlen (g_data s') = zlen (g_data b1)) as Len.
  { destruct Ls as (_ & _ & _ & _ & _ & L). congruence. }
  set (b2 := with_data b1 (g_data s')).
  assert (same_layout b1 b2) as L2 by now apply with_data_layout.
  assert (wf b2) as W2 by now apply (wf_layout b1).
  assert (forall x y, inside b1 x y -> near_edge b1 1 x y = true -> pixel b2 x y = pixel b1 x y) as Ring.
  { intros x y I N. rewrite !pixel_inside by (auto; now apply (inside_layout b1 b2)). rewrite (pos_layout b1 b2) by auto. cbn [g_data b2 with_data].
    rewrite F', Sd; auto. intros u v Iu E. apply (inside_layout s s') in Iu; auto. rewrite (pos_layout s s') in E by auto.
    destruct (gray_subimage_pos b1 1 1 (g_width g + 1) (g_height g + 1) s u v Wb1 ltac:(lia) ltac:(lia) Es Iu) as [Iv Ep]. rewrite Ep in E.
    apply pos_inj in E as [<- <-]; auto. destruct Iu. unfold near_edge in N. rewrite W1, H1 in N. lia. }
  assert (forall x y, 1 <= x <= g_width g -> 1 <= y <= g_height g -> pixel b2 x y = pixel g (x - 1) (y - 1)) as Inner.
  { intros x y Hx Hy. rewrite <- P'. assert (inside s (x - 1) (y - 1)) as I by (split; lia).
    destruct (gray_subimage_pos b1 1 1 (g_width g + 1) (g_height g + 1) s (x - 1) (y - 1) Wb1 ltac:(lia) ltac:(lia) Es I) as [Iv Ep].
    replace (1 + (x - 1)) with x in * by lia. replace (1 + (y - 1)) with y in * by lia.
    rewrite !pixel_inside by (auto; first [now apply (inside_layout b1 b2)|now apply (inside_layout s s')]).
    rewrite (pos_layout b1 b2), (pos_layout s s') by auto. cbn [g_data b2 with_data]. now rewrite Ep. }
  split; [|split].
  - split; auto. split; [cbn; lia|]. split; [cbn; lia|]. intros x y Hx Hy.
    destruct (near_edge b1 1 x y) eqn:N.
    + assert (inside b1 x y) as I by (split; lia). rewrite Ring by auto. destruct (pixel_exists b1 x y Wb1 I) as (v & V).
      exists v. split; auto. pose proof (R1 x y N) as X. rewrite V in X.
      destruct (pic g x y) eqn:P; [apply pic_dims in P; unfold near_edge in N; rewrite W1, H1 in N; lia|].
      apply Z.eqb_neq. congruence.
    + assert (1 <= x <= g_width g /\ 1 <= y <= g_height g) as [Hx' Hy'] by (unfold near_edge in N; rewrite W1, H1 in N; lia).
      rewrite Inner by auto. destruct (pixel_exists g (x - 1) (y - 1) Wg ltac:(split; lia)) as (v & V). exists v. split; auto.
      unfold pic. now rewrite V.
  - split; auto. intros x y N. change (near_edge b2 1 x y) with (near_edge b1 1 x y) in N. intros Hp.
    pose proof (pixel_Some _ _ _ _ Hp) as I. apply (inside_layout b1 b2) in I; auto. rewrite Ring in Hp by auto. now apply (R1 x y).
  - intros x y Hx Hy P. rewrite Inner by auto. unfold pic in P.
    destruct (pixel_exists g (x - 1) (y - 1) Wg ltac:(split; lia)) as (v & V). rewrite V in *.
    destruct (Bin _ _ _ V) as [-> | ->]; auto. discriminate.
Qed.
End Border.

(** ** The scan *)
Section Process.
Variables (fuel : nat) (st : labeler) (g lab : gray Z).
Notation r := (lb_rule st).
Notation w := (g_width g). Notation h := (g_height g). Notation B := (pic g).
Hypothesis Bo : border_ok (lb_border st).
Hypothesis Hps : exists s, Rps (lb_pts st) s.
Hypothesis Hmax : 0 <= lb_max st.
Hypothesis Wg : wf g.
Hypothesis Bin : forall x y v, pixel g x y = Some v -> v = 0 \/ v = 1.
Hypothesis Hsz : 4 * (w + 2) * (h + 2) < 4294967296.
Hypothesis Wl : wf lab.
Hypothesis Hsub : g_sub lab = true -> g_width lab = w /\ g_height lab = h /\ g_stride lab < 2147483647.
Hypothesis Hfuel : 4 * w * h <= Z.of_nat fuel.

Lemma before_next (q : point) x y : before q (x, y) \/ q = (x, y) <-> before q (x + 1, y).
Proof.
  unfold before; destruct q as [a b]; cbn. split.
  - intros [H|[= -> ->]]; lia.
  - intros H. destruct (Z.eq_dec b y), (Z.eq_dec a x); subst; auto; left; lia.
Qed.

(** What a run leaves behind. *)
Record run_ok (lab0 : gray Z) (st' : labeler) (lab' : gray Z) (T : list crack) (ls : list (list point)) : Prop := {
  ro_set : lb_rule st' = r /\ lb_min st' = lb_min st /\ lb_max st' = lb_max st /\ lb_save st' = lb_save st;
  ro_border : border_ok (lb_border st');
  ro_lab : same_layout lab0 lab';
  ro_wf : wf lab' /\ g_width lab' = w /\ g_height lab' = h;
  ro_frame : forall j, outside_window lab' j -> znth (g_data lab') j = znth (g_data lab0) j;
  ro_T : forall c, In c T <-> trig r B c;
  ro_sorted : StronglySorted tlt T;
  ro_black : forall q, isB B q -> exists v, pixel lab' (fst q - 1) (snd q - 1) = Some v /\ rank r B T q v;
  ro_white : forall x y, 1 <= x <= w -> 1 <= y <= h -> B x y = false -> pixel lab' (x - 1) (y - 1) = Some 0;
  ro_con : conrel r B T (lb_contours st');
  ro_pts : Rps (lb_pts st') ls;
  ro_ls : Forall2 (stored r B st) T ls }.

Lemma process_ok : exists lab0 st' lab' T ls, gray_reshape 0 lab w h = Ok lab0 /\
  process fuel st g lab = Ok (st', lab') /\ run_ok lab0 st' lab' T ls.
Proof.
  pose proof (sizes g Wg Hsz) as (Dw & Dh & Dm). pose proof (pic_dims g) as HB.
  assert (exists lab0, gray_reshape 0 lab w h = Ok lab0 /\ g_stride lab0 < 2147483647) as (lab0 & E0 & St0).
  { unfold gray_reshape. destruct (_ && _) eqn:E.
    - exists lab. split; auto. destruct (g_sub lab) eqn:S; [now apply Hsub|].
      destruct Wl as (_ & _ & _ & _ & _ & _ & X). destruct (X S) as [_ ->]. lia.
    - destruct (g_sub lab) eqn:S; [destruct (Hsub eq_refl) as (X & Y & _); lia|]. eexists. split; [reflexivity|]. cbn. lia. }
  destruct (gray_reshape_wf 0 lab w h lab0 Wl ltac:(lia) ltac:(lia) ltac:(nia) E0) as (W0 & Ew0 & Eh0).
  destruct (make_border_ok (lb_border st) g Bo Wg Bin Hsz) as (b & Eb & Bk & Bb & Bz).
  destruct (gray_fill_ok lab0 W0 0) as (lf & Ef & F1 & F2 & F3 & F4 & F5).
  assert (wf lf) as Wf by now apply (wf_layout lab0).
  pose proof Bk as (Wb & Ew & Eh & _).
  assert (g_stride b = w + 2 /\ g_offset b = 0) as [Sb Ob].
  { destruct Bb as [_ Bs _]. destruct Wb as (_ & _ & _ & _ & _ & _ & X). destruct (X Bs). lia. }
  assert (0 <= g_stride lf < 2147483647) as Sl.
  { destruct F3 as (_ & _ & _ & -> & _). destruct W0 as (X & _ & _ & Y & _). lia. }
  destruct (set_offsets_ok r B w h HB (g_stride b)) as (ob & Eob & Tob); [lia|].
  destruct (set_offsets_ok r B w h HB (g_stride lf)) as (ol & Eol & Tol); [lia|].
  destruct Hps as (s0 & Rs). pose proof (Rps_clear _ _ Rs) as Rc.
  set (inv := fun (x y : Z) (s : scan) => exists T, linv r B w h st b lf s T (fun c => before (cpix c) (x, y)) (fun q => before q (x, y))).
  assert (forall s x y x' y', inv x y s -> (forall q, isB B q -> before q (x', y') <-> before q (x, y)) -> inv x' y' s) as Move.
  { intros s x y x' y' (T & [G C P]) H. exists T. split; auto. apply (ginv_ext _ _ _ _ _ _ _ _ _ _ _ _ _ G).
    - intros c Tc. apply H. now apply (trig_black r).
    - intros q Bq Hq. apply (gi_scanned _ _ _ _ _ _ _ _ _ _ _ G); auto. now apply H. }
  assert (exists s, for_range 1 (h + 1) (fun y s =>
      for_range 1 (w + 1) (fun x s => scan_pixel fuel st ob ol x y (u32 (u32 (g_offset b + y * g_stride b + 1) + (x - 1)))
         (u32 (u32 (g_offset lf + (y - 1) * g_stride lf) + (x - 1))) s) s)
    (mkScan b lf (ps_clear (lb_pts st)) []) = Ok s /\ inv 1 (h + 1) s) as (s & Es & T & Ln).
  { apply (for_range_inv (fun y s => inv 1 y s)); [lia| |].
    - exists []. split; cbn.
      + split; auto.
        * split; auto. lia.
        * apply same_layout_refl.
        * apply same_layout_refl.
        * intros c. split; [easy|]. intros [Tc Dc]. apply (trig_black r) in Tc. apply HB in Tc. destruct c as [cx cy o]; cbn in *. unfold before in Dc; cbn in Dc. lia.
        * constructor.
        * easy.
        * intros q Bq. pose proof (HB _ _ Bq). exists 0. split; auto. apply F4. split; lia.
        * intros x y Hx Hy _. apply F4. split; lia.
        * intros q Hq Bq. apply HB in Bq. destruct q; unfold before in Hq; cbn in *. lia.
      + constructor.
      + exists []. split; auto.
    - intros y s Hy Hi. destruct (for_range_inv (fun x s => inv x y s) 1 (w + 1) (fun x s => scan_pixel fuel st ob ol x y (u32 (u32 (g_offset b + y * g_stride b + 1) + (x - 1)))
         (u32 (u32 (g_offset lf + (y - 1) * g_stride lf) + (x - 1))) s) s) as (s' & Es & Is); [lia|exact Hi| |].
      + intros x s1 Hx (T & Ln).
        assert (u32 (u32 (g_offset b + y * g_stride b + 1) + (x - 1)) = pos b x y) as ->.
        { assert (0 <= pos b x y < 4294967296) as X.
          { pose proof (wf_pos b x y Wb ltac:(split; lia)). destruct Wb as (_ & _ & _ & _ & X & _). lia. }
          unfold pos in *. unfold u32 in *. rewrite Z.add_mod_idemp_l by lia. rewrite Z.mod_small; lia. }
        assert (u32 (u32 (g_offset lf + (y - 1) * g_stride lf) + (x - 1)) = pos lf (x - 1) (y - 1)) as ->.
        { assert (0 <= pos lf (x - 1) (y - 1) < 4294967296) as X.
          { pose proof (wf_pos lf (x - 1) (y - 1) Wf ltac:(split; lia)). destruct Wf as (_ & _ & _ & _ & X & _). lia. }
          unfold pos in *. unfold u32 in *. rewrite Z.add_mod_idemp_l by lia. rewrite Z.mod_small; lia. }
        destruct (scan_pixel_ok r B w h HB ltac:(lia) ltac:(lia) Hsz st eq_refl Hmax b lf ob ol Tob Tol fuel Hfuel x y ltac:(lia) ltac:(lia) s1 T Ln)
          as (s2 & T2 & E2 & [G C P]).
        exists s2. split; auto. exists T2. split; auto. apply (ginv_ext _ _ _ _ _ _ _ _ _ _ _ _ _ G).
        * intros c _. symmetry. apply before_next.
        * intros q Bq Hq. apply (gi_scanned _ _ _ _ _ _ _ _ _ _ _ G); auto. now apply before_next.
      + exists s'. split; auto. apply (Move s' (w + 1) y); auto. intros q Bq. apply HB in Bq. unfold before; cbn. lia. }
  destruct Ln as [G C (ls & Rl & Fl)].
  assert (forall q, isB B q -> before q (1, h + 1)) as All.
  { intros q Bq. apply HB in Bq. unfold before; cbn. lia. }
  exists lab0. unfold process. rewrite E0. cbn [bind]. rewrite Eb. cbn [bind]. rewrite Ef. cbn [bind]. rewrite Eob. cbn [bind]. rewrite Eol. cbn [bind].
  rewrite Ew, Eh, !u32_id by lia. replace (w + 2 - 1) with (w + 1) by lia. replace (h + 2 - 1) with (h + 1) by lia. rewrite Es. cbn [bind].
  eexists _, _, T, ls. split; [reflexivity|]. split; [reflexivity|].
  pose proof G as [G1 G2 G3 G4 G5 G6 G7 G8 G9 G10 G11 G12 G13]. split; cbn; auto.
  - destruct G1 as (Gw & Gx & Gy & Gr). split; auto.
    + destruct G3 as (_ & _ & _ & _ & -> & _). apply Bb.
    + intros x y N Hp. destruct (Gr x y) as (v & V & Ev).
      { apply pixel_Some in Hp. destruct Hp. lia. }
      { apply pixel_Some in Hp. destruct Hp. lia. }
      rewrite Hp in V. injection V as <-. cbn in Ev. symmetry in Ev. apply HB in Ev. unfold near_edge in N. rewrite Gx, Gy in N. lia.
  - eapply same_layout_trans; eauto.
  - intros j Hj. assert (outside_window lab0 j) as Hj0.
    { intros x y I. rewrite <- (pos_layout lab0 lf) by auto. rewrite <- (pos_layout lf (sc_lab s)) by auto. apply Hj.
      apply (inside_layout lf (sc_lab s)); auto. now apply (inside_layout lab0 lf). }
    rewrite <- F5 by auto. apply G5. intros x y I. rewrite (pos_layout lab0 lf) by auto. apply Hj0. now apply (inside_layout lab0 lf).
  - intros c. rewrite G6. split; [tauto|]. intros Tc. split; auto. apply All. now apply (trig_black r).
  - intros q Bq. destruct (G10 q Bq) as (v & V & [->|X]); eauto. exfalso. exact (G13 q (All q Bq) Bq V).
Qed.
End Process.

(** Lemmas about the contour finder called from Java. *)
From Coq Require Import Sorting.Sorted.
From Verif Require Import BaseFacts M_Image S_Image L_Image M_GrowArray L_GrowArray M_PackedSet S_PackedSet L_PackedSet M_Contour S_Contour L_Crack
  L_Trig L_Trace L_Label L_Scan L_Contour M_Jni S_Jni L_Jni M_Native S_Native L_Native.
Open Scope Z_scope.

(** ** What holds of the points before a call holds afterwards *)
Section Keep.
  Context (I : pset (Z * Z) -> Prop).
  Context (Ic : forall p, I p -> I (ps_clear p)) (Is : forall p p', I p -> ps_start p = Ok p' -> I p')
    (Ip : forall p v p', I p -> ps_push p v = Ok p' -> I p') (Ir : forall p, I p -> I (ps_remove_tail p)).
  Ltac inv H := apply bind_Ok in H; let a := fresh "a" in let E := fresh "E" in destruct H as (a & E & H).

  Lemma keep_search c t b t' : search_black c t = Ok (b, t') -> tr_pts t' = tr_pts t.
  Proof. intros H. unfold search_black in H. inv H. inv H. destruct a0 as [[b0 d] g]. now injection H as _ <-. Qed.
  Lemma keep_move c t t' : move_to_next c t = Ok t' -> tr_pts t' = tr_pts t.
  Proof. intros H. unfold move_to_next in H. inv H. inv H. inv H. inv H. now injection H as <-. Qed.
  Lemma keep_turn c t t' : turn c t = Ok t' -> tr_pts t' = tr_pts t.
  Proof. intros H. unfold turn in H. inv H. now injection H as <-. Qed.
  Lemma keep_add c t t' : I (tr_pts t) -> tr_add c t = Ok t' -> I (tr_pts t').
  Proof.
    intros K H. unfold tr_add in H. inv H. destruct (_ <? _).
    - inv H. inv H. inv H. injection H as <-. cbn. eauto.
    - now injection H as <-.
  Qed.
  Lemma keep_loop fuel c x0 y0 d0 : forall t t', I (tr_pts t) -> trace_loop fuel c x0 y0 d0 t = Ok t' -> I (tr_pts t').
  Proof.
    induction fuel as [|n IH]; cbn [trace_loop]; intros t t' K H; [discriminate|]. inv H. destruct a as [b t1]. apply keep_search in E.
    destruct (_ && _).
    - injection H as <-. now rewrite E.
    - inv H. inv H. inv H. apply keep_add in E0; [|now rewrite E]. apply keep_move in E1. apply keep_turn in E2.
      apply (IH a1); auto. now rewrite E2, E1.
  Qed.
  Lemma keep_trace fuel c bin lab pts x0 y0 ext t : I pts -> trace fuel c bin lab pts x0 y0 ext = Ok t -> I (tr_pts t).
  Proof.
    intros K H. unfold trace in H. inv H. apply keep_add in E; [|exact K]. inv H. destruct a0 as [fd t2]. apply keep_search in E0.
    destruct (negb fd).
    - injection H as <-. now rewrite E0.
    - inv H. inv H. apply keep_move in E1. apply keep_turn in E2. apply keep_loop in H; auto. now rewrite E2, E1, E0.
  Qed.
  Lemma keep_limit mn mx p p' : I p -> limit_tail mn mx p = Ok p' -> I p'.
  Proof. unfold limit_tail. destruct (_ || _); intros K H; [eauto|now injection H as <-]. Qed.
  Lemma keep_step1 fuel st ob ol x y s s' : I (sc_pts s) -> step1 fuel st ob ol x y s = Ok s' -> I (sc_pts s').
  Proof.
    intros K H. unfold step1 in H. inv H. inv H. inv H. injection H as <-. cbn. eapply keep_limit; [|eauto]. eapply keep_trace; [|eauto]. eauto.
  Qed.
  Lemma keep_step2 fuel st ob ol x y io label s s' : I (sc_pts s) -> step2 fuel st ob ol x y io label s = Ok s' -> I (sc_pts s').
  Proof.
    intros K H. unfold step2 in H. inv H. inv H. inv H. inv H. inv H. injection H as <-. cbn. eapply keep_limit; [|eauto]. eapply keep_trace; [|eauto]. eauto.
  Qed.
  Lemma keep_step3 io s s' : I (sc_pts s) -> step3 io s = Ok s' -> I (sc_pts s').
  Proof.
    intros K H. unfold step3 in H. inv H. destruct (_ =? _).
    - inv H. inv H. now injection H as <-.
    - now injection H as <-.
  Qed.
  Lemma keep_pixel fuel st ob ol x y ii io s s' : I (sc_pts s) -> scan_pixel fuel st ob ol x y ii io s = Ok s' -> I (sc_pts s').
  Proof.
    intros K H. unfold scan_pixel in H. inv H. destruct (negb _); [now injection H as <-|]. inv H. inv H. cbv zeta in H. inv H. inv H. inv H.
    assert (I (sc_pts a2)) by (destruct a1; [eapply keep_step1; eauto|now injection E2 as <-]).
    assert (I (sc_pts a4)) by (destruct (a3 =? 0); [eapply keep_step2; eauto|now injection E4 as <-]).
    destruct (_ || _); [now injection H as <-|]. eapply keep_step3; eauto.
  Qed.
  Lemma keep_process fuel st g lab st' lab' : I (lb_pts st) -> process fuel st g lab = Ok (st', lab') -> I (lb_pts st').
  Proof.
    intros K H. unfold process in H. inv H. inv H. inv H. inv H. inv H. inv H. injection H as <- _. cbn.
    assert (Sl : forall lo hi (bd : Z -> scan -> outcome scan) s s', (forall i s s', I (sc_pts s) -> bd i s = Ok s' -> I (sc_pts s')) ->
      I (sc_pts s) -> for_range lo hi bd s = Ok s' -> I (sc_pts s')).
    { intros lo hi bd s s' Hb Ks Hr. destruct (Z.le_gt_cases lo hi) as [L|L].
      - apply (for_range_Ok_inv (fun _ s => I (sc_pts s)) lo hi bd s s'); auto. intros i s1 s2 _. apply Hb.
      - rewrite for_range_nil in Hr by lia. now injection Hr as <-. }
    eapply Sl; [| |exact E4].
    - intros y s s' Ks Hr. eapply Sl; [|exact Ks|exact Hr]. intros x s1 s1' K1 H1. cbv beta in H1. eapply keep_pixel; [exact K1|exact H1].
    - cbn. auto.
  Qed.
End Keep.

Definition pts_ok (p : pset (Z * Z)) : Prop := infos_in p /\ ps_bs p = 2000 /\ 0 <= ps_total p.
Lemma used_pts st : used st -> pts_ok (lb_pts st).
Proof.
  assert (X : forall p o p', pts_ok p -> ps_exec p o = Ok p' -> pts_ok p').
  { intros p o p' (H1 & H2 & H3) E. destruct (infos_in_exec p o p') as (A & B & C); auto; [lia|]. split; auto. split; [congruence|auto]. }
  induction 1 as [r|st r mn mx save H IH Hn Hx|fuel st g lab st' lab' H IH A E].
  - split; [intros i []|]. cbn. split; auto; lia.
  - exact IH.
  - eapply keep_process; [| | | |exact IH|exact E].
    + intros p K. now apply (X p P_clear).
    + intros p p' K Ep. now apply (X p P_start).
    + intros p v p' K Ep. now apply (X p (P_push v)).
    + intros p K. now apply (X p P_remove).
Qed.

(** ** Sizes *)
Lemma Us_le T : zlen (Us T) <= zlen T.
Proof. unfold zlen, Us. induction T as [|c T IH]; [cbn; lia|]. cbn [filter]. destruct (isU c); cbn [length]; lia. Qed.
Lemma conrel_int r B T con : conrel r B T con -> zlen T <= 2147483647 ->
  Forall (fun c => 0 <= co_id c <= zlen T /\ 0 <= co_ext c < zlen T /\ zlen (co_int c) <= zlen T /\ forall v, In v (co_int c) -> 0 <= v < zlen T) con.
Proof.
  induction 1 as [|T con c C IH U|T con c k co C IH U R Z]; intros L; [constructor| |].
  - rewrite zlen_app in *. change (zlen [c]) with 1 in *. specialize (IH ltac:(lia)). apply Forall_app. split.
    + eapply Forall_impl; [|exact IH]. cbn. intros a (H1 & H2 & H3 & H4). split; [lia|]. split; [lia|]. split; [lia|]. intros v Hv. apply H4 in Hv. lia.
    + constructor; [|constructor]. cbn. pose proof (conrel_len _ _ _ _ C) as E. pose proof (Us_le T). pose proof (zlen_nonneg con).
      pose proof (zlen_nonneg T). change (zlen (@nil Z)) with 0. split; [lia|]. split; [lia|]. split; [lia|]. easy.
  - rewrite zlen_app in *. change (zlen [c]) with 1 in *. specialize (IH ltac:(lia)). pose proof (zlen_nonneg T). rewrite Forall_forall in *. intros x Hx.
    pose proof (znth_Some_range _ _ _ Z) as Rk. apply In_znth in Hx as (i & Hi). rewrite znth_upd in Hi by auto. destruct (i =? k - 1).
    + injection Hi as <-. cbn. destruct (IH co (znth_In _ _ _ Z)) as (H1 & H2 & H3 & H4). rewrite zlen_app. change (zlen [zlen T]) with 1.
      split; [lia|]. split; [lia|]. split; [lia|]. intros v Hv. apply in_app_iff in Hv as [Hv|[<-|[]]]; try (apply H4 in Hv); lia.
    + destruct (IH x (znth_In _ _ _ Hi)) as (H1 & H2 & H3 & H4). split; [lia|]. split; [lia|]. split; [lia|]. intros v Hv. apply H4 in Hv. lia.
Qed.

Lemma run_sizes st g lab0 st' lab' T ls : wf g -> 4 * (g_width g + 2) * (g_height g + 2) < 4294967296 -> run_ok st g lab0 st' lab' T ls ->
  Forall int_contour (lb_contours st') /\ ll_total ls <= 4 * g_width g * g_height g /\ zlen ls = zlen T /\ ps_count (lb_pts st') = zlen T /\
  zlen T <= 2 * g_width g * g_height g.
Proof.
  intros W Sz Ro. pose proof (run_dims g W) as D. pose proof (pic_dims g) as HB.
  assert (LT : zlen T <= 2 * g_width g * g_height g).
  { apply (T_len (lb_rule st) (pic g) (g_width g) (g_height g) HB); try lia; [apply sorted_nodup, Ro|]. intros c Hc. now apply (ro_T _ _ _ _ _ _ _ Ro). }
  split; [|split; [|split; [|split; [|exact LT]]]].
  - eapply Forall_impl; [|apply (conrel_int _ _ _ _ (ro_con _ _ _ _ _ _ _ Ro)); nia]. cbn. intros c (H1 & H2 & H3 & H4).
    split; [nia|]. split; [nia|]. split; [nia|]. intros v Hv. apply H4 in Hv. nia.
  - apply (total_len (lb_rule st) (pic g) (g_width g) (g_height g) HB ltac:(lia) ltac:(lia) T ls).
    + pose proof (ro_ls _ _ _ _ _ _ _ Ro) as F. clear - F HB. induction F as [|c l T ls (m & Pm & ->) F IH]; constructor; auto. exists m. split; auto.
      assert (zlen (map sh (cpoints (lb_rule st) (pic g) m c)) <= Z.of_nat m) as Lm.
      { unfold zlen. rewrite map_length. destruct Pm as (Pm & _).
        pose proof (cpoints_len (lb_rule st) (pic g) (g_width g) (g_height g) HB m c Pm). lia. }
      destruct (_ || _); [|change (zlen (@nil (Z * Z))) with 0; lia].
      pose proof (kept_len (lb_min st) (lb_max st) (map sh (cpoints (lb_rule st) (pic g) m c))). lia.
    + apply sorted_nodup, Ro.
    + intros c Hc. now apply (ro_T _ _ _ _ _ _ _ Ro).
  - pose proof (ro_ls _ _ _ _ _ _ _ Ro) as F. clear - F. induction F as [|c l T ls _ _ IH]; auto. now rewrite !zlen_cons, IH.
  - now apply (run_count st g lab0 st' lab' T ls).
Qed.

(** ** The call *)
Lemma set_used lb s lb' : used lb -> nc_valid s -> nc_set lb s = Ok lb' -> used lb'.
Proof.
  intros U V E. pose proof (used_inv _ U) as [_ _ I3 I4]. destruct s as [b|n|n|o]; cbn in *.
  - injection E as <-. now constructor.
  - injection E as <-. constructor; auto. unfold u32. apply Z.mod_pos_bound. lia.
  - injection E as <-. constructor; auto. unfold u32. apply Z.mod_pos_bound. lia.
  - destruct V as [-> | ->]; cbn in E; injection E as <-; now constructor.
Qed.

Definition jf_inv (F : jfinder) : Prop :=
  used (nc_lb F) /\ jp_length (nc_points F) = 4000 /\ Forall (fun b => zlen b = jp_length (nc_points F)) (jp_blocks (nc_points F)).

Lemma nc_call grow q fuel F J binary labeled : jf_inv F -> nc_args grow q fuel J binary labeled -> exists F' J' labeled' g o l,
  nc_process grow q fuel F J binary labeled = Ok (F', J', labeled') /\ jf_inv F' /\ shows JByte J binary g /\
  label_args fuel g o /\ process fuel (nc_lb F) g o = Ok (nc_lb F', l) /\
  jeffect JInt J binary labeled J' labeled' (fun x y => pixel l x y) /\
  nc_contours F' = lb_contours (nc_lb F') /\ zlen (jp_sets (nc_points F')) = ps_count (lb_pts (nc_lb F')) /\
  forall i pts, has_points (nc_lb F') i pts -> java_set (nc_points F') i pts.
Proof.
  intros (U & Jl & Jb) [A Bin Sz St G Q Fu].
  destruct (reshape_ok _ _ _ _ _ A) as (J1 & out1 & Er & A1 & Ew & Eh & _ & _ & Hp & Same).
  assert (St1 : ji_stride out1 < 2147483647).
  { unfold j_reshape in Er. destruct (_ && _); [now injection Er as <- <-|]. destruct (ji_sub labeled); [discriminate|]. apply bind_Ok in Er as (a & _ & Er).
    destruct A as [[(I1 & I2 & _) _ _ _ _] _ _ _ _ _].
    destruct (_ <? _); injection Er as <- <-; cbn; nia. }
  destruct A1 as [Vi Vo Fr Ap _ Ar].
  assert (Vi' := Vi). destruct Vi' as [(Iw & Ih & _) _ _ _ (b & Eb & _)]. assert (Vo' := Vo). destruct Vo' as [_ _ _ _ (a & Ea & _)].
  destruct (wrap_get JInt J1 (mkJvm (jv_arrays J1) (ji_array binary :: jv_held J1)) out1 a Fr eq_refl Vo Ea) as (o0 & W1 & G1).
  destruct (wrap_get JByte J1 J1 binary b Fr eq_refl Vi Eb) as (i0 & W2 & G2).
  pose proof (view_shows _ _ _ _ Vi Eb) as (S1 & S2 & S3 & S4).
  set (g := view JByte binary b) in *. set (o := view JInt out1 a) in *.
  assert (Sg : shows JByte J binary g). { split; auto. split; auto. split; auto. intros x y. rewrite S4. apply Hp. }
  assert (LA : label_args fuel g o).
  { split; auto.
    - intros x y v Hv. rewrite S4, Hp in Hv. eauto.
    - rewrite S2, S3. lia.
    - eapply view_wf; eauto. }
  pose proof (used_inv _ U) as Iv.
  destruct (process_run fuel (nc_lb F) g o Iv LA) as (lab0 & st' & l & T & ls & El & Ep & Ro).
  rewrite (same_size 0 g o) in El by (cbn; lia). injection El as <-.
  assert (U' : used st') by (eapply used_process; eauto).
  destruct (run_sizes (nc_lb F) g o st' l T ls) as (Ic & Tot & Lls & Cnt & LT); auto; [rewrite S2, S3; lia|].
  destruct (used_pts _ U') as (Pi & Pb & _).
  destruct (copy_sets (lb_pts st') ls (nc_points F) (ro_pts _ _ _ _ _ _ _ Ro)) as (dst & Ed & (Dl & Db) & Ds & Dp); auto; try lia.
  destruct (ro_wf _ _ _ _ _ _ _ Ro) as (Wl & Lw & Lh).
  destruct (commit_effect JInt J1 (mkJvm (jv_arrays J1) [ji_array out1])
    (mkJvm (upd (jv_arrays J1) (Z.to_nat (ji_array out1)) (map (of_c JInt) (g_data l))) []) binary out1 a l (fun x y => pixel l x y) []) as [Ec Ee]; auto.
  { cbn. now rewrite Z.eqb_refl. }
  { apply Ro. }
  { intros x y v I Pv. destruct (labels_theorem fuel (nc_lb F) g o U LA) as (st2 & l2 & E2 & _ & _ & Lb & _). rewrite Ep in E2. injection E2 as <- <-.
    destruct (Lb (x, y)) as (k & Ek & Rk & _). { cbn. destruct I. split; lia. } cbn [fst snd] in Ek. rewrite Pv in Ek. injection Ek as <-.
    cbn. split; [lia|]. transitivity (zlen (lb_contours st')); [lia|].
    rewrite (run_len (nc_lb F) g o st' l T ls Ro).
    pose proof (Us_le T). rewrite S2, S3 in LT. nia. }
  { intros j Hj. apply (ro_frame _ _ _ _ _ _ _ Ro). intros x y Ixy. rewrite (pos_layout o l) by apply Ro. apply Hj.
    apply (inside_layout o l); auto. apply Ro. }
  exists (mkJf st' (lb_contours st') dst). do 2 eexists. exists g, o, l. split.
  { unfold nc_process. rewrite Er. cbn [bind]. rewrite W2. cbn [bind]. rewrite W1. cbn [bind]. rewrite G2. cbn [bind]. rewrite G1. cbn [bind].
    fold g o. rewrite Ep. cbn [bind]. rewrite Fr. unfold j_abort. cbn [jv_held jv_arrays unhold].
    replace (ji_array binary =? ji_array out1) with false by lia. rewrite Z.eqb_refl. cbn [bind].
    rewrite Ec. cbn [bind jv_arrays]. unfold jni. cbn [jv_held bind]. rewrite (j_contours_ok grow q (lb_contours st') G Q Ic). cbn [bind].
    rewrite Ed. cbn [bind uncaught]. reflexivity. }
  split; [split; [exact U'|]; cbn; split; [congruence|exact Db]|]. split; [exact Sg|]. split; [exact LA|]. split; [exact Ep|].
  split; [eapply effect_reshape; eauto|]. split; [reflexivity|]. cbn. split; [congruence|].
  intros i pts [Hi Hl]. rewrite Cnt in Hi. rewrite (ps_load_ok _ _ i [] (ro_pts _ _ _ _ _ _ _ Ro)) in Hl by lia.
  destruct (znth ls i) eqn:Ei; [|discriminate]. injection Hl as <-. now apply Dp.
Qed.

Lemma jused_inv F : jused F -> jf_inv F.
Proof.
  induction 1 as [|F s lb H IH V E|grow q fuel F J bi la F' J' la' H IH A E].
  - split; [|split; [reflexivity|constructor]]. cbn. constructor; [constructor|lia|lia].
  - destruct IH as (U & L & B). split; [|split; auto]. cbn. eapply set_used; eauto.
  - destruct (nc_call grow q fuel F J bi la IH A) as (F2 & J2 & la2 & g & o & l & E2 & I & _). rewrite E in E2. now injection E2 as <- <- <-.
Qed.

(** ** In terms of Java *)
Lemma nc_java grow q fuel F J binary labeled : jused F -> nc_args grow q fuel J binary labeled -> exists F' J' labeled' g o l,
  nc_process grow q fuel F J binary labeled = Ok (F', J', labeled') /\ jused F' /\ shows JByte J binary g /\ used (nc_lb F) /\
  label_args fuel g o /\ process fuel (nc_lb F) g o = Ok (nc_lb F', l) /\
  jeffect JInt J binary labeled J' labeled' (fun x y => jpixel JInt J' labeled' x y) /\
  (forall x y, jpixel JInt J' labeled' x y = pixel l x y) /\
  nc_contours F' = lb_contours (nc_lb F') /\ zlen (jp_sets (nc_points F')) = ps_count (lb_pts (nc_lb F')) /\
  forall i pts, has_points (nc_lb F') i pts -> java_set (nc_points F') i pts.
Proof.
  intros U A. destruct (nc_call grow q fuel F J binary labeled (jused_inv F U) A) as (F' & J' & labeled' & g & o & l & E & Iv & S & La & Ep & Ee & Rest).
  exists F', J', labeled', g, o, l. split; auto. split; [eapply ju_process; eauto|]. split; auto. split; [apply (jused_inv F U)|]. split; auto. split; auto.
  split; [destruct Ee; split; auto|]. split; auto.
  destruct (labels_theorem fuel (nc_lb F) g o) as (st' & l' & Ep' & Lw & Lh & _); auto; [apply (jused_inv F U)|].
  rewrite Ep in Ep'. injection Ep' as <- <-. destruct S as (_ & Gw & Gh & _). destruct Ee as [(Ew & Eh) Px _ _ _ _].
  intros x y. destruct ((0 <=? x) && (x <? ji_width binary) && (0 <=? y) && (y <? ji_height binary)) eqn:I.
  - apply Px. split; lia.
  - unfold jpixel, pixel. rewrite Ew, Eh, Lw, Lh, Gw, Gh, I. reflexivity.
Qed.

Lemma jrule_eq lb : jrule (settings lb) = lb_rule lb.
Proof. unfold jrule, settings, nc_get_rule. cbn. now destruct (lb_rule lb). Qed.
Lemma limits_eq lb : used lb -> 0 <= js_min (settings lb) -> 0 <= js_max (settings lb) ->
  js_min (settings lb) = lb_min lb /\ js_max (settings lb) = lb_max lb.
Proof.
  intros U. destruct (used_inv lb U) as [_ _ R1 R2]. cbn. unfold nc_get_min, nc_get_max, s32. intros H1 H2. split; lia.
Qed.
Lemma java_labels grow q fuel F J binary labeled : jused F -> nc_args grow q fuel J binary labeled -> exists F' J' labeled' g,
  nc_process grow q fuel F J binary labeled = Ok (F', J', labeled') /\ jused F' /\ shows JByte J binary g /\
  jeffect JInt J binary labeled J' labeled' (fun x y => jpixel JInt J' labeled' x y) /\
  (forall p, inside g (fst p) (snd p) -> exists k, jpixel JInt J' labeled' (fst p) (snd p) = Some k /\
     0 <= k <= zlen (nc_contours F') /\ (k = 0 <-> bg g p)) /\
  (forall p q k k', fg g p -> fg g q -> jpixel JInt J' labeled' (fst p) (snd p) = Some k ->
     jpixel JInt J' labeled' (fst q) (snd q) = Some k' -> (k = k' <-> blob (jrule (settings (nc_lb F))) g p q)) /\
  (forall k, 1 <= k <= zlen (nc_contours F') -> exists p, first_of (adj (jrule (settings (nc_lb F)))) (fg g) p /\
     jpixel JInt J' labeled' (fst p) (snd p) = Some k) /\
  (forall p q k k', first_of (adj (jrule (settings (nc_lb F)))) (fg g) p -> first_of (adj (jrule (settings (nc_lb F)))) (fg g) q ->
     jpixel JInt J' labeled' (fst p) (snd p) = Some k -> jpixel JInt J' labeled' (fst q) (snd q) = Some k' -> (k < k' <-> before p q)).
Proof.
  intros U A. rewrite jrule_eq. destruct (nc_java grow q fuel F J binary labeled U A) as (F' & J' & labeled' & g & o & l & E & U' & S & Us & La & Ep & Ee & Px & Ec & _).
  destruct (labels_theorem fuel (nc_lb F) g o Us La) as (st' & l' & Ep' & _ & _ & H1 & H2 & H3 & H4).
  rewrite Ep in Ep'. injection Ep' as <- <-. exists F', J', labeled', g. split; auto. split; auto. split; auto. split; auto. rewrite Ec.
  split; [|split; [|split]].
  - intros p I. rewrite Px. auto.
  - intros p p' k k'. rewrite !Px. auto.
  - intros k K. destruct (H3 k K) as (p & P1 & P2). exists p. rewrite Px. auto.
  - intros p p' k k'. rewrite !Px. auto.
Qed.

Lemma java_contours grow q fuel F J binary labeled F' J' labeled' : jused F -> nc_args grow q fuel J binary labeled ->
  0 <= js_min (settings (nc_lb F)) -> 0 <= js_max (settings (nc_lb F)) ->
  nc_process grow q fuel F J binary labeled = Ok (F', J', labeled') -> exists g, shows JByte J binary g /\
  (forall k, 1 <= k <= zlen (nc_contours F') -> exists co p, znth (nc_contours F') (k - 1) = Some co /\ co_id co = k /\
    first_of (adj (jrule (settings (nc_lb F)))) (fg g) p /\ jpixel JInt J' labeled' (fst p) (snd p) = Some k /\
    (exists l, java_set (nc_points F') (co_ext co) (limited true (js_min (settings (nc_lb F))) (js_max (settings (nc_lb F))) l) /\
       traces (jrule (settings (nc_lb F))) l p (outer_edge (jrule (settings (nc_lb F))) g p)) /\
    exists qs, Forall2 (fun j q => hole (jrule (settings (nc_lb F))) g p q /\
        exists l, java_set (nc_points F') j (limited (js_inner (settings (nc_lb F))) (js_min (settings (nc_lb F))) (js_max (settings (nc_lb F))) l) /\
          traces (jrule (settings (nc_lb F))) l (fst q, snd q - 1) (hole_edge (jrule (settings (nc_lb F))) g p q)) (co_int co) qs /\
      forall q, hole (jrule (settings (nc_lb F))) g p q -> exists i q', znth qs i = Some q' /\ space (jrule (settings (nc_lb F))) g q q' /\
        forall i' q'', znth qs i' = Some q'' -> space (jrule (settings (nc_lb F))) g q q'' -> i' = i) /\
  (forall i, 0 <= i < zlen (jp_sets (nc_points F')) -> exists k co, znth (nc_contours F') (k - 1) = Some co /\
    (i = co_ext co \/ In i (co_int co)) /\ ~ (i = co_ext co /\ In i (co_int co)) /\
    forall k' co', znth (nc_contours F') (k' - 1) = Some co' -> i = co_ext co' \/ In i (co_int co') -> k' = k).
Proof.
  intros U A N1 N2 Er. rewrite jrule_eq. destruct (limits_eq (nc_lb F) (proj1 (jused_inv F U)) N1 N2) as [-> ->].
  change (js_inner (settings (nc_lb F))) with (lb_save (nc_lb F)). destruct (nc_java grow q fuel F J binary labeled U A)
    as (F1 & J1 & labeled1 & g & o & l & E & U' & S & Us & La & Ep & Ee & Px & Ec & Es & Hs).
  rewrite Er in E. injection E as <- <- <-. exists g. split; auto. rewrite Ec, Es.
  destruct (contours_lemma fuel (nc_lb F) g o (nc_lb F') l Us La Ep) as [H1 H2]. split; [|exact H2].
  intros k K. destruct (H1 k K) as (co & p & C1 & C2 & C3 & C4 & (lx & L1 & L2) & qs & Q1 & Q2). exists co, p. split; auto. split; auto. split; auto.
  split; [now rewrite Px|]. split; [exists lx; auto|]. exists qs. split; auto.
  clear - Q1 Hs. induction Q1 as [|j r js rs (R1 & lr & R2 & R3) Q IH]; constructor; auto. split; auto. exists lr. auto.
Qed.

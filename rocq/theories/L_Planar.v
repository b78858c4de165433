(** Proofs about planar images. *)
From Coq Require Import Lia.
From Verif Require Import BaseFacts M_Image S_Image L_Image L_ImageProps M_Planar S_Planar.

Lemma bset_there {A} (l : list A) i a : 0 <= i < zlen l -> exists l', bset l i a = Ok l' /\ zlen l' = zlen l /\
  znth l' i = Some a /\ forall j, j <> i -> znth l' j = znth l j.
Proof.
  intros H. destruct (bset_exists l i a H) as (l' & E & L & N). exists l'. repeat (split; auto).
  - now rewrite N, Z.eqb_refl.
  - intros j Hj. rewrite N. now replace (j =? i) with false by lia.
Qed.

Definition p_inv {A} (zero : A) (P : planar A) : Prop :=
  p_sub P = false /\ 0 <= p_num P /\ zlen (p_bands P) = p_num P /\
  forall k g, znth (p_bands P) k = Some g -> reachable zero g /\ g_sub g = false.

Lemma reshape_sub {A} (zero : A) g w h g' : g_sub g = false -> gray_reshape zero g w h = Ok g' -> g_sub g' = false.
Proof. unfold gray_reshape. intros E. rewrite E. destruct (_ && _); intros H; injection H as <-; auto. Qed.

Lemma reshape_exists {A} (zero : A) g w h : g_sub g = false -> reachable zero g -> size_ok w h -> exists g', gray_reshape zero g w h = Ok g' /\
  reachable zero g' /\ g_sub g' = false /\ g_width g' = w /\ g_height g' = h /\ (g_width g = w -> g_height g = h -> g' = g).
Proof.
  intros E R (Hw & Hh & Hm). assert (exists g', gray_reshape zero g w h = Ok g') as (g' & Eg).
  { unfold gray_reshape. rewrite E. destruct (_ && _); eauto. }
  exists g'. split; auto. split; [exact (R_reshape zero g w h g' R Hw Hh Hm Eg)|]. split; [eapply reshape_sub; eauto|].
  destruct (gray_reshape_wf zero g w h g') as (_ & E1 & E2); auto. { eapply reachable_wf; eauto. }
  split; auto. split; auto. intros F1 F2. unfold gray_reshape in Eg. rewrite F1, F2, !Z.eqb_refl in Eg. cbn in Eg. congruence.
Qed.

Lemma p_reshape_ok {A} (zero : A) P w h : p_inv zero P -> size_ok w h -> exists P', p_reshape zero P w h = Ok P' /\ p_inv zero P' /\
  p_num P' = p_num P /\ p_width P' = w /\ p_height P' = h /\
  forall k g, znth (p_bands P) k = Some g -> exists g', znth (p_bands P') k = Some g' /\ g_width g' = w /\ g_height g' = h /\
    (g_width g = w -> g_height g = h -> g' = g).
Proof.
  intros (E & Hn & Hl & Hb) Hs. unfold p_reshape. rewrite E.
  edestruct (for_range_inv (fun i bands => zlen bands = p_num P /\
    (forall k g, znth bands k = Some g -> reachable zero g /\ g_sub g = false) /\
    forall k g, znth (p_bands P) k = Some g -> exists g', znth bands k = Some g' /\ (i <= k -> g' = g) /\
      (k < i -> g_width g' = w /\ g_height g' = h /\ (g_width g = w -> g_height g = h -> g' = g))) 0 (p_num P)
    (fun i bands => let* g := bget bands i in let* g' := gray_reshape zero g w h in bset bands i g') (p_bands P))
    as (bands & Ef & Hl' & Hb' & Hk); try lia.
  - split; auto. split; auto. intros k g Ek. exists g. split; auto. split; auto. pose proof (znth_Some_range _ _ _ Ek). lia.
  - intros i bands Hi (Il & Ib & Ik). destruct (znth_in_range bands i) as (g & Eg); [lia|].
    destruct (Ib _ _ Eg) as (R & Es). destruct (reshape_exists zero g w h Es R Hs) as (g' & Er & R' & Es' & E1 & E2 & Eq).
    apply bget_Ok in Eg as Eg'. rewrite Eg'. cbn [bind]. rewrite Er. cbn [bind].
    destruct (bset_there bands i g') as (b' & Ebs & Lb & Same & Other); [lia|]. exists b'. split; auto. split; [congruence|]. split.
    + intros k q Ek. destruct (Z.eq_dec k i) as [->|N]; [rewrite Same in Ek; injection Ek as <-; auto|]. rewrite Other in Ek; eauto.
    + intros k q Ek. destruct (Ik _ _ Ek) as (q' & Eq' & Q1 & Q2). destruct (Z.eq_dec k i) as [->|N].
      * exists g'. split; auto. split; [lia|]. intros _. assert (q = g) as -> by (rewrite Eg in Eq'; injection Eq' as <-; symmetry; apply Q1; lia). auto.
      * exists q'. rewrite Other by auto. split; auto. split; intros; [apply Q1; lia|apply Q2; lia].
  - rewrite Ef. cbn [bind]. eexists. split; [reflexivity|]. split; [unfold p_inv; cbn; auto|]. cbn. split; auto. split; auto. split; auto.
    intros k g Ek. destruct (Hk _ _ Ek) as (g' & E' & _ & Q). exists g'. split; auto. apply Q. pose proof (znth_Some_range _ _ _ Ek). lia.
Qed.

Lemma on_band_ok {A} (f : gray A -> outcome (gray A)) P k g g' : zlen (p_bands P) = p_num P -> znth (p_bands P) k = Some g -> f g = Ok g' ->
  exists P', p_on_band f P k = Ok P' /\ p_width P' = p_width P /\ p_height P' = p_height P /\ p_sub P' = p_sub P /\ p_num P' = p_num P /\
    zlen (p_bands P') = p_num P /\ znth (p_bands P') k = Some g' /\ forall j, j <> k -> znth (p_bands P') j = znth (p_bands P) j.
Proof.
  intros L E F. pose proof (znth_Some_range _ _ _ E) as R. unfold p_on_band, p_band. replace (p_num P <=? k) with false by lia.
  apply bget_Ok in E. rewrite E. cbn [bind]. rewrite F. cbn [bind].
  destruct (bset_there (p_bands P) k g') as (b' & -> & Lb & Same & Other); [lia|]. cbn [bind]. eexists. split; [reflexivity|]. cbn.
  repeat (split; [congruence|]). auto.
Qed.

Lemma on_band_inv {A} (zero : A) f P k P' : p_inv zero P -> 0 <= k -> p_on_band f P k = Ok P' ->
  (forall g g', reachable zero g -> g_sub g = false -> f g = Ok g' -> reachable zero g' /\ g_sub g' = false) -> p_inv zero P'.
Proof.
  intros (E & Hn & Hl & Hb) Hk H Hf. unfold p_on_band, p_band in H. destruct (_ <=? _) eqn:C; [discriminate|].
  apply bind_Ok in H as (g & Eg & H). apply bind_Ok in H as (g' & Ef & H). apply bget_Ok in Eg.
  destruct (on_band_ok f P k g g' Hl Eg Ef) as (P1 & E1 & _ & _ & S1 & N1 & L1 & K1 & O1).
  assert (P1 = P') as <-.
  { unfold p_on_band, p_band in E1, H. rewrite C in E1. apply bget_Ok in Eg. rewrite Eg in E1. cbn [bind] in E1. rewrite Ef in E1. cbn [bind] in E1.
    rewrite H in E1. congruence. }
  split; [congruence|]. split; [lia|]. split; [congruence|]. intros j q Ej. destruct (Z.eq_dec j k) as [->|N].
  - rewrite K1 in Ej. injection Ej as <-. destruct (Hb _ _ Eg). eauto.
  - rewrite O1 in Ej by auto. eauto.
Qed.

Lemma p_new_bands {A} (zero : A) M w h n k g : znth (p_bands (snd (p_new zero M w h n))) k = Some g -> g = gray_new zero w h.
Proof. cbn. intros H. apply znth_In, repeat_spec in H. auto. Qed.

Lemma planar_inv {A} (zero : A) P : planar_of zero P -> p_inv zero P.
Proof.
  induction 1 as [M w h n (Hw & Hh & Hm) Hn|P w h P' _ IH Hs E|P k x y v P' _ IH Hk Hx Hy E|P k w h P' _ IH Hk Hs E].
  - split; [reflexivity|]. split; [cbn; lia|]. split; [cbn; rewrite zlen_repeat; lia|]. intros k g Eg.
    apply p_new_bands in Eg as ->. split; [apply R_new; auto|reflexivity].
  - destruct (p_reshape_ok zero P w h IH Hs) as (P1 & E1 & I & _). congruence.
  - refine (on_band_inv zero _ P k P' IH Hk E _). cbv beta. intros g g' R Es Eg.
    assert (inside g x y) as (I1 & I2).
    { unfold gray_set in Eg. destruct (_ || _) eqn:C; [discriminate|]. unfold inside. lia. }
    assert (wf g) as W by (eapply reachable_wf; eauto). destruct W as (W1 & W2 & _).
    split; [apply (R_set zero g x y v g'); auto; lia|]. destruct (gray_set_layout g x y v g' Eg) as (_ & _ & _ & _ & -> & _). auto.
  - refine (on_band_inv zero _ P k P' IH Hk E _). cbv beta. intros g g' R Es Eg. destruct (reshape_exists zero g w h Es R Hs) as (g1 & E1 & R1 & S1 & _).
    rewrite Eg in E1. injection E1 as <-. auto.
Qed.

Lemma planar_new {A} (zero : A) M w h n : size_ok w h -> 0 <= n < 4294967296 -> let P := snd (p_new zero M w h n) in
  p_num P = n /\ p_width P = w /\ p_height P = h /\ p_offset P = 0 /\ p_stride P = w /\ p_sub P = false /\
  forall k, 0 <= k < n -> exists g, p_band P k = Ok g /\ g_width g = w /\ g_height g = h /\ g_sub g = false /\
    forall x y, inside g x y -> pixel g x y = Some zero.
Proof.
  intros (Hw & Hh & Hm) Hn. cbv zeta. repeat (split; [reflexivity|]). intros k Hk. exists (gray_new zero w h). split.
  - unfold p_band. cbn [p_new snd p_num p_bands]. replace (n <=? k) with false by lia. apply bget_Ok, znth_repeat. lia.
  - repeat (split; [reflexivity|]). intros x y Hi. apply gray_new_pixel; auto.
Qed.

Lemma planar_band {A} (zero : A) P k : planar_of zero P -> 0 <= k ->
  (k < p_num P -> exists g, p_band P k = Ok g /\ reachable zero g /\ g_sub g = false) /\ (p_num P <= k -> p_band P k = Throw).
Proof.
  intros HP Hk. destruct (planar_inv zero P HP) as (_ & Hn & Hl & Hb). unfold p_band. split; intros H.
  - replace (p_num P <=? k) with false by lia. destruct (bget_in (p_bands P) k) as (g & E & Eg); [lia|]. exists g. split; auto. apply (Hb k); auto.
  - now replace (p_num P <=? k) with true by lia.
Qed.

Lemma p_band_znth {A} (P : planar A) k g : p_band P k = Ok g -> znth (p_bands P) k = Some g /\ k < p_num P.
Proof. unfold p_band. destruct (_ <=? _) eqn:E; [discriminate|]. intros H. apply bget_Ok in H. split; auto. lia. Qed.
Lemma znth_p_band {A} (P : planar A) k g : znth (p_bands P) k = Some g -> k < p_num P -> p_band P k = Ok g.
Proof. unfold p_band. intros E H. replace (_ <=? _) with false by lia. now apply bget_Ok. Qed.

Lemma planar_reshape {A} (zero : A) P w h : planar_of zero P -> size_ok w h -> exists P', p_reshape zero P w h = Ok P' /\
  p_num P' = p_num P /\ p_width P' = w /\ p_height P' = h /\
  p_offset P' = p_offset P /\ p_stride P' = w /\ p_sub P' = false /\ p_ptr P' = p_ptr P /\
  forall k g, p_band P k = Ok g -> exists g', p_band P' k = Ok g' /\ g_width g' = w /\ g_height g' = h /\ (g_width g = w -> g_height g = h -> g' = g).
Proof.
  intros HP Hs. destruct (p_reshape_ok zero P w h (planar_inv zero P HP) Hs) as (P' & E & I & N & W & H & K).
  exists P'. split; [exact E|]. split; [exact N|]. split; [exact W|]. split; [exact H|].
  split; [|split; [|split; [|split]]]; try (revert E; unfold p_reshape; destruct (p_sub P) eqn:Sb; [discriminate|];
    intros E; apply bind_Ok in E as (bb & _ & E); inversion E; cbn; auto; fail).
  intros k g Eg. apply p_band_znth in Eg as (Eg & Lt). destruct (K _ _ Eg) as (g' & E' & R).
  exists g'. split; auto. apply znth_p_band; auto. lia.
Qed.

Lemma planar_write {A} (zero : A) P k g x y v : planar_of zero P -> p_band P k = Ok g -> inside g x y -> exists P' g',
  p_on_band (fun g => gray_set g x y v) P k = Ok P' /\ p_num P' = p_num P /\ same_header P P' /\ p_band P' k = Ok g' /\ same_layout g g' /\
  (forall x' y', pixel g' x' y' = if (x' =? x) && (y' =? y) then Some v else pixel g x' y') /\
  forall j, j <> k -> p_band P' j = p_band P j.
Proof.
  intros HP Eg Hi. destruct (planar_inv zero P HP) as (_ & Hn & Hl & Hb). apply p_band_znth in Eg as (Eg & Lt).
  destruct (Hb _ _ Eg) as (R & _). destruct (at_set_get_lemma A zero g x y v R Hi) as (g' & Es & L & Px & _).
  destruct (on_band_ok (fun g => gray_set g x y v) P k g g' Hl Eg Es) as (P' & E & _ & _ & _ & N & L' & K & O).
  exists P', g'. split; auto. split; auto. split.
  { unfold p_on_band in E. apply bind_Ok in E as (b1 & _ & E). apply bind_Ok in E as (b2 & _ & E). apply bind_Ok in E as (b3 & _ & E).
    inversion E. repeat split. }
  split; [apply znth_p_band; auto; lia|]. split; auto. split; auto.
  intros j Hj. unfold p_band. rewrite N. unfold bget. now rewrite O.
Qed.

Lemma planar_destroy {A} (zero : A) M w h n : 0 <= n -> let '(M', P) := p_new zero M w h n in
  (0 < n -> p_destroy M' P = Undef) /\ (n = 0 -> p_destroy M' P = Ok (M ++ [None])).
Proof.
  intros Hn. cbn [p_new]. assert (forall r, nth_error (M ++ Some ByNewArray :: r) (length M) = Some (Some ByNewArray)) as Nth.
  { intros r. rewrite nth_error_app2, Nat.sub_diag by lia. reflexivity. }
  unfold p_destroy. cbn [p_num p_ptr]. split; intros H.
  - rewrite for_range_step by lia. unfold b_delete at 1. rewrite Nth. reflexivity.
  - subst n. rewrite for_range_nil by lia. cbn [bind]. unfold b_delete. rewrite Nth. cbn. f_equal. clear.
    induction M as [|a M IH]; cbn; [reflexivity|]. now rewrite IH.
Qed.

Lemma planar_default {A} (zero : A) M : let '(M', P) := p_default zero M in
  p_num P = 0 /\ p_width P = 0 /\ p_height P = 0 /\ (forall k, 0 <= k -> p_band P k = Throw) /\
  (exists M2, p_destroy M' P = Ok M2) /\
  forall w h, exists P', p_reshape zero P w h = Ok P' /\ p_num P' = 0 /\ p_width P' = w /\ p_height P' = h.
Proof.
  pose proof (planar_destroy zero M 0 0 0 ltac:(lia)) as D. unfold p_default. destruct (p_new zero M 0 0 0) as [M' P] eqn:E.
  unfold p_new in E. injection E as E1 E2. destruct D as (_ & D). subst P. cbn.
  split; auto. split; auto. split; auto. split.
  { intros k Hk. unfold p_band; cbn. now replace (_ <=? _) with true by lia. }
  split; [|intros w h; unfold p_reshape; cbn; eexists; split; [reflexivity|cbn; auto]].
  subst M'. eexists. exact (D eq_refl).
Qed.

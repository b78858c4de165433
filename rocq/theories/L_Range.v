(** Lemmas about combining binary images with logic. *)
From Coq Require Import Lia.
From Verif Require Import Base BaseFacts M_Image S_Image L_Image M_Convolve S_Convolve M_Heap S_Heap L_Heap M_Binary S_Binary L_Binary S_Range.
Open Scope Z_scope.

Lemma view_shape {A} (H : heap A) o g : good H o g -> g_width g = h_width o /\ g_height g = h_height o.
Proof. intros (V & _). unfold view in V. destruct (nth_error H (h_block o)) as [[d|]|]; try discriminate. injection V as <-. now split. Qed.

Lemma reshape_shape (z : Z) g w h g' : gray_reshape z g w h = Ok g' -> g_width g' = w /\ g_height g' = h.
Proof. unfold gray_reshape. destruct (_ && _) eqn:E; [intros [= <-]; lia|]. destruct (g_sub g); intros [= <-]; now split. Qed.

(** Masks combine pixel by pixel. *)
Lemma mask_and H a b out g ga gb go P Q : good H a ga -> good H b gb -> good H out go -> may_combine a b out -> mask_of g ga P -> mask_of g gb Q ->
  exists H' o' m, logicAnd H a b out = Ok (H', o') /\ good H' o' m /\ mask_of g m (fun v => P v /\ Q v).
Proof.
  intros Ga Gb Go (W & Hh & O) (Wa & Ha & Pa) (Wb & Hb & Pb).
  destruct (logicAnd_ok H a b out ga gb go Ga Gb Go W Hh O) as (H' & o' & g1 & m & R & E & G & _ & _ & (_ & _ & L & D & _)).
  exists H', o', m. split; auto. split; auto. destruct (view_shape _ _ _ Ga) as (S1 & S2).
  assert (Sh : g_width m = g_width g /\ g_height m = g_height g).
  { destruct (reshape_shape _ _ _ _ _ R) as (R1 & R2). destruct L as (L1 & L2 & _). split; congruence. }
  destruct Sh as (M1 & M2). split; auto. split; auto. intros x y v V. pose proof (pixel_Some _ _ _ _ V) as I.
  rewrite D. 2:{ destruct (reshape_shape _ _ _ _ _ R) as (R1 & R2). unfold inside in *. rewrite R1, R2. lia. }
  unfold both. destruct (Pa _ _ _ V) as [(A & ->)|(A & ->)], (Pb _ _ _ V) as [(B & ->)|(B & ->)]; cbn; tauto.
Qed.
Lemma mask_or H a b out g ga gb go P Q : good H a ga -> good H b gb -> good H out go -> may_combine a b out -> mask_of g ga P -> mask_of g gb Q ->
  exists H' o' m, logicOr H a b out = Ok (H', o') /\ good H' o' m /\ mask_of g m (fun v => P v \/ Q v).
Proof.
  intros Ga Gb Go (W & Hh & O) (Wa & Ha & Pa) (Wb & Hb & Pb).
  destruct (logicOr_ok H a b out ga gb go Ga Gb Go W Hh O) as (H' & o' & g1 & m & R & E & G & _ & _ & (_ & _ & L & D & _)).
  exists H', o', m. split; auto. split; auto. destruct (view_shape _ _ _ Ga) as (S1 & S2).
  assert (Sh : g_width m = g_width g /\ g_height m = g_height g).
  { destruct (reshape_shape _ _ _ _ _ R) as (R1 & R2). destruct L as (L1 & L2 & _). split; congruence. }
  destruct Sh as (M1 & M2). split; auto. split; auto. intros x y v V. pose proof (pixel_Some _ _ _ _ V) as I.
  rewrite D. 2:{ destruct (reshape_shape _ _ _ _ _ R) as (R1 & R2). unfold inside in *. rewrite R1, R2. lia. }
  unfold either. destruct (Pa _ _ _ V) as [(A & ->)|(A & ->)], (Pb _ _ _ V) as [(B & ->)|(B & ->)]; cbn; tauto.
Qed.
Lemma mask_threshold g t down out o : wf g -> wf out -> gray_reshape 0 out (g_width g) (g_height g) = Ok o ->
  exists m, threshold Z.leb Z.gtb g t down out = Ok m /\ mask_of g m (fun v => if down then v <= t else t < v).
Proof.
  intros Wg Wo R. destruct (threshold_ok Z.leb Z.gtb g t down out o Wg Wo R) as (m & E & (M1 & M2 & _ & D & _)). exists m. split; auto. split; auto. split; auto.
  intros x y v V. rewrite (D _ _ (pixel_Some _ _ _ _ V)), V. destruct down.
  - destruct (Z.leb_spec v t); [left|right]; split; auto; lia.
  - rewrite Z.gtb_ltb. destruct (Z.ltb_spec t v); [left|right]; split; auto; lia.
Qed.

Lemma range_and g lo hi o1 o2 r1 r2 : wf g -> wf o1 -> wf o2 -> gray_reshape 0 o1 (g_width g) (g_height g) = Ok r1 -> gray_reshape 0 o2 (g_width g) (g_height g) = Ok r2 ->
  exists ga gb, threshold Z.leb Z.gtb g lo false o1 = Ok ga /\ threshold Z.leb Z.gtb g hi true o2 = Ok gb /\
    forall H a b out go, good H a ga -> good H b gb -> good H out go -> may_combine a b out ->
      exists H' o' m, logicAnd H a b out = Ok (H', o') /\ good H' o' m /\ mask_of g m (fun v => lo < v <= hi).
Proof.
  intros Wg W1 W2 R1 R2. destruct (mask_threshold g lo false o1 r1 Wg W1 R1) as (ga & Ea & Ma). destruct (mask_threshold g hi true o2 r2 Wg W2 R2) as (gb & Eb & Mb).
  exists ga, gb. split; auto. split; auto. intros H a b out go Ga Gb Go C. exact (mask_and H a b out g ga gb go _ _ Ga Gb Go C Ma Mb).
Qed.
Lemma range_or g lo hi o1 o2 r1 r2 : wf g -> wf o1 -> wf o2 -> gray_reshape 0 o1 (g_width g) (g_height g) = Ok r1 -> gray_reshape 0 o2 (g_width g) (g_height g) = Ok r2 ->
  exists ga gb, threshold Z.leb Z.gtb g lo true o1 = Ok ga /\ threshold Z.leb Z.gtb g hi false o2 = Ok gb /\
    forall H a b out go, good H a ga -> good H b gb -> good H out go -> may_combine a b out ->
      exists H' o' m, logicOr H a b out = Ok (H', o') /\ good H' o' m /\ mask_of g m (fun v => v <= lo \/ hi < v).
Proof.
  intros Wg W1 W2 R1 R2. destruct (mask_threshold g lo true o1 r1 Wg W1 R1) as (ga & Ea & Ma). destruct (mask_threshold g hi false o2 r2 Wg W2 R2) as (gb & Eb & Mb).
  exists ga, gb. split; auto. split; auto. intros H a b out go Ga Gb Go C. exact (mask_or H a b out g ga gb go _ _ Ga Gb Go C Ma Mb).
Qed.
(** Combined with itself in place, an image becomes the mask of its pixels other than zero. *)
Lemma itself H a g : good H a g -> exists H1 o1 m1 H2 o2 m2, logicAnd H a a a = Ok (H1, o1) /\ good H1 o1 m1 /\ mask_of g m1 (fun v => v <> 0) /\
  logicOr H a a a = Ok (H2, o2) /\ good H2 o2 m2 /\ mask_of g m2 (fun v => v <> 0).
Proof.
  intros G. pose proof (aligned_self _ _ _ G) as S. destruct (view_shape _ _ _ G) as (S1 & S2).
  destruct (logicAnd_ok H a a a g g g G G G eq_refl eq_refl) as (H1 & o1 & g1 & m1 & R1 & E1 & G1 & _ & _ & (_ & _ & L1 & D1 & _)); [left; auto|].
  destruct (logicOr_ok H a a a g g g G G G eq_refl eq_refl) as (H2 & o2 & g2 & m2 & R2 & E2 & G2 & _ & _ & (_ & _ & L2 & D2 & _)); [left; auto|].
  destruct (reshape_shape _ _ _ _ _ R1) as (A1 & A2). destruct (reshape_shape _ _ _ _ _ R2) as (B1 & B2). destruct L1 as (L1 & L1' & _). destruct L2 as (L2 & L2' & _).
  exists H1, o1, m1, H2, o2, m2. split; auto. split; auto. split; [|split; auto; split; auto]; (split; [congruence|]; split; [congruence|]); intros x y v V; pose proof (pixel_Some _ _ _ _ V) as I.
  - rewrite D1 by (unfold inside in *; rewrite A1, A2; lia). unfold both. rewrite V. destruct (Z.eqb_spec v 0); cbn; [right|left]; auto.
  - rewrite D2 by (unfold inside in *; rewrite B1, B2; lia). unfold either. rewrite V. destruct (Z.eqb_spec v 0); cbn; [right|left]; auto.
Qed.
(** Erosion does not read 255 as true. *)
Lemma white_eroded : exists H a g H' m e, good H a g /\ (forall x y, inside g x y -> pixel g x y = Some 255) /\
  logicAnd H a a a = Ok (H', a) /\ good H' a m /\ erode4 m (gray_new 0 3 3) = Ok e /\ pixel e 1 1 = Some 1 /\
  exists e', erode4 g (gray_new 0 3 3) = Ok e' /\ pixel e' 1 1 = Some 0.
Proof.
  exists [Some (repeat 255 9)], (mkHimg 3 3 0 3 false 0 9), (mkGray 3 3 0 3 false (repeat 255 9)), [Some (repeat 1 9)], (mkGray 3 3 0 3 false (repeat 1 9)). eexists.
  assert (W : forall v : Z, wf (mkGray 3 3 0 3 false (repeat v 9))) by (intros v; unfold wf; cbn; repeat split; try lia; intros; discriminate).
  split; [split; [reflexivity|split; [apply W|reflexivity]]|]. split.
  { intros x y I. unfold inside in I. cbn in I. assert (x = 0 \/ x = 1 \/ x = 2) as [->|[->| ->]] by lia; assert (y = 0 \/ y = 1 \/ y = 2) as [->|[->| ->]] by lia; reflexivity. }
  split; [reflexivity|]. split; [split; [reflexivity|split; [apply W|reflexivity]]|]. split; [vm_compute; reflexivity|]. split; [reflexivity|].
  eexists. split; [vm_compute; reflexivity|reflexivity].
Qed.
Lemma masks H a b out g ga gb go P Q : good H a ga -> good H b gb -> good H out go -> may_combine a b out -> mask_of g ga P -> mask_of g gb Q ->
  (exists H' o' m, logicAnd H a b out = Ok (H', o') /\ good H' o' m /\ mask_of g m (fun v => P v /\ Q v)) /\
  (exists H' o' m, logicOr H a b out = Ok (H', o') /\ good H' o' m /\ mask_of g m (fun v => P v \/ Q v)).
Proof. intros Ga Gb Go C A B. split; [exact (mask_and H a b out g ga gb go P Q Ga Gb Go C A B)|exact (mask_or H a b out g ga gb go P Q Ga Gb Go C A B)]. Qed.

(** Lemmas about erosion and dilation of related images. *)
From Verif Require Import Base BaseFacts M_Image S_Image L_Image M_Binary S_Binary L_Binary S_Symmetry S_Morph.
Open Scope Z_scope.

(** What the operations compute. *)
Definition eroded (g r : gray Z) : Prop := same_size g r /\ forall x y, is_set r x y = true <-> interior g x y /\ all_set g (cross x y) = true.
Definition dilated (g r : gray Z) : Prop := same_size g r /\ forall x y, is_set r x y = true <-> interior g x y /\ some_set g (cross x y) = true.

Lemma set_inside g x y : is_set g x y = true -> inside g x y.
Proof. unfold is_set. destruct (pixel g x y) eqn:E; [|discriminate]. intros _. eapply pixel_Some; eauto. Qed.
Lemma interior_dec g x y : interior g x y \/ ~ interior g x y.
Proof. unfold interior. lia. Qed.
Lemma interior_inside (g : gray Z) x y : interior g x y -> inside g x y.
Proof. unfold interior, inside. lia. Qed.

Section Op.
Variables (g o : gray Z).
Hypothesis G : bin_image g.
Hypothesis B : blank_for g o.
Lemma op_result (r o' : gray Z) (t : Z -> Z -> bool) : gray_reshape 0 o (g_width g) (g_height g) = Ok o' -> same_layout o' r ->
  (forall x y, interior g x y -> pixel r x y = Some (if t x y then 1 else 0)) ->
  (forall x y, inside g x y -> ~ interior g x y -> pixel r x y = pixel o' x y) ->
  wf r -> same_size g r /\ binary r /\ (forall x y, is_set r x y = true <-> interior g x y /\ t x y = true).
Proof.
  intros E (L1 & L2 & _) P1 P2 Wr. destruct B as (Wo & o2 & E2 & Z2). rewrite E in E2. injection E2 as <-. destruct G as (Wg & _ & W & H).
  destruct (gray_reshape_wf 0 o (g_width g) (g_height g) o' Wo) as (_ & Ow & Oh); auto; try lia.
  { pose proof (wf_small g Wg) as Sm. exact Sm. }
  assert (Sz : same_size g r) by (split; congruence).
  split; [exact Sz|]. split.
  - intros x y v Ev. pose proof (pixel_Some _ _ _ _ Ev) as I. destruct Sz as (S1 & S2). unfold inside in I. rewrite S1, S2 in I.
    destruct (interior_dec g x y) as [Y|N].
    + rewrite P1 in Ev by auto. injection Ev as <-. destruct (t x y); auto.
    + rewrite P2, Z2 in Ev by auto. injection Ev as <-. auto.
  - intros x y. unfold is_set. destruct (interior_dec g x y) as [Y|N].
    + rewrite P1 by auto. destruct (t x y); intuition congruence.
    + split; [|intros (Y & _); contradiction]. destruct (pixel r x y) eqn:Ev; [|discriminate]. pose proof (pixel_Some _ _ _ _ Ev) as I.
      destruct Sz as (S1 & S2). unfold inside in I. rewrite S1, S2 in I. rewrite P2, Z2 in Ev by auto. injection Ev as <-. discriminate.
Qed.
End Op.

Lemma erode_result g o : bin_image g -> blank_for g o -> exists r, erode4 g o = Ok r /\ bin_image r /\ eroded g r.
Proof.
  intros G B. pose proof G as (Wg & Bg & W & H). pose proof B as (Wo & o' & E & _).
  destruct (erode4_ok g o o' Wg Wo Bg E W H) as (r & Er & L & P1 & P2 & _).
  destruct (gray_reshape_wf 0 o (g_width g) (g_height g) o' Wo) as (W' & _ & _); auto; try lia; [exact (wf_small g Wg)|].
  destruct (op_result g o G B r o' (fun x y => all_set g (cross x y)) E L P1 P2) as (Sz & Br & S); [eapply wf_layout; eauto|].
  exists r. split; auto. split; [|split; auto]. split; [eapply wf_layout; eauto|]. split; auto. destruct Sz as (-> & ->). auto.
Qed.
Lemma dilate_result g o : bin_image g -> blank_for g o -> exists r, dilate4 g o = Ok r /\ bin_image r /\ dilated g r.
Proof.
  intros G B. pose proof G as (Wg & Bg & W & H). pose proof B as (Wo & o' & E & _).
  destruct (dilate4_ok g o o' Wg Wo Bg E W H) as (r & Er & L & P1 & P2 & _).
  destruct (gray_reshape_wf 0 o (g_width g) (g_height g) o' Wo) as (W' & _ & _); auto; try lia; [exact (wf_small g Wg)|].
  destruct (op_result g o G B r o' (fun x y => some_set g (cross x y)) E L P1 P2) as (Sz & Br & S); [eapply wf_layout; eauto|].
  exists r. split; auto. split; [|split; auto]. split; [eapply wf_layout; eauto|]. split; auto. destruct Sz as (-> & ->). auto.
Qed.
Lemma blank_same g h o : same_size g h -> blank_for g o -> blank_for h o.
Proof.
  intros (S1 & S2) (W & o' & E & Z0). split; auto. exists o'. rewrite S1, S2. split; auto. intros x y I N. apply Z0; unfold inside, interior in *; lia.
Qed.

(** ** Crosses *)
Definition near (x y u v : Z) : Prop := (u = x /\ v = y) \/ (u = x - 1 /\ v = y) \/ (u = x + 1 /\ v = y) \/ (u = x /\ v = y - 1) \/ (u = x /\ v = y + 1).
Lemma all_near g x y : all_set g (cross x y) = true <-> forall u v, near x y u v -> is_set g u v = true.
Proof.
  unfold all_set. rewrite forallb_forall. split.
  - intros A u v N. apply (A (u, v)). unfold cross. cbn [In].
    destruct N as [(-> & ->)|[(-> & ->)|[(-> & ->)|[(-> & ->)|(-> & ->)]]]]; tauto.
  - intros A (u, v) I. cbn [fst snd]. apply A. unfold near. cbn [In cross] in I. unfold cross in I. cbn [In] in I.
    destruct I as [I|[I|[I|[I|[I|[]]]]]]; injection I as <- <-; lia.
Qed.
Lemma some_near g x y : some_set g (cross x y) = true <-> exists u v, near x y u v /\ is_set g u v = true.
Proof.
  unfold some_set. rewrite existsb_exists. split.
  - intros ((u, v) & I & S). exists u, v. split; auto. unfold near. unfold cross in I. cbn [In] in I.
    destruct I as [I|[I|[I|[I|[I|[]]]]]]; injection I as <- <-; lia.
  - intros (u & v & N & S). exists (u, v). split; auto. unfold cross. cbn [In].
    destruct N as [(-> & ->)|[(-> & ->)|[(-> & ->)|[(-> & ->)|(-> & ->)]]]]; tauto.
Qed.
Lemma near_sym x y u v : near x y u v -> near u v x y.
Proof. unfold near. lia. Qed.
Lemma near_self x y : near x y x y.
Proof. unfold near. lia. Qed.

Lemma eroded_set g r x y : eroded g r -> is_set r x y = true <-> interior g x y /\ forall u v, near x y u v -> is_set g u v = true.
Proof. intros (_ & S). rewrite S, all_near. reflexivity. Qed.
Lemma dilated_set g r x y : dilated g r -> is_set r x y = true <-> interior g x y /\ exists u v, near x y u v /\ is_set g u v = true.
Proof. intros (_ & S). rewrite S, some_near. reflexivity. Qed.
Lemma interior_same g r x y : same_size g r -> interior r x y <-> interior g x y.
Proof. intros (S1 & S2). unfold interior. rewrite S1, S2. reflexivity. Qed.

(** ** The properties, of the results *)
Lemma eroded_mono g h r s : eroded g r -> eroded h s -> subset g h -> subset r s.
Proof.
  intros Rg Rh (Sz & Sub). split.
  - destruct Rg as ((A & B) & _), Rh as ((C & D) & _), Sz as (E & F). split; congruence.
  - intros x y. rewrite (eroded_set g r x y Rg), (eroded_set h s x y Rh), (interior_same g h x y Sz). intros (I & N). auto.
Qed.
Lemma dilated_mono g h r s : dilated g r -> dilated h s -> subset g h -> subset r s.
Proof.
  intros Rg Rh (Sz & Sub). split.
  - destruct Rg as ((A & B) & _), Rh as ((C & D) & _), Sz as (E & F). split; congruence.
  - intros x y. rewrite (dilated_set g r x y Rg), (dilated_set h s x y Rh), (interior_same g h x y Sz). intros (I & u & v & N & S). split; auto. exists u, v. auto.
Qed.
Lemma opened_subset g e d : eroded g e -> dilated e d -> subset d g.
Proof.
  intros E D. pose proof E as ((A & B) & _). pose proof D as ((A' & B') & _). split; [split; congruence|]. intros x y.
  rewrite (dilated_set e d x y D). intros (_ & u & v & N & S). rewrite (eroded_set g e u v E) in S. apply S. now apply near_sym.
Qed.
Lemma closed_superset g d e x y : dilated g d -> eroded d e -> deep 2 g x y -> is_set g x y = true -> is_set e x y = true.
Proof.
  intros D E P S. rewrite (eroded_set d e x y E). rewrite (interior_same g d x y (proj1 D)). split; [unfold deep, interior in *; lia|].
  intros u v N. rewrite (dilated_set g d u v D). split; [unfold deep, interior, near in *; lia|]. exists x, y. split; auto. now apply near_sym.
Qed.
Lemma closed_deep g d e x y : dilated g d -> eroded d e -> is_set e x y = true -> deep 2 g x y.
Proof.
  intros D E S. rewrite (eroded_set d e x y E) in S. destruct S as (_ & N).
  assert (Q : forall u v, near x y u v -> interior g u v) by (intros u v U; now apply (dilated_set g d u v D), N).
  pose proof (Q (x - 1) y ltac:(unfold near; lia)). pose proof (Q (x + 1) y ltac:(unfold near; lia)).
  pose proof (Q x (y - 1) ltac:(unfold near; lia)). pose proof (Q x (y + 1) ltac:(unfold near; lia)). unfold deep, interior in *. lia.
Qed.
Lemma closed_twice g d e d2 e2 : dilated g d -> eroded d e -> dilated e d2 -> eroded d2 e2 -> forall x y, is_set e2 x y = is_set e x y.
Proof.
  intros D E D2 E2 x y. apply Bool.eq_iff_eq_true. split.
  - revert x y. apply (eroded_mono d2 d e2 e E2 E). eapply opened_subset; eauto.
  - intros S. apply (closed_superset e d2 e2 x y D2 E2); auto. pose proof (closed_deep g d e x y D E S) as P.
    destruct D as ((A & B) & _), E as ((A' & B') & _). unfold deep in *. lia.
Qed.
Lemma opened_twice g e d e2 d2 x y : eroded g e -> dilated e d -> eroded d e2 -> dilated e2 d2 ->
  (is_set d2 x y = true -> is_set d x y = true) /\ (deep 3 g x y -> is_set d2 x y = is_set d x y).
Proof.
  intros E D E2 D2. assert (F : is_set d2 x y = true -> is_set d x y = true) by (apply (opened_subset d e2 d2 E2 D2)).
  split; auto. intros P. apply Bool.eq_iff_eq_true. split; auto. intros S.
  assert (Se : same_size g e) by exact (proj1 E). assert (Sd : same_size e d) by exact (proj1 D). assert (Se2 : same_size d e2) by exact (proj1 E2).
  rewrite (dilated_set e d x y D) in S. destruct S as (I & u & v & N & S). rewrite (dilated_set e2 d2 x y D2).
  split; [unfold same_size, deep, interior in *; lia|]. exists u, v. split; auto. rewrite (eroded_set d e2 u v E2).
  split; [unfold same_size, deep, interior, near in *; lia|]. intros a b N'. rewrite (dilated_set e d a b D).
  split; [unfold same_size, deep, interior, near in *; lia|]. exists u, v. split; auto. now apply near_sym.
Qed.
Lemma dilated_union a b c r s t : dilated a r -> dilated b s -> dilated c t -> union a b c -> union r s t.
Proof.
  intros A B C (S1 & S2 & U). pose proof (proj1 A) as Sa. pose proof (proj1 B) as Sb. pose proof (proj1 C) as Sc.
  split; [unfold same_size in *; lia|]. split; [unfold same_size in *; lia|]. intros x y. apply Bool.eq_iff_eq_true. rewrite Bool.orb_true_iff.
  rewrite (dilated_set a r x y A), (dilated_set b s x y B), (dilated_set c t x y C), (interior_same a b x y S1), (interior_same a c x y S2). split.
  - intros (I & u & v & N & S). rewrite U in S. apply Bool.orb_true_iff in S as [S|S]; [left|right]; (split; [auto|]); exists u, v; auto.
  - intros [(I & u & v & N & S)|(I & u & v & N & S)]; split; auto; exists u, v; (split; [auto|]); rewrite U, S; auto using Bool.orb_true_r.
Qed.
Lemma eroded_meet a b c r s t : eroded a r -> eroded b s -> eroded c t -> meet a b c -> meet r s t.
Proof.
  intros A B C (S1 & S2 & U). pose proof (proj1 A) as Sa. pose proof (proj1 B) as Sb. pose proof (proj1 C) as Sc.
  split; [unfold same_size in *; lia|]. split; [unfold same_size in *; lia|]. intros x y. apply Bool.eq_iff_eq_true. rewrite Bool.andb_true_iff.
  rewrite (eroded_set a r x y A), (eroded_set b s x y B), (eroded_set c t x y C), (interior_same a b x y S1), (interior_same a c x y S2). split.
  - intros (I & N). split; (split; [auto|]); intros u v W; specialize (N u v W); rewrite U in N; now apply Bool.andb_true_iff in N.
  - intros ((I & N) & (_ & N')). split; auto. intros u v W. rewrite U, N, N'; auto.
Qed.

(** ** The properties, of the functions *)
Lemma morph_mono g h o1 o2 o3 o4 : bin_image g -> bin_image h -> subset g h -> blank_for g o1 -> blank_for h o2 -> blank_for g o3 -> blank_for h o4 ->
  exists e f d k, erode4 g o1 = Ok e /\ erode4 h o2 = Ok f /\ dilate4 g o3 = Ok d /\ dilate4 h o4 = Ok k /\ subset e f /\ subset d k.
Proof.
  intros G H S B1 B2 B3 B4. destruct (erode_result g o1 G B1) as (e & E1 & _ & R1), (erode_result h o2 H B2) as (f & E2 & _ & R2),
    (dilate_result g o3 G B3) as (d & E3 & _ & R3), (dilate_result h o4 H B4) as (k & E4 & _ & R4).
  exists e, f, d, k. do 4 (split; [auto|]). split; [now apply (eroded_mono g h e f)|now apply (dilated_mono g h d k)].
Qed.
Lemma morph_open g o1 o2 o3 o4 : bin_image g -> blank_for g o1 -> blank_for g o2 -> blank_for g o3 -> blank_for g o4 ->
  exists e d e2 d2, erode4 g o1 = Ok e /\ dilate4 e o2 = Ok d /\ erode4 d o3 = Ok e2 /\ dilate4 e2 o4 = Ok d2 /\
    subset d g /\ subset d2 d /\ forall x y, deep 3 g x y -> is_set d2 x y = is_set d x y.
Proof.
  intros G B1 B2 B3 B4. destruct (erode_result g o1 G B1) as (e & E1 & Ge & R1). pose proof (proj1 R1) as Se.
  destruct (dilate_result e o2 Ge) as (d & E2 & Gd & R2); [now apply (blank_same g)|]. pose proof (proj1 R2) as Sd.
  destruct (erode_result d o3 Gd) as (e2 & E3 & Ge2 & R3); [apply (blank_same g); auto; unfold same_size in *; lia|]. pose proof (proj1 R3) as Se2.
  destruct (dilate_result e2 o4 Ge2) as (d2 & E4 & _ & R4); [apply (blank_same g); auto; unfold same_size in *; lia|].
  exists e, d, e2, d2. do 4 (split; [auto|]). split; [eapply opened_subset; eauto|]. split; [eapply opened_subset; eauto|].
  intros x y. apply (opened_twice g e d e2 d2 x y R1 R2 R3 R4).
Qed.
Lemma morph_close g o1 o2 o3 o4 : bin_image g -> blank_for g o1 -> blank_for g o2 -> blank_for g o3 -> blank_for g o4 ->
  exists d e d2 e2, dilate4 g o1 = Ok d /\ erode4 d o2 = Ok e /\ dilate4 e o3 = Ok d2 /\ erode4 d2 o4 = Ok e2 /\
    (forall x y, deep 2 g x y -> is_set g x y = true -> is_set e x y = true) /\ (forall x y, is_set e2 x y = is_set e x y).
Proof.
  intros G B1 B2 B3 B4. destruct (dilate_result g o1 G B1) as (d & E1 & Gd & R1). pose proof (proj1 R1) as Sd.
  destruct (erode_result d o2 Gd) as (e & E2 & Ge & R2); [now apply (blank_same g)|]. pose proof (proj1 R2) as Se.
  destruct (dilate_result e o3 Ge) as (d2 & E3 & Gd2 & R3); [apply (blank_same g); auto; unfold same_size in *; lia|]. pose proof (proj1 R3) as Sd2.
  destruct (erode_result d2 o4 Gd2) as (e2 & E4 & _ & R4); [apply (blank_same g); auto; unfold same_size in *; lia|].
  exists d, e, d2, e2. do 4 (split; [auto|]). split; [intros x y; now apply (closed_superset g d e)|]. now apply (closed_twice g d e d2 e2).
Qed.
Lemma morph_combine a b c o1 o2 o3 : bin_image a -> bin_image b -> bin_image c -> blank_for a o1 -> blank_for b o2 -> blank_for c o3 ->
  (union a b c -> exists r s t, dilate4 a o1 = Ok r /\ dilate4 b o2 = Ok s /\ dilate4 c o3 = Ok t /\ union r s t) /\
  (meet a b c -> exists r s t, erode4 a o1 = Ok r /\ erode4 b o2 = Ok s /\ erode4 c o3 = Ok t /\ meet r s t).
Proof.
  intros A B C O1 O2 O3. split; intros U.
  - destruct (dilate_result a o1 A O1) as (r & E1 & _ & R1), (dilate_result b o2 B O2) as (s & E2 & _ & R2), (dilate_result c o3 C O3) as (t & E3 & _ & R3).
    exists r, s, t. do 3 (split; [auto|]). now apply (dilated_union a b c).
  - destruct (erode_result a o1 A O1) as (r & E1 & _ & R1), (erode_result b o2 B O2) as (s & E2 & _ & R2), (erode_result c o3 C O3) as (t & E3 & _ & R3).
    exists r, s, t. do 3 (split; [auto|]). now apply (eroded_meet a b c).
Qed.

(** Lemmas about objects that wrap memory of the caller. *)
From Verif Require Import Base BaseFacts M_Image S_Image L_Image L_Inter L_ImageProps M_GrowArray S_GrowArray L_GrowArray S_Wrap.

Section Gray.
Context {A : Type} (zero : A).
Implicit Type g : gray A.

Lemma wrap_wf (data : list A) w h offset stride : window_fits (zlen data) w h offset stride ->
  wf (gray_wrap data w h offset stride).
Proof. intros (W & H & O & S & N & F). unfold wf, gray_wrap; cbn. repeat split; try lia; auto; discriminate. Qed.

Lemma layout_trans {B C} g (g1 : gray B) (g2 : gray C) : same_layout g g1 -> same_layout g1 g2 -> same_layout g g2.
Proof. unfold same_layout. intuition congruence. Qed.

Lemma outside_layout {B} g (g' : gray B) j : same_layout g g' -> outside_window g j -> outside_window g' j.
Proof.
  intros (L1 & L2 & L3 & L4 & _) Ho x y Hi. unfold pos. rewrite L3, L4. apply Ho. unfold inside in *. now rewrite <- L1, <- L2.
Qed.

Lemma view_exec_ok g o : wf g -> g_sub g = true -> view_op_ok o ->
  (view_refuses (g_width g) (g_height g) o /\ view_exec zero g o = Throw /\
     forall x y, view_step (g_width g) (g_height g) (pixel g) o x y = pixel g x y) \/
  (~ view_refuses (g_width g) (g_height g) o /\ exists g', view_exec zero g o = Ok g' /\ same_layout g g' /\
     (forall x y, pixel g' x y = view_step (g_width g) (g_height g) (pixel g) o x y) /\
     forall j, outside_window g j -> znth (g_data g') j = znth (g_data g) j).
Proof.
  intros W Sb Ho. destruct o as [a b v|w h|src]; cbn [view_op_ok view_refuses view_exec view_step] in *.
  - destruct ((a <? g_width g) && (b <? g_height g)) eqn:E.
    + right. split; [lia|]. assert (Hi : inside g a b) by (unfold inside; lia).
      destruct (gray_set_inside g a b v W Hi) as (g' & Eg & Ed & L & Hd). exists g'. split; auto. split; auto. split.
      * intros x y. cbn [andb].
        assert (D : inside g x y \/ ~ inside g x y) by (unfold inside; lia). destruct D as [Hxy|Hxy].
        -- rewrite (pixel_inside g') by (now apply (inside_layout g g')). rewrite Hd.
           replace (pos g' x y) with (pos g x y) by (destruct L as (_ & _ & E1 & E2 & _); unfold pos; now rewrite E1, E2).
           destruct (Z.eqb_spec (pos g x y) (pos g a b)) as [Q|Q].
           ++ destruct (pos_inj g x y a b W Hxy Hi Q) as [-> ->]. now rewrite !Z.eqb_refl.
           ++ rewrite (pixel_inside g) by auto. replace (_ && _) with false; auto. symmetry.
              destruct (Z.eqb_spec x a); auto. destruct (Z.eqb_spec y b); auto. subst; congruence.
        -- rewrite (pixel_outside g') by (intros Q; apply Hxy; now apply (inside_layout g g')).
           rewrite pixel_outside by auto. replace (_ && _) with false; auto. unfold inside in *. lia.
      * intros j Hj. rewrite Hd. destruct (Z.eqb_spec j (pos g a b)); auto. exfalso. apply (Hj a b); auto.
    + left. split; [lia|]. unfold gray_set. replace (_ || _) with true by lia. split; auto.
  - unfold gray_reshape. destruct (_ && _) eqn:E.
    + right. split; [lia|]. exists g. split; auto. split; [unfold same_layout; tauto|]. split; auto.
    + left. split; [lia|]. rewrite Sb. auto.
  - destruct ((g_width src =? g_width g) && (g_height src =? g_height g)) eqn:E.
    + right. split; [lia|].
      destruct (gray_copy_ok zero g src W Ho (wf_small src Ho)) as (g1 & g' & Er & Ec & L & W' & Ew & Eh & Hp & Hf); [right; lia|].
      assert (g1 = g) as -> by (unfold gray_reshape in Er; replace (_ && _) with true in Er by lia; congruence).
      exists g'. split; auto. split; auto. split; auto. intros j Hj. apply Hf. now apply (outside_layout g g').
    + left. split; [lia|]. split; auto. apply gray_copy_throw; auto. lia.
Qed.

Lemma view_step_ext w h (p q : Z -> Z -> option A) o x y : (forall x y, p x y = q x y) -> view_step w h p o x y = view_step w h q o x y.
Proof. intros E. destruct o; cbn; rewrite ?E; auto. Qed.
Lemma view_fold_ext w h l : forall (p q : Z -> Z -> option A) x y, (forall x y, p x y = q x y) ->
  fold_left (view_step w h) l p x y = fold_left (view_step w h) l q x y.
Proof.
  induction l as [|o l IH]; intros p q x y E; cbn; auto. apply IH. intros. now apply view_step_ext.
Qed.

Lemma view_run_ok l : forall g, wf g -> g_sub g = true -> Forall view_op_ok l ->
  exists g', view_run zero g l = Ok g' /\ same_layout g g' /\
    (forall x y, pixel g' x y = fold_left (view_step (g_width g) (g_height g)) l (pixel g) x y) /\
    forall j, outside_window g j -> znth (g_data g') j = znth (g_data g) j.
Proof.
  induction l as [|o l IH]; intros g W Sb F; cbn [view_run fold_left].
  - exists g. split; auto. split; [unfold same_layout; tauto|]. auto.
  - inversion F; subst. destruct (view_exec_ok g o W Sb H1) as [(_ & E & Es)|(_ & g1 & E & L & Hp & Hf)]; rewrite E.
    + destruct (IH g W Sb H2) as (g' & E' & L' & Hp' & Hf'). exists g'. split; auto. split; auto. split; auto.
      intros x y. rewrite Hp'. apply view_fold_ext. intros. symmetry. apply Es.
    + assert (W1 : wf g1) by (eapply wf_layout; eauto).
      assert (S1 : g_sub g1 = true) by (destruct L as (_ & _ & _ & _ & -> & _); auto).
      destruct (IH g1 W1 S1 H2) as (g' & E' & L' & Hp' & Hf'). exists g'. split; auto.
      split; [eapply layout_trans; eauto|]. split.
      * intros x y. rewrite Hp'. destruct L as (-> & -> & _). now apply view_fold_ext.
      * intros j Hj. rewrite Hf' by (now apply (outside_layout g g1)). auto.
Qed.
End Gray.

Lemma view_history_lemma (A : Type) (zero : A) (data : list A) w h offset stride (l : list (view_op A)) (o : view_op A) :
  window_fits (zlen data) w h offset stride -> Forall view_op_ok l -> view_op_ok o ->
  exists g, view_run zero (gray_wrap data w h offset stride) l = Ok g /\ zlen (g_data g) = zlen data /\
    (forall x y, 0 <= x < w -> 0 <= y < h ->
       exists v, fold_left (view_step w h) l (fun x y => znth data (offset + y * stride + x)) x y = Some v /\
         znth (g_data g) (offset + y * stride + x) = Some v /\ gray_get g x y = Ok v) /\
    (forall j, (forall x y, 0 <= x < w -> 0 <= y < h -> j <> offset + y * stride + x) -> znth (g_data g) j = znth data j) /\
    (forall x y, 0 <= x < 4294967296 -> 0 <= y < 4294967296 ->
       (gray_isInBounds g x y = true <-> x < w /\ y < h) /\ (gray_get g x y = Throw <-> gray_isInBounds g x y = false)) /\
    (view_exec zero g o = Throw <-> view_refuses w h o).
Proof.
  intros Hw Hl Ho. pose proof (wrap_wf data w h offset stride Hw) as W. set (g0 := gray_wrap data w h offset stride) in *.
  destruct (view_run_ok zero l g0 W eq_refl Hl) as (g & E & L & Hp & Hf). exists g. split; auto.
  assert (W' : wf g) by (eapply wf_layout; eauto). pose proof L as (Lw & Lh & Lo & Ls & Lb & Ll). cbn in Lw, Lh, Lo, Ls, Lb, Ll.
  split; auto.
  assert (Hr : forall p q x y, (forall x y, 0 <= x < w -> 0 <= y < h -> p x y = q x y) -> 0 <= x < w -> 0 <= y < h ->
     fold_left (view_step w h) l p x y = fold_left (view_step (A := A) w h) l q x y).
  { clear. induction l as [|o l IH]; intros p q x y Epq Hx Hy; cbn; auto. apply IH; auto. intros a b Ha Hb.
    destruct o; cbn; rewrite ?Epq; auto. }
  split.
  { intros x y Hx Hy. assert (Hi : inside g x y) by (unfold inside; lia).
    destruct (gray_get_inside g x y W' Hi) as (v & Ev & Ep). exists v.
    assert (Es : fold_left (view_step w h) l (fun x y => znth data (offset + y * stride + x)) x y = pixel g x y).
    { rewrite Hp. apply Hr; auto. intros a b Ha Hb. rewrite pixel_inside by (unfold inside; cbn; lia). reflexivity. }
    rewrite Es. split; auto. split; auto. rewrite pixel_inside in Ep by auto. unfold pos in Ep. now rewrite Lo, Ls in Ep. }
  split.
  { intros j Hj. apply (Hf j). intros x y [Hx Hy] Q. cbn in Hx, Hy. apply (Hj x y); auto. }
  split.
  { intros x y Hx Hy. unfold gray_isInBounds. rewrite Lw, Lh. split; [lia|].
    assert (D : inside g x y \/ ~ inside g x y) by (unfold inside; lia). destruct D as [Hi|Hi].
    - destruct (gray_get_inside g x y W' Hi) as (v & Ev & Ep). unfold inside in Hi. split; [congruence|intros; lia].
    - rewrite gray_get_outside by (auto; lia). unfold inside in Hi. split; [lia|auto]. }
  destruct (view_exec_ok zero g o W' Lb Ho) as [(R & Ex & _)|(R & g1 & Ex & _)]; rewrite Lw, Lh in R; rewrite Ex.
  - tauto.
  - split; [discriminate|tauto].
Qed.

Lemma wrap_unchecked_lemma (A : Type) (data : list A) w h offset stride :
  0 < w -> 0 < h -> 0 <= offset -> w <= stride -> offset + (h - 1) * stride + w <= 4294967296 ->
  ((forall x y, 0 <= x < w -> 0 <= y < h -> exists v, gray_get (gray_wrap data w h offset stride) x y = Ok v) <->
   offset + (h - 1) * stride + w <= zlen data).
Proof.
  intros Hw Hh Ho Hs Hn. split.
  - intros H. destruct (H (w - 1) (h - 1)) as [v E]; try lia. unfold gray_get, gray_index, gray_wrap in E. cbn in E.
    replace (_ || _) with false in E by lia. rewrite u32_id in E by nia. apply bget_Ok in E.
    apply znth_Some_range in E. lia.
  - intros Hl x y Hx Hy. unfold gray_get, gray_index, gray_wrap. cbn. replace (_ || _) with false by lia.
    rewrite u32_id by nia. destruct (bget_in data (offset + y * stride + x)) as (v & E & _); [nia|]. eauto.
Qed.

(** ** Interleaved images *)
Definition i_same_layout (g g' : inter Z) : Prop :=
  i_width g' = i_width g /\ i_height g' = i_height g /\ i_bands g' = i_bands g /\ i_offset g' = i_offset g /\
  i_stride g' = i_stride g /\ i_sub g' = i_sub g /\ zlen (i_data g') = zlen (i_data g).

Lemma i_wrap_wf (data : list Z) w h n offset stride : 0 <= w < 4294967296 -> 0 <= n < 4294967296 ->
  window_fits (zlen data) (w * n) h offset stride -> i_wf (inter_wrap data w h n offset stride).
Proof.
  intros W B (P & H & O & S & N & F). unfold i_wf, inter_wrap; cbn. repeat split; try lia; try discriminate.
Qed.

Lemma i_layout_wf g g' : i_same_layout g g' -> i_wf g -> i_wf g'.
Proof.
  intros (L1 & L2 & L3 & L4 & L5 & L6 & L7). unfold i_wf. now rewrite L1, L2, L3, L4, L5, L6, L7.
Qed.

Lemma copy_elems_len {A} (dst src : list A) di si n d : copy_elems dst di src si n = Ok d -> zlen d = zlen dst.
Proof.
  intros E. unfold copy_elems in E. destruct (Z.leb_spec n 0); [rewrite for_range_nil in E by lia; congruence|].
  apply (for_range_Ok_inv (fun _ l => zlen l = zlen dst)) in E; auto; [lia|].
  intros i l l' Hi L El. apply bind_Ok in El as (v & _ & Es). apply bset_Ok in Es as (_ & Ls & _). lia.
Qed.

Lemma memcpy_bytes_len t dst di src si n d : memcpy_bytes t dst di src si n = Ok d -> zlen d = zlen dst.
Proof.
  intros E. unfold memcpy_bytes in E. apply bind_Ok in E as (d1 & E1 & E). apply copy_elems_len in E1.
  destruct (_ =? 0); [congruence|]. apply bind_Ok in E as (v & _ & E). apply bind_Ok in E as (u & _ & E).
  apply bset_Ok in E as (_ & L & _). lia.
Qed.

Lemma i_setTo_layout t g src g' : i_sub g = true -> inter_setTo t g src = Ok g' -> i_same_layout g g'.
Proof.
  intros Sb E. unfold inter_setTo in E. rewrite Sb in E. destruct (_ && _) eqn:Q; [discriminate|].
  cbn [andb] in Q. apply bind_Ok in E as (g1 & E1 & E). apply bind_Ok in E as (g2 & E2 & E). apply bind_Ok in E as (d & E3 & E).
  unfold inter_set_bands in E1. replace (_ =? _) with true in E1 by lia. injection E1 as <-.
  unfold inter_reshape in E2. replace (_ && _) with true in E2 by lia. injection E2 as <-. injection E as <-.
  unfold i_same_layout; cbn. repeat split; auto.
  destruct (Z.leb_spec (i_height g) 0); [rewrite for_range_nil in E3 by lia; congruence|].
  apply (for_range_Ok_inv (fun _ l => zlen l = zlen (i_data g))) in E3; auto; [lia|].
  intros i l l' Hi L El. apply memcpy_bytes_len in El. lia.
Qed.

Lemma i_outside_layout g g' j : i_same_layout g g' -> i_outside_window g j -> i_outside_window g' j.
Proof.
  intros (L1 & L2 & L3 & L4 & L5 & _) Ho x y b Hi. unfold i_pos. rewrite L3, L4, L5. apply Ho.
  unfold i_inside in *. now rewrite <- L1, <- L2, <- L3.
Qed.

Lemma iview_exec_ok t g o : ity_size t = 1 -> i_wf g -> i_sub g = true -> iview_op_ok (i_bands g) o ->
  (iview_refuses (i_width g) (i_height g) (i_bands g) o /\ iview_exec t g o = Throw /\
     forall x y b, iview_step (i_width g) (i_height g) (i_bands g) (i_pixel g) o x y b = i_pixel g x y b) \/
  (~ iview_refuses (i_width g) (i_height g) (i_bands g) o /\ exists g', iview_exec t g o = Ok g' /\ i_same_layout g g' /\
     (forall x y b, i_pixel g' x y b = iview_step (i_width g) (i_height g) (i_bands g) (i_pixel g) o x y b) /\
     forall j, i_outside_window g j -> znth (i_data g') j = znth (i_data g) j).
Proof.
  intros Et W Sb Ho. assert (Refl : i_same_layout g g) by (unfold i_same_layout; tauto).
  destruct o as [a c k v|w h|w h b|b|src]; cbn [iview_op_ok iview_refuses iview_exec iview_step] in *.
  - destruct ((a <? i_width g) && (c <? i_height g)) eqn:E.
    + right. split; [lia|]. assert (Hi : i_inside g a c k) by (unfold i_inside; lia).
      unfold inter_set. replace (_ || _) with false by lia. rewrite i_wf_index by auto.
      destruct (bset_exists (i_data g) (i_pos g a c k) v (i_wf_pos g a c k W Hi)) as (d & Ed & Ld & Hd).
      rewrite Ed. cbn [bind]. eexists; split; [reflexivity|]. split; [unfold i_same_layout; cbn; tauto|]. split.
      * intros x y b. cbn [andb].
        assert (D : i_inside g x y b \/ ~ i_inside g x y b) by (unfold i_inside; lia). destruct D as [Hi'|Hi'].
        -- rewrite i_pixel_inside by auto. cbn. rewrite Hd. change (i_pos (i_with_data g d) x y b) with (i_pos g x y b).
           destruct (Z.eqb_spec (i_pos g x y b) (i_pos g a c k)) as [Q|Q].
           ++ destruct (i_pos_inj g _ _ _ _ _ _ W Hi' Hi Q) as (-> & -> & ->). now rewrite !Z.eqb_refl.
           ++ rewrite (i_pixel_inside g) by auto. replace (_ && _) with false; auto. symmetry.
              destruct (Z.eqb_spec x a); [|auto]. destruct (Z.eqb_spec y c); [|auto]. destruct (Z.eqb_spec b k); auto.
              subst; congruence.
        -- rewrite !i_pixel_outside by auto. replace (_ && _) with false; auto. unfold i_inside in *. lia.
      * intros j Hj. cbn. rewrite Hd. destruct (Z.eqb_spec j (i_pos g a c k)); auto. exfalso. apply (Hj a c k); auto.
    + left. split; [lia|]. unfold inter_set. replace (_ || _) with true by lia. auto.
  - unfold inter_reshape. destruct (_ && _) eqn:E; [right|left]; (split; [lia|]); [exists g; auto|rewrite Sb; auto].
  - unfold inter_reshape3. destruct (_ && _) eqn:E; [right|left]; (split; [lia|]); [exists g; auto|rewrite Sb; auto].
  - unfold inter_set_bands. destruct (_ =? _) eqn:E; [right|left]; (split; [lia|]); [exists g; auto|rewrite Sb; auto].
  - destruct ((i_width src =? i_width g) && (i_height src =? i_height g) && (i_bands src =? i_bands g)) eqn:E.
    + right. split; [lia|].
      destruct (inter_setTo_ok t g src Et W Ho) as (g' & Eg & W' & Ew & Eh & Eb & Hp & Hf); [right; lia|].
      exists g'. split; auto. split; [eapply i_setTo_layout; eauto|]. auto.
    + left. split; [lia|]. split; auto. apply setTo_throw_lemma; auto. lia.
Qed.

Lemma iview_fold_ext (P : Z -> Z -> Z -> Prop) w h n l : forall p q, (forall x y b, P x y b -> p x y b = q x y b) ->
  forall x y b, P x y b -> fold_left (iview_step w h n) l p x y b = fold_left (iview_step w h n) l q x y b.
Proof.
  induction l as [|o l IH]; intros p q E x y b H; cbn; auto. apply IH; auto. intros x' y' b' H'.
  destruct o; cbn; rewrite ?E by auto; auto.
Qed.

Lemma iview_run_ok t l : ity_size t = 1 -> forall g, i_wf g -> i_sub g = true -> Forall (iview_op_ok (i_bands g)) l ->
  exists g', iview_run t g l = Ok g' /\ i_same_layout g g' /\
    (forall x y b, i_pixel g' x y b = fold_left (iview_step (i_width g) (i_height g) (i_bands g)) l (i_pixel g) x y b) /\
    forall j, i_outside_window g j -> znth (i_data g') j = znth (i_data g) j.
Proof.
  intros Et. induction l as [|o l IH]; intros g W Sb F; cbn [iview_run fold_left].
  - exists g. split; auto. split; [unfold i_same_layout; tauto|]. auto.
  - inversion F; subst. destruct (iview_exec_ok t g o Et W Sb H1) as [(_ & E & Es)|(_ & g1 & E & L & Hp & Hf)]; rewrite E.
    + destruct (IH g W Sb H2) as (g' & E' & L' & Hp' & Hf'). exists g'. split; [exact E'|]. split; [exact L'|]. split; [|exact Hf'].
      intros x y b. rewrite Hp'. apply (iview_fold_ext (fun _ _ _ => True)); auto; intros; symmetry; apply Es.
    + assert (W1 : i_wf g1) by (eapply i_layout_wf; eauto). pose proof L as (L1 & L2 & L3 & L4 & L5 & L6 & L7).
      destruct (IH g1 W1 ltac:(congruence) ltac:(now rewrite L3)) as (g' & E' & L' & Hp' & Hf'). exists g'. split; [exact E'|].
      split; [unfold i_same_layout in *; intuition congruence|]. split.
      * intros x y b. rewrite Hp', L1, L2, L3. apply (iview_fold_ext (fun _ _ _ => True)); auto.
      * intros j Hj. rewrite Hf' by (now apply (i_outside_layout g g1)). auto.
Qed.

Lemma iview_history_lemma t (data : list Z) w h n offset stride (l : list iview_op) (o : iview_op) :
  ity_size t = 1 -> 0 <= w < 4294967296 -> 0 <= n < 4294967296 ->
  window_fits (zlen data) (w * n) h offset stride -> Forall (iview_op_ok n) l -> iview_op_ok n o ->
  exists g, iview_run t (inter_wrap data w h n offset stride) l = Ok g /\ zlen (i_data g) = zlen data /\
    (forall x y b, 0 <= x < w -> 0 <= y < h -> 0 <= b < n ->
       exists v, fold_left (iview_step w h n) l (fun x y b => znth data (offset + y * stride + x * n + b)) x y b = Some v /\
         znth (i_data g) (offset + y * stride + x * n + b) = Some v /\ inter_get g x y b = Ok v) /\
    (forall j, (forall x y b, 0 <= x < w -> 0 <= y < h -> 0 <= b < n -> j <> offset + y * stride + x * n + b) ->
       znth (i_data g) j = znth data j) /\
    (iview_exec t g o = Throw <-> iview_refuses w h n o).
Proof.
  intros Et Hw Hn Hf Hl Ho. pose proof (i_wrap_wf data w h n offset stride Hw Hn Hf) as W.
  set (g0 := inter_wrap data w h n offset stride) in *.
  destruct (iview_run_ok t l Et g0 W eq_refl Hl) as (g & E & L & Hp & Hfr). exists g. split; auto.
  assert (W' : i_wf g) by (eapply i_layout_wf; eauto). pose proof L as (L1 & L2 & L3 & L4 & L5 & L6 & L7). cbn in L1, L2, L3, L4, L5, L6, L7.
  split; auto. split.
  { intros x y b Hx Hy Hb. assert (Hi : i_inside g x y b) by (unfold i_inside; lia).
    destruct (inter_get_inside g x y b W' Hi) as (v & Ev & Ep). exists v.
    assert (Es : fold_left (iview_step w h n) l (fun x y b => znth data (offset + y * stride + x * n + b)) x y b = i_pixel g x y b).
    { rewrite Hp. apply (iview_fold_ext (fun x y b => 0 <= x < w /\ 0 <= y < h /\ 0 <= b < n)); auto.
      intros a c k Ha. rewrite i_pixel_inside by (unfold i_inside; cbn; lia). reflexivity. }
    rewrite Es. split; auto. split; auto. rewrite i_pixel_inside in Ep by auto. unfold i_pos in Ep. now rewrite L3, L4, L5 in Ep. }
  split.
  { intros j Hj. apply (Hfr j). intros x y b (Hx & Hy & Hb) Q. cbn in Hx, Hy, Hb. apply (Hj x y b); auto. }
  destruct (iview_exec_ok t g o Et W' L6 ltac:(now rewrite L3)) as [(R & Ex & _)|(R & g1 & Ex & _)];
    rewrite L1, L2, L3 in R; rewrite Ex.
  - tauto.
  - split; [discriminate|tauto].
Qed.

(** ** Arrays *)
Lemma foreign_exec_ok {A} (m : memtype A) g o : ga_own g = false -> 0 <= ga_size g <= zlen (ga_data g) ->
  match o with Op_put i _ => 0 <= i | _ => True end ->
  (foreign_refuses (ga_size g) o /\ ga_exec m g o = Throw /\
     forall j, foreign_step m (ga_size g) (znth (ga_data g)) o j = znth (ga_data g) j) \/
  (~ foreign_refuses (ga_size g) o /\ exists g', ga_exec m g o = Ok g' /\ ga_own g' = false /\
     ga_size g' = ga_size g /\ zlen (ga_data g') = zlen (ga_data g) /\
     forall j, znth (ga_data g') j = foreign_step m (ga_size g) (znth (ga_data g)) o j).
Proof.
  intros O S Hi. destruct o as [n|n|v|i v|v|other|l|src]; cbn [foreign_refuses ga_exec foreign_step].
  - left. unfold ga_grow. now rewrite O.
  - left. unfold ga_resize. now rewrite O.
  - right. split; auto. unfold ga_fill. replace (_ <=? _) with true by lia. eexists; split; [reflexivity|]. cbn.
    split; auto. split; auto. split; [rewrite zlen_app, zlen_repeat, skipn_zlen; lia|]. intros j.
    destruct (Z.ltb_spec j 0).
    { replace (_ && _) with false by lia. rewrite !(proj2 (znth_None _ _)); auto; lia. }
    destruct (Z.ltb_spec j (ga_size g)).
    + replace (_ && _) with true by lia. rewrite znth_app_l by (rewrite zlen_repeat; lia). rewrite znth_repeat by lia. reflexivity.
    + replace (_ && _) with false by lia. rewrite znth_app_r by (rewrite zlen_repeat; lia). rewrite zlen_repeat.
      rewrite <- (firstn_skipn (Z.to_nat (ga_size g)) (ga_data g)) at 2.
      rewrite znth_app_r by (rewrite firstn_zlen; lia). rewrite firstn_zlen by lia. f_equal. lia.
  - unfold ga_at_set. destruct (Z.leb_spec (ga_size g) i).
    + left. split; auto. split; auto. intros j. now replace (i <? ga_size g) with false by lia.
    + right. split; [lia|]. destruct (bset_exists (ga_data g) i (Some v)) as (d & Ed & Ld & Hd); [lia|]. rewrite Ed. cbn.
      eexists; split; [reflexivity|]. cbn. split; auto. split; auto. split; auto. intros j. rewrite Hd.
      now replace (i <? ga_size g) with true by lia.
  - right. split; auto. eexists; split; [reflexivity|]. cbn. auto.
  - left. unfold ga_assign, ga_grow. cbn. now rewrite O.
  - left. unfold ga_setTo, ga_resize. now rewrite O.
  - left. unfold ga_set, ga_grow. now rewrite O.
Qed.

Lemma foreign_fold_ext {A} (m : memtype A) n l : forall (p q : Z -> option (option A)) j, (forall j, p j = q j) ->
  fold_left (foreign_step m n) l p j = fold_left (foreign_step m n) l q j.
Proof.
  induction l as [|o l IH]; intros p q j E; cbn; auto. apply IH. intros k. destruct o; cbn; rewrite ?E; auto.
Qed.

Lemma foreign_run_ok {A} (m : memtype A) l : forall g, ga_own g = false -> 0 <= ga_size g <= zlen (ga_data g) ->
  Forall (fun o => match o with Op_put i _ => 0 <= i | _ => True end) l ->
  exists g', ga_run m g l = Ok g' /\ ga_own g' = false /\ ga_size g' = ga_size g /\ zlen (ga_data g') = zlen (ga_data g) /\
     forall j, znth (ga_data g') j = fold_left (foreign_step m (ga_size g)) l (znth (ga_data g)) j.
Proof.
  induction l as [|o l IH]; intros g O S F; cbn [ga_run fold_left].
  - exists g. auto.
  - inversion F; subst. destruct (foreign_exec_ok m g o O S H1) as [(_ & E & Es)|(_ & g1 & E & O1 & S1 & L1 & H1')]; rewrite E.
    + destruct (IH g O S H2) as (g' & E' & O' & S' & L' & H'). exists g'. repeat split; auto. intros j. rewrite H'.
      apply foreign_fold_ext. intros; symmetry; apply Es.
    + destruct (IH g1 O1 ltac:(lia) H2) as (g' & E' & O' & S' & L' & H'). exists g'. repeat split; auto; try lia.
      intros j. rewrite H', S1. now apply foreign_fold_ext.
Qed.

Lemma foreign_history_lemma (A : Type) (m : memtype A) (data : list (option A)) len n (l : list (ga_op A)) (o : ga_op A) :
  0 <= n <= len -> len <= zlen data ->
  Forall (fun o => match o with Op_put i _ => 0 <= i | _ => True end) (o :: l) ->
  exists g, ga_run m (ga_wrap m data len n) l = Ok g /\ ga_size g = n /\ zlen (ga_data g) = zlen data /\
    (forall j, znth (ga_data g) j = fold_left (foreign_step m n) l (znth data) j) /\
    (forall j, n <= j -> znth (ga_data g) j = znth data j) /\
    (forall i, 0 <= i -> ga_at g i = if i <? n then match znth (ga_data g) i with Some (Some v) => Ok v | _ => Undef end else Throw) /\
    (ga_exec m g o = Throw <-> foreign_refuses n o).
Proof.
  intros Hn Hl F. inversion F; subst.
  destruct (foreign_run_ok m l (ga_wrap m data len n) eq_refl ltac:(cbn; lia) H2) as (g & E & O & S & L & Hd).
  cbn in S, L. exists g. split; auto. split; auto. split; auto. split; auto. split.
  { intros j Hj. rewrite Hd. cbn. clear - Hj. assert (forall (p : Z -> option (option A)), fold_left (foreign_step m n) l p j = p j); auto.
    induction l as [|o l IH]; intros p; cbn; auto. rewrite IH. destruct o; cbn; auto.
    - now replace (_ && _) with false by lia.
    - now replace (_ && _) with false by lia. }
  split.
  { intros i Hi. unfold ga_at. rewrite S. destruct (Z.ltb_spec i n); [replace (_ <=? _) with false by lia|replace (_ <=? _) with true by lia]; auto. }
  destruct (foreign_exec_ok m g o O ltac:(lia) H1) as [(R & Ex & _)|(R & g1 & Ex & _)]; rewrite S in R; rewrite Ex.
  - tauto.
  - split; [discriminate|tauto].
Qed.

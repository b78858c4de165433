(** Lemmas about pixel-wise logic, morphology and thresholds. *)
From Verif Require Import BaseFacts M_Image S_Image L_Image L_Window M_Convolve S_Convolve L_Convolve2 M_Heap S_Heap M_Binary S_Binary L_Heap.

(** ** Logic *)
Section Top.
Variable op : outcome Z -> outcome Z -> outcome Z.
Variable f : Z -> Z -> Z.
Hypothesis Hop : forall a b, op (Ok a) (Ok b) = Ok (f a b).

Lemma pw_top H a b out ga gb go :
  good H a ga -> good H b gb -> good H out go ->
  h_width b = h_width a -> h_height b = h_height a ->
  (h_width out = h_width a /\ h_height out = h_height a /\ aligned a out /\ aligned b out) \/
  (h_sub out = false /\ h_block a <> h_block out /\ h_block b <> h_block out) ->
  exists H' o' g1 g', gray_reshape 0 go (h_width a) (h_height a) = Ok g1 /\
    h_pixelwise op H a b out = Ok (H', o') /\ good H' o' g' /\
    (h_width out = h_width a /\ h_height out = h_height a -> o' = out) /\
    (forall k, k <> h_block out -> (k < length H)%nat -> nth_error H' k = nth_error H k) /\
    holds g1 g1 g' (fun x y => match pixel ga x y, pixel gb x y with Some u, Some v => Some (f u v) | _, _ => None end).
Proof.
  intros Ga Gb Go Ew Eh Hs. destruct Ga as (Va & Wa & La). pose proof (view_inv _ _ _ Va) as (Da & Ea1 & Ea2 & _).
  assert (W := Wa). unfold wf in W. pose proof (wf_small ga Wa) as Sm. unfold small in Sm.
  destruct (h_reshape_ok 0 H out go (h_width a) (h_height a) Go) as (H1 & o & g1 & E1 & G1 & R1 & W1 & W2 & S1 & K1 & B1).
  - unfold is32. lia.
  - unfold is32. lia.
  - lia.
  - destruct Hs as [(? & ? & _)|(? & _)]; auto.
  - assert (Keep : forall k g, h_block k <> h_block out -> good H k g -> good H1 k g /\ h_block k <> h_block o).
    { intros k g N (V & Wk & Lk). pose proof (view_inv _ _ _ V) as (Dk & _). apply nth_some_lt in Dk as Lt.
      destruct B1 as [[B ->]|[B ->]].
      - rewrite B. split; auto. split; auto.
      - rewrite B. split; [|lia]. split; auto. rewrite <- V. apply view_same.
        rewrite nth_error_app1 by (rewrite upd_length; lia). rewrite upd_other by auto. reflexivity. }
    assert (X : good H1 a ga /\ good H1 b gb /\ aligned a o /\ aligned b o).
    { destruct Hs as [(S2 & S3 & A1 & A2)|(S2 & N1 & N2)].
      - destruct (K1 (conj S2 S3)) as [-> ->]. split; [split; auto|]. auto.
      - destruct (Keep a ga N1 (conj Va (conj Wa La))), (Keep b gb N2 Gb). do 2 (split; auto).
        split; intros E; congruence. }
    destruct X as (X1 & X2 & X3 & X4). destruct G1 as (V1 & Wf1 & L1). pose proof (view_inv _ _ _ V1) as (D1 & F1 & F2 & _).
    destruct (pw_holds op f Hop H1 a b o ga gb g1 X1 X2 (conj V1 (conj Wf1 L1))) as (H2 & g' & E2 & G2 & Fr & Px & Ou); auto.
    { lia. }
    exists H2, o, g1, g'. split; auto. split.
    { unfold h_pixelwise in *. rewrite E1. cbn [bind]. revert E2. unfold h_reshape.
      replace ((h_width o =? h_width a) && (h_height o =? h_height a)) with true by lia. cbn [bind]. auto. }
    split; auto. split.
    { intros S. now destruct (K1 S). }
    split.
    { intros k Nk Lt. destruct B1 as [[B ->]|[B ->]].
      - apply Fr. congruence.
      - rewrite Fr by lia. rewrite nth_error_app1 by (rewrite upd_length; lia). now rewrite upd_other by auto. }
    destruct G2 as (V2 & Wf2 & L2). pose proof (view_inv _ _ _ V2) as (D2 & Q1 & Q2 & Q3 & Q4 & Q5).
    pose proof (view_inv _ _ _ V1) as (_ & _ & _ & P3 & P4 & P5).
    split; [lia|]. split; [lia|]. split; [|split; auto]. unfold same_layout. repeat (split; [congruence|]). lia.
Qed.
End Top.

Lemma op_and_ok a b : op_and (Ok a) (Ok b) = Ok (if negb (a =? 0) && negb (b =? 0) then 1 else 0).
Proof. unfold op_and. cbn. destruct (a =? 0), (b =? 0); reflexivity. Qed.
Lemma op_or_ok a b : op_or (Ok a) (Ok b) = Ok (if negb (a =? 0) || negb (b =? 0) then 1 else 0).
Proof. unfold op_or. cbn. destruct (a =? 0), (b =? 0); reflexivity. Qed.

Lemma logic_shape H a b out : h_width b <> h_width a \/ h_height b <> h_height a ->
  logicAnd H a b out = Throw /\ logicOr H a b out = Throw.
Proof.
  intros N. unfold logicAnd, logicOr, h_checkSameShape.
  replace (_ || _) with true by lia. auto.
Qed.

Lemma logicAnd_ok H a b out ga gb go :
  good H a ga -> good H b gb -> good H out go ->
  h_width b = h_width a -> h_height b = h_height a ->
  (h_width out = h_width a /\ h_height out = h_height a /\ aligned a out /\ aligned b out) \/
  (h_sub out = false /\ h_block a <> h_block out /\ h_block b <> h_block out) ->
  exists H' o' g1 g', gray_reshape 0 go (h_width a) (h_height a) = Ok g1 /\
    logicAnd H a b out = Ok (H', o') /\ good H' o' g' /\
    (h_width out = h_width a /\ h_height out = h_height a -> o' = out) /\
    (forall k, k <> h_block out -> (k < length H)%nat -> nth_error H' k = nth_error H k) /\
    holds g1 g1 g' (both ga gb).
Proof.
  intros Ga Gb Go Ew Eh Hs. unfold logicAnd, h_checkSameShape.
  replace (_ || _) with false by lia. cbn [bind]. exact (pw_top op_and _ op_and_ok H a b out ga gb go Ga Gb Go Ew Eh Hs).
Qed.
Lemma logicOr_ok H a b out ga gb go :
  good H a ga -> good H b gb -> good H out go ->
  h_width b = h_width a -> h_height b = h_height a ->
  (h_width out = h_width a /\ h_height out = h_height a /\ aligned a out /\ aligned b out) \/
  (h_sub out = false /\ h_block a <> h_block out /\ h_block b <> h_block out) ->
  exists H' o' g1 g', gray_reshape 0 go (h_width a) (h_height a) = Ok g1 /\
    logicOr H a b out = Ok (H', o') /\ good H' o' g' /\
    (h_width out = h_width a /\ h_height out = h_height a -> o' = out) /\
    (forall k, k <> h_block out -> (k < length H)%nat -> nth_error H' k = nth_error H k) /\
    holds g1 g1 g' (either ga gb).
Proof.
  intros Ga Gb Go Ew Eh Hs. unfold logicOr, h_checkSameShape.
  replace (_ || _) with false by lia. cbn [bind]. exact (pw_top op_or _ op_or_ok H a b out ga gb go Ga Gb Go Ew Eh Hs).
Qed.
Lemma aligned_self H (a : himg) (g : gray Z) : good H a g -> aligned a a.
Proof.
  intros (V & W & _) _ x y x' y' Hx Hy Hx' Hy' E. pose proof (view_inv _ _ _ V) as (_ & E1 & E2 & E3 & E4 & _).
  apply (pos_inj g); auto; unfold inside, pos; rewrite ?E1, ?E2, ?E3, ?E4; auto.
Qed.

(** ** Erosion and dilation *)
Section Morph.
Variable test : Z -> bool.
Variables g out o : gray Z.
Hypothesis Hg : wf g.
Hypothesis Hout : wf out.
Hypothesis Eo : gray_reshape 0 out (g_width g) (g_height g) = Ok o.
Hypothesis Sw : 0 < g_width g <= 2147483648.
Hypothesis Sh : 0 < g_height g <= 2147483648.

Definition m4_value (x y : Z) : option Z :=
  match neighbour_sum g x y with Some s => Some (if test s then 1 else 0) | None => None end.

Lemma morph4_ok : exists out', morph4 test g out = Ok out' /\ same_layout o out' /\
  (forall x y, interior g x y -> pixel out' x y = m4_value x y /\ m4_value x y <> None) /\
  (forall x y, inside g x y -> ~ interior g x y -> pixel out' x y = pixel o x y) /\
  (forall j, outside_window o j -> znth (g_data out') j = znth (g_data o) j).
Proof.
  pose proof (wf_small g Hg) as Sm. unfold small in Sm.
  destruct (gray_reshape_wf 0 out (g_width g) (g_height g) o Hout) as (Ho & Ow & Oh); auto; try lia.
  unfold morph4. rewrite Eo. cbn [bind].
  assert (W := Hg). unfold wf in W. destruct W as (W1 & W2 & W3 & W4 & W5 & W6 & W7). clear W7.
  specialize (W6 ltac:(lia) ltac:(lia)).
  assert (So : zlen (g_data o) < 4294967296) by (unfold wf in Ho; lia).
  replace (u32 (s32 (u32 (g_height g - 1)))) with (g_height g - 1).
  2:{ rewrite (u32_id (g_height g - 1)) by lia. rewrite s32_id by lia. symmetry. apply u32_id. lia. }
  assert (Ew : s32 (u32 (g_width g - 2)) = g_width g - 2).
  { apply s32_u32. lia. }
  rewrite Ew.
  assert (NS : forall x y, interior g x y -> exists s, neighbour_sum g x y = Some s /\
     (let* c := bget (g_data g) (pos g x y) in let* l := bget (g_data g) (pos g (x - 1) y) in
      let* r := bget (g_data g) (pos g (x + 1) y) in let* u := bget (g_data g) (pos g x (y - 1)) in
      let* b := bget (g_data g) (pos g x (y + 1)) in Ok (c + l + r + u + b)) = Ok s).
  { intros x y [Hx Hy].
    assert (P : forall x y, inside g x y -> exists v, pixel g x y = Some v /\ bget (g_data g) (pos g x y) = Ok v).
    { intros x' y' Hi. destruct (bget_in (g_data g) (pos g x' y')) as (v & B & Z); [now apply wf_pos|].
      exists v. rewrite pixel_inside by auto. auto. }
    destruct (P x y) as (c & C1 & C2); [split; lia|]. destruct (P (x - 1) y) as (l & L1 & L2); [split; lia|].
    destruct (P (x + 1) y) as (r & R1 & R2); [split; lia|]. destruct (P x (y - 1)) as (u & U1 & U2); [split; lia|].
    destruct (P x (y + 1)) as (b & B1 & B2); [split; lia|].
    exists (c + l + r + u + b). unfold neighbour_sum. rewrite C1, L1, R1, U1, B1, C2, L2, R2, U2, B2. auto. }
  match goal with |- context [for_range 1 (g_height g - 1) ?bd (g_data o)] =>
    destruct (win_loop o m4_value (fun y x' y' => y' = y /\ 1 <= x' < g_width g - 1) 1 (g_height g - 1) bd (g_data o) eq_refl)
      as (d & Ed & L & Q) end.
  { intros y d Hy Ld. cbn zeta.
    destruct (wf_row g y Hg ltac:(lia) ltac:(lia)) as (R1 & R2 & R3).
    destruct (wf_row o y Ho ltac:(lia) ltac:(lia)) as (O1 & O2 & O3).
    assert (T1 : u32 (g_offset g + y * g_stride g + 1) = g_offset g + y * g_stride g + 1).
    { apply u32_id. lia. }
    assert (T2 : u32 (g_offset o + y * g_stride o + 1) = g_offset o + y * g_stride o + 1).
    { apply u32_id. lia. }
    rewrite T1, T2. destruct (Z.leb_spec (g_width g) 2) as [Hs|Hs].
    - exists d. split.
      + assert (u32 (g_offset g + y * g_stride g + 1 + (g_width g - 2)) <= g_offset g + y * g_stride g + 1).
        { rewrite u32_id; lia. }
        now apply for_range_nil.
      + apply writes_none. intros j v (x & y' & _ & Hp & _). lia.
    - rewrite (u32_id (g_offset g + y * g_stride g + 1 + (g_width g - 2))) by lia.
      set (p := g_offset g + y * g_stride g) in *. set (q := g_offset o + y * g_stride o) in *.
      replace (for_range (p + 1)) with (for_range (S := list Z) (1 + p)) by (f_equal; lia).
      replace (p + 1 + (g_width g - 2)) with (g_width g - 1 + p) by lia. rewrite for_range_shift.
      match goal with |- exists d', for_range 1 (g_width g - 1) ?bd d = _ /\ _ =>
        destruct (win_row o m4_value Ho y 1 (g_width g - 1) bd d Ld) as (d' & E' & L' & Q') end; [|eauto].
      intros x d0 Hx L0. split; [split; lia|]. assert (J : interior g x y) by (split; lia).
      destruct (NS x y J) as (s & Es & Bs). exists (if test s then 1 else 0). split.
      { unfold m4_value. now rewrite Es. }
      assert (K1 : pos g x y < zlen (g_data g)) by (apply wf_pos; auto; split; lia).
      assert (K2 : pos g x (y + 1) < zlen (g_data g)) by (apply wf_pos; auto; split; lia).
      assert (K3 : 0 <= pos g x (y - 1)) by (apply wf_pos; auto; split; lia).
      assert (K4 : pos g (x + 1) y < zlen (g_data g)) by (apply wf_pos; auto; split; lia).
      assert (K5 : 0 <= pos g (x - 1) y) by (apply wf_pos; auto; split; lia).
      unfold pos in K1, K2, K3, K4, K5.
      replace (x + p) with (pos g x y) by (unfold pos, p; lia).
      rewrite (u32_id (pos g x y - 1)), (u32_id (pos g x y + 1)), (u32_id (pos g x y - g_stride g)),
        (u32_id (pos g x y + g_stride g)) by (unfold pos; lia).
      replace (pos g x y - 1) with (pos g (x - 1) y) by (unfold pos; lia).
      replace (pos g x y + 1) with (pos g (x + 1) y) by (unfold pos; lia).
      replace (pos g x y - g_stride g) with (pos g x (y - 1)) by (unfold pos; lia).
      replace (pos g x y + g_stride g) with (pos g x (y + 1)) by (unfold pos; lia).
      apply bind_Ok in Bs as (c & B1 & Bs). apply bind_Ok in Bs as (l & B2 & Bs). apply bind_Ok in Bs as (r & B3 & Bs).
      apply bind_Ok in Bs as (u & B4 & Bs). apply bind_Ok in Bs as (b & B5 & Bs). injection Bs as Bs.
      rewrite B1, B2, B3, B4, B5. cbn [bind]. rewrite Bs.
      f_equal. rewrite u32_id.
      + unfold pos, p, q. lia.
      + unfold pos, p, q in *. lia. }
  rewrite Ed. cbn [bind]. eexists; split; [reflexivity|].
  assert (Q' : writes (g_data o) (win o m4_value (interior g)) d).
  { eapply win_iff; [|exact Q]. intros x y [Hx Hy]. unfold interior. split.
    - intros (i & Hi & -> & ?). lia.
    - intros [? ?]. exists y. lia. }
  assert (I2 : forall x y, interior g x y -> m4_value x y <> None).
  { intros x y J. destruct (NS x y J) as (s & Es & _). unfold m4_value. rewrite Es. discriminate. }
  split; [now apply with_data_layout|]. split; [|split].
  - intros x y J. split; auto. assert (inside o x y) by (destruct J; split; lia).
    eapply win_pixel; eauto. specialize (I2 x y J). destruct (m4_value x y); [eauto|congruence].
  - intros x y [Hx Hy] N. rewrite (win_keep o m4_value Ho _ _ _ x y Q'); auto. split; lia.
  - intros j Hj. eapply win_frame; eauto.
Qed.
End Morph.

Lemma sum5 g x y s : binary g -> neighbour_sum g x y = Some s ->
  (s =? 5) = (let all := map (fun p => pixel g (fst p) (snd p)) (cross x y) in forallb (fun v => match v with Some 1 => true | _ => false end) all) /\
  (0 <? s) = (let all := map (fun p => pixel g (fst p) (snd p)) (cross x y) in existsb (fun v => match v with Some 1 => true | _ => false end) all).
Proof.
  intros B E. unfold neighbour_sum in E. cbn.
  destruct (pixel g x y) as [c|] eqn:E1; [|discriminate]. destruct (pixel g (x - 1) y) as [l|] eqn:E2; [|discriminate].
  destruct (pixel g (x + 1) y) as [r|] eqn:E3; [|discriminate]. destruct (pixel g x (y - 1)) as [u|] eqn:E4; [|discriminate].
  destruct (pixel g x (y + 1)) as [b|] eqn:E5; [|discriminate]. injection E as <-.
  apply B in E1, E2, E3, E4, E5.
  destruct E1 as [-> | ->], E2 as [-> | ->], E3 as [-> | ->], E4 as [-> | ->], E5 as [-> | ->]; auto.
Qed.
Lemma reshape_exists (g : gray Z) (out : gray Z) : g_sub out = false \/ (g_width out = g_width g /\ g_height out = g_height g) ->
  exists o, gray_reshape 0 out (g_width g) (g_height g) = Ok o.
Proof.
  intros Hs. unfold gray_reshape. destruct (_ && _) eqn:B; eauto. destruct (g_sub out) eqn:Su; eauto.
  destruct Hs as [H|[H1 H2]]; [congruence|]. exfalso. lia.
Qed.
Lemma erode4_ok (g out o : gray Z) : wf g -> wf out -> binary g ->
  gray_reshape 0 out (g_width g) (g_height g) = Ok o ->
  0 < g_width g <= 2147483648 -> 0 < g_height g <= 2147483648 ->
  exists out', erode4 g out = Ok out' /\ same_layout o out' /\
  (forall x y, interior g x y -> pixel out' x y = Some (if all_set g (cross x y) then 1 else 0)) /\
  (forall x y, inside g x y -> ~ interior g x y -> pixel out' x y = pixel o x y) /\
  (forall j, outside_window o j -> znth (g_data out') j = znth (g_data o) j).
Proof.
  intros Hg Ho B Eo Sw Sh. destruct (morph4_ok (fun s => s =? 5) g out o Hg Ho Eo Sw Sh) as (out' & E & L & P & K & Fr).
  exists out'. split; auto. split; auto. split; auto. intros x y J. destruct (P x y J) as [-> N]. unfold m4_value in *.
  destruct (neighbour_sum g x y) as [s|] eqn:Es; [|congruence]. apply sum5 in Es as [E1 _]; auto. rewrite E1.
  reflexivity.
Qed.
Lemma dilate4_ok (g out o : gray Z) : wf g -> wf out -> binary g ->
  gray_reshape 0 out (g_width g) (g_height g) = Ok o ->
  0 < g_width g <= 2147483648 -> 0 < g_height g <= 2147483648 ->
  exists out', dilate4 g out = Ok out' /\ same_layout o out' /\
  (forall x y, interior g x y -> pixel out' x y = Some (if some_set g (cross x y) then 1 else 0)) /\
  (forall x y, inside g x y -> ~ interior g x y -> pixel out' x y = pixel o x y) /\
  (forall j, outside_window o j -> znth (g_data out') j = znth (g_data o) j).
Proof.
  intros Hg Ho B Eo Sw Sh. destruct (morph4_ok (fun s => 0 <? s) g out o Hg Ho Eo Sw Sh) as (out' & E & L & P & K & Fr).
  exists out'. split; auto. split; auto. split; auto. intros x y J. destruct (P x y J) as [-> N]. unfold m4_value in *.
  destruct (neighbour_sum g x y) as [s|] eqn:Es; [|congruence]. apply sum5 in Es as [_ E1]; auto. rewrite E1.
  reflexivity.
Qed.

(** Complement turns erosion into dilation. *)
Lemma set_complement (g g' : gray Z) x y : complement g g' -> binary g -> inside g x y -> wf g ->
  is_set g' x y = negb (is_set g x y).
Proof.
  intros (E1 & E2 & C) B Hi Wg. unfold is_set. rewrite C by auto.
  destruct (znth_in_range (g_data g) (pos g x y) (wf_pos _ _ _ Wg Hi)) as (v & Z). rewrite (pixel_inside g) by auto.
  rewrite Z. cbn. rewrite <- pixel_inside in Z by auto. apply B in Z as [-> | ->]; reflexivity.
Qed.
Lemma duality (g g' : gray Z) x y : wf g -> binary g -> complement g g' -> interior g x y ->
  all_set g (cross x y) = negb (some_set g' (cross x y)).
Proof.
  intros Wg B C [Hx Hy]. unfold all_set, some_set, cross. cbn [forallb existsb fst snd].
  rewrite !(set_complement g g') by (auto; split; lia).
  destruct (is_set g x y), (is_set g (x - 1) y), (is_set g (x + 1) y), (is_set g x (y - 1)), (is_set g x (y + 1)); reflexivity.
Qed.
Lemma shrink_grow (g : gray Z) x y : (all_set g (cross x y) = true -> is_set g x y = true) /\
  (is_set g x y = true -> some_set g (cross x y) = true).
Proof.
  unfold all_set, some_set, cross. cbn [forallb existsb fst snd]. destruct (is_set g x y); cbn; auto. split; [discriminate|discriminate].
Qed.

(** ** Threshold *)
Lemma threshold_ok {E} (le gt : E -> E -> bool) (g : gray E) t down (out o : gray Z) : wf g -> wf out ->
  gray_reshape 0 out (g_width g) (g_height g) = Ok o ->
  exists out', threshold le gt g t down out = Ok out' /\
    holds g o out' (fun x y => match pixel g x y with
      | Some v => Some (if (if down then le v t else gt v t) then 1 else 0) | None => None end).
Proof.
  intros Hg Hout Eo. pose proof (wf_small g Hg) as Sm. unfold small in Sm. assert (W := Hg). unfold wf in W.
  destruct (gray_reshape_wf 0 out (g_width g) (g_height g) o Hout) as (Ho & Ow & Oh); auto; try lia.
  unfold threshold. rewrite Eo. cbn [bind].
  match goal with |- context [holds g o _ ?f] => set (F := f) end.
  assert (DF : forall x y, inside g x y -> exists v, pixel g x y = Some v /\ F x y = Some (if (if down then le v t else gt v t) then 1 else 0)).
  { intros x y Hi. destruct (znth_in_range (g_data g) (pos g x y) (wf_pos _ _ _ Hg Hi)) as (v & Z).
    rewrite <- pixel_inside in Z by auto. exists v. unfold F. rewrite Z. auto. }
  match goal with |- context [for_range 0 (g_height g) ?b (g_data o)] =>
    destruct (win_loop o F (fun y x' y' => y' = y /\ 0 <= x' < g_width g) 0 (g_height g) b (g_data o) eq_refl) as (d & Ed & L & Q) end.
  { intros y d Hy Ld. destruct (Z.eq_dec (g_width g) 0) as [Z0|NZ].
    - exists d. rewrite Z0, for_range_nil by lia. split; auto. apply writes_none. intros j v' (x & y' & _ & H & _). lia.
    - destruct (wf_row o y Ho ltac:(lia) ltac:(lia)) as (R1 & R2 & R3). rewrite R1.
      destruct (wf_row g y Hg ltac:(lia) ltac:(lia)) as (S1 & S2 & S3). rewrite S1. cbn zeta.
      match goal with |- context [for_range 0 (g_width g) ?b d] =>
        destruct (win_row o F Ho y 0 (g_width g) b d Ld) as (d' & E' & L' & Q') end; [|eauto].
      intros x d0 Hx L0. split; [split; lia|]. destruct (DF x y) as (v & P & Fv); [split; lia|].
      eexists. split; [exact Fv|]. rewrite pixel_inside in P by (split; lia). unfold pos in P.
      rewrite (proj2 (bget_Ok _ _ _) P). cbn [bind]. reflexivity. }
  rewrite Ed. cbn [bind]. eexists; split; [reflexivity|]. apply finish; auto.
  - intros x y Hi. destruct (DF x y Hi) as (v & _ & ->). eauto.
  - eapply win_iff; [|exact Q]. intros x y [I1 I2]; split; auto. intros _. exists y. lia.
Qed.
Lemma threshold_complement (g out o r s : gray Z) t x y : wf g -> wf out ->
  gray_reshape 0 out (g_width g) (g_height g) = Ok o -> inside g x y ->
  threshold Z.leb Z.gtb g t true out = Ok r -> threshold Z.leb Z.gtb g t false out = Ok s ->
  exists v, pixel r x y = Some v /\ pixel s x y = Some (1 - v) /\ (v = 0 \/ v = 1).
Proof.
  intros Hg Ho Eo Hi Er Es.
  destruct (threshold_ok Z.leb Z.gtb g t true out o Hg Ho Eo) as (r' & E1 & _ & _ & _ & P1 & _).
  destruct (threshold_ok Z.leb Z.gtb g t false out o Hg Ho Eo) as (s' & E2 & _ & _ & _ & P2 & _).
  rewrite E1 in Er. injection Er as <-. rewrite E2 in Es. injection Es as <-. rewrite P1, P2 by auto.
  destruct (znth_in_range (g_data g) (pos g x y) (wf_pos _ _ _ Hg Hi)) as (v & Z). rewrite pixel_inside by auto. rewrite Z.
  rewrite Z.gtb_ltb. destruct (Z.leb_spec v t), (Z.ltb_spec t v); try lia; eexists; split; eauto; split; auto.
Qed.

Lemma erode_dilate_dual (g g' out out' o o' r r' : gray Z) x y :
  wf g -> wf g' -> wf out -> wf out' -> binary g -> complement g g' ->
  gray_reshape 0 out (g_width g) (g_height g) = Ok o -> gray_reshape 0 out' (g_width g') (g_height g') = Ok o' ->
  0 < g_width g <= 2147483648 -> 0 < g_height g <= 2147483648 -> interior g x y ->
  erode4 g out = Ok r -> dilate4 g' out' = Ok r' ->
  exists v, pixel r x y = Some v /\ pixel r' x y = Some (1 - v).
Proof.
  intros Hg Hg' Ho Ho' B C Eo Eo' Sw Sh J Er Es. assert (C' := C). destruct C' as (C1 & C2 & C3).
  assert (B' : binary g').
  { intros x' y' v Hv. pose proof (pixel_Some _ _ _ _ Hv) as Hi'. assert (Hi : inside g x' y') by (destruct Hi'; split; lia).
    rewrite C3 in Hv by auto. destruct (pixel g x' y') eqn:E; [|discriminate]. injection Hv as <-. apply B in E. lia. }
  destruct (erode4_ok g out o) as (r1 & E1 & _ & P1 & _); auto. rewrite E1 in Er. injection Er as <-.
  destruct (dilate4_ok g' out' o') as (r2 & E2 & _ & P2 & _); auto; try lia. rewrite E2 in Es. injection Es as <-.
  assert (J' : interior g' x y) by (unfold interior in *; lia). rewrite P1, P2 by auto.
  rewrite (duality g g' x y) by auto. destruct (some_set g' (cross x y)); cbn; eauto.
Qed.
Lemma erode_dilate_mono (g out o r s : gray Z) x y : wf g -> wf out -> binary g ->
  gray_reshape 0 out (g_width g) (g_height g) = Ok o ->
  0 < g_width g <= 2147483648 -> 0 < g_height g <= 2147483648 -> interior g x y ->
  erode4 g out = Ok r -> dilate4 g out = Ok s ->
  (is_set r x y = true -> is_set g x y = true) /\ (is_set g x y = true -> is_set s x y = true).
Proof.
  intros Hg Ho B Eo Sw Sh J Er Es.
  destruct (erode4_ok g out o) as (r1 & E1 & _ & P1 & _); auto. rewrite E1 in Er. injection Er as <-.
  destruct (dilate4_ok g out o) as (r2 & E2 & _ & P2 & _); auto. rewrite E2 in Es. injection Es as <-.
  destruct (shrink_grow g x y) as [A1 A2]. unfold is_set at 1 4. rewrite P1, P2 by auto. split.
  - destruct (all_set g (cross x y)); [auto|discriminate].
  - intros X. now rewrite A2.
Qed.

Lemma gray_empty_get (g : gray Z) i : g_data g = [] -> bget (g_data g) i = Undef.
Proof. intros ->. apply bget_out. change (zlen (@nil Z)) with 0. lia. Qed.
Lemma morph4_no_rows test (g out : gray Z) : wf g -> g_height g = 0 -> 2 < g_width g <= 2147483648 ->
  g_data g = [] -> g_sub g = false -> g_sub out = false -> morph4 test g out = Undef.
Proof.
  intros Hg Hh Hw Hd Hsg Hs. unfold morph4. destruct (reshape_exists g out) as (o & ->); auto. cbn [bind]. rewrite Hh.
  change (u32 (s32 (u32 (0 - 1)))) with 4294967295. rewrite for_range_step by lia. cbn zeta.
  assert (W : g_offset g = 0 /\ g_stride g = g_width g) by (unfold wf in Hg; now apply Hg).
  destruct W as [Wo Ws]. rewrite Wo, Ws.
  replace (s32 (u32 (g_width g - 2))) with (g_width g - 2) by (symmetry; apply s32_u32; lia).
  rewrite (u32_id (0 + 1 * g_width g + 1)) by lia. rewrite (u32_id (0 + 1 * g_width g + 1 + _)) by lia.
  rewrite for_range_step by lia. rewrite gray_empty_get by auto. reflexivity.
Qed.
Lemma morph4_no_columns test (g out : gray Z) : wf g -> g_width g = 0 -> 3 <= g_height g <= 2147483648 ->
  g_data g = [] -> g_sub g = false -> g_sub out = false -> morph4 test g out = Undef.
Proof.
  intros Hg Hw Hh Hd Hsg Hs. unfold morph4. destruct (reshape_exists g out) as (o & ->); auto. cbn [bind].
  assert (W : g_offset g = 0 /\ g_stride g = g_width g) by (unfold wf in Hg; now apply Hg).
  destruct W as [Wo Ws]. rewrite Hw in *. rewrite Wo, Ws.
  replace (u32 (s32 (u32 (g_height g - 1)))) with (g_height g - 1).
  2:{ rewrite (u32_id (g_height g - 1)) by lia. rewrite s32_id by lia. symmetry. apply u32_id. lia. }
  rewrite for_range_step by lia. cbn zeta. change (u32 (0 + 1 * 0 + 1)) with 1.
  change (u32 (1 + s32 (u32 (0 - 2)))) with 4294967295.
  rewrite for_range_step by lia. rewrite gray_empty_get by auto. reflexivity.
Qed.

(** Lemmas about convolution as a linear map. *)
From Verif Require Import Base BaseFacts M_Image S_Image L_Image M_Border S_Border L_Border M_Convolve S_Convolve L_Convolve L_Convolve2 L_ConvolveInt L_Separable L_SetTo S_Blur
  S_Symmetry S_Linear.
Open Scope Z_scope.

(** ** Reduction to the output type *)
Lemma size_pos t : 0 < 256 ^ ity_size t.
Proof. destruct t; reflexivity. Qed.
Lemma cast_eq t u v : u mod 256 ^ ity_size t = v mod 256 ^ ity_size t -> cast t u = cast t v.
Proof.
  intros H. pose proof (L_SetTo.cast_range t u). pose proof (L_SetTo.cast_range t v). pose proof (cast_mod t u). pose proof (cast_mod t v). pose proof (size_pos t).
  assert (D : (cast t u - cast t v) mod 256 ^ ity_size t = 0) by (rewrite Zminus_mod; replace (cast t u mod _) with (cast t v mod 256 ^ ity_size t) by congruence; rewrite Z.sub_diag; apply Zmod_0_l).
  apply Z.mod_divide in D as (k & D); [|lia]. assert (Z.abs (cast t u - cast t v) < 256 ^ ity_size t) by (assert (ity_max t - ity_min t < 256 ^ ity_size t) by (destruct t; reflexivity); lia).
  rewrite D, Z.abs_mul in *. assert (Z.abs k = 0) by nia. nia.
Qed.
Lemma cast_combine t p q u v : cast t (p * cast t u + q * cast t v) = cast t (p * u + q * v).
Proof.
  apply cast_eq. pose proof (size_pos t). rewrite Zplus_mod, (Zmult_mod p), (Zmult_mod q), !cast_mod, <- !Zmult_mod, <- Zplus_mod. reflexivity.
Qed.

(** ** The result as an exact sum *)
Definition sample (b : border Z) (g : gray Z) (x y : Z) : Z := match extended b g x y with Some v => v | None => 0 end.
Definition total (s : shape) (K : kernel Z) (b : border Z) (g : gray Z) (x y : Z) : Z :=
  zdot (k_data K) (fun i => sample b g (x + place_x s K i) (y + place_y s K i)) 0.
Lemma extended_cases b (g : gray Z) x y v : extended b g x y = Some v -> (exists x' y', pixel g x' y' = Some v) \/ b = BValue v.
Proof.
  destruct b; cbn; eauto. destruct (_ && _ && _ && _); eauto. intros [= ->]. auto.
Qed.
Lemma sample_ok t K b M g out x y : sum_ready t K b M g out -> extended b g x y = Some (sample b g x y) /\ Z.abs (sample b g x y) <= M.
Proof.
  intros (Wg & _ & Hw & Hh & HP & HB & _). destruct (extended_exists b g x y Wg ltac:(lia) ltac:(lia)) as (v & E). unfold sample. rewrite E. split; auto.
  destruct (extended_cases _ _ _ _ _ E) as [(x' & y' & H)|H]; eauto.
Qed.
Lemma conv_total s t r K b M g out : sum_ready t K b M g out -> kernel_for s K b g ->
  exists o, convolve s (int_arith t r) 0 K b g out = Ok o /\ g_width o = g_width g /\ g_height o = g_height g /\
    forall x y, inside g x y -> pixel o x y = Some (cast r (total s K b g x y)).
Proof.
  intros R HK. pose proof R as (Wg & Wo & Hw & Hh & HP & HB & HS & So).
  pose proof (fun x y => sample_ok t K b M g out x y R) as HE.
  destruct s; cbn [convolve kernel_for] in *.
  - destruct HK as (K1 & K2). destruct (convolve_h_int t r 0 K b g out (sample b g) M) as (a & o & _ & E & (H1 & H2 & _ & P & _)); auto; try lia.
    exists o. do 3 (split; auto). intros x y I. rewrite P by auto. do 2 f_equal. apply zdot_ext. intros j _. cbn. f_equal; lia.
  - destruct HK as (K1 & K2). destruct (convolve_v_int t r 0 K b g out (sample b g) M) as (a & o & _ & E & (H1 & H2 & _ & P & _)); auto; try lia.
    exists o. do 3 (split; auto). intros x y I. rewrite P by auto. do 2 f_equal. apply zdot_ext. intros j _. cbn [place_x place_y]. f_equal; lia.
  - destruct HK as (K1 & K2 & K3). destruct (convolve_2_int t r 0 K b g out (sample b g) M) as (a & o & _ & E & (H1 & H2 & _ & P & _)); auto; try lia.
    exists o. do 3 (split; auto). intros x y I. rewrite P by auto. do 2 f_equal. apply zdot_ext. intros j _. cbn [place_x place_y]. f_equal; lia.
Qed.
Lemma same_inside (g h : gray Z) x y : same_size g h -> inside g x y <-> inside h x y.
Proof. unfold same_size, inside. lia. Qed.

(** ** Linear in the image *)
Lemma sum_extended p q b1 b2 b3 g h c x y u v : border_sum p q b1 b2 b3 -> image_sum p q g h c ->
  extended b1 g x y = Some u -> extended b2 h x y = Some v -> extended b3 c x y = Some (p * u + q * v).
Proof.
  intros B ((W1 & H1) & (W2 & H2) & P). destruct b1, b2, b3; try contradiction; cbn in *; rewrite ?W1, ?W2, ?H1, ?H2; auto.
  destruct (_ && _ && _ && _); auto. intros [= ->] [= ->]. now rewrite B.
Qed.
Lemma linear_image s t r p q K b1 b2 b3 M1 M2 M3 g o1 h o2 c o3 :
  sum_ready t K b1 M1 g o1 -> sum_ready t K b2 M2 h o2 -> sum_ready t K b3 M3 c o3 ->
  kernel_for s K b1 g -> border_sum p q b1 b2 b3 -> image_sum p q g h c ->
  exists og oh oc, convolve s (int_arith t r) 0 K b1 g o1 = Ok og /\ convolve s (int_arith t r) 0 K b2 h o2 = Ok oh /\
    convolve s (int_arith t r) 0 K b3 c o3 = Ok oc /\ output_sum r p q og oh oc.
Proof.
  intros R1 R2 R3 K1 B I. pose proof I as (S1 & S2 & _).
  assert (K2 : kernel_for s K b2 h) by (destruct S1 as (A1 & A2); destruct s, b1, b2, b3; try contradiction; cbn in *; rewrite ?A1, ?A2; tauto).
  assert (K3 : kernel_for s K b3 c) by (destruct S2 as (A1 & A2); destruct s, b1, b2, b3; try contradiction; cbn in *; rewrite ?A1, ?A2; tauto).
  destruct (conv_total s t r K b1 M1 g o1 R1 K1) as (og & E1 & W1 & H1 & P1), (conv_total s t r K b2 M2 h o2 R2 K2) as (oh & E2 & W2 & H2 & P2),
    (conv_total s t r K b3 M3 c o3 R3 K3) as (oc & E3 & W3 & H3 & P3).
  exists og, oh, oc. do 3 (split; auto). unfold same_size in *. split; [split; lia|]. split; [split; lia|]. intros x y u v Eu Ev.
  assert (Ig : inside g x y) by (apply pixel_Some in Eu; unfold inside in *; lia).
  rewrite P1 in Eu by auto. rewrite P2 in Ev by (unfold inside in *; lia). rewrite P3 by (unfold inside in *; lia).
  injection Eu as <-. injection Ev as <-. rewrite cast_combine. do 2 f_equal. unfold total.
  rewrite <- (zdot_mul (k_data K) p), <- (zdot_mul (k_data K) q), <- zdot_add. apply zdot_ext. intros j _.
  set (x' := x + place_x s K (0 + j)). set (y' := y + place_y s K (0 + j)).
  destruct (sample_ok t K b1 M1 g o1 x' y' R1) as (F1 & _), (sample_ok t K b2 M2 h o2 x' y' R2) as (F2 & _).
  unfold sample at 1. now rewrite (sum_extended p q b1 b2 b3 g h c x' y' _ _ B I F1 F2).
Qed.

(** ** Linear in the kernel *)
Lemma znth_next {A} (a : A) l i : 0 <= i -> znth (a :: l) (i + 1) = znth l i.
Proof. intros H. rewrite znth_cons_S by lia. f_equal. lia. Qed.
Lemma zdot_sum p q f ks : forall ls cs i, zlen ls = zlen ks -> zlen cs = zlen ks ->
  (forall j u v, znth ks j = Some u -> znth ls j = Some v -> znth cs j = Some (p * u + q * v)) -> zdot cs f i = p * zdot ks f i + q * zdot ls f i.
Proof.
  assert (Z0 : forall l : list Z, zlen l = 0 -> l = []) by (intros [|? l] E; auto; rewrite zlen_cons in E; pose proof (zlen_nonneg l); lia).
  induction ks as [|k ks IH]; intros ls cs i L1 L2 H.
  { rewrite (Z0 ls), (Z0 cs) by auto. cbn. lia. }
  rewrite zlen_cons in L1, L2. pose proof (zlen_nonneg ks).
  destruct ls as [|l ls]; [change (zlen (@nil Z)) with 0 in L1; lia|]. destruct cs as [|c cs]; [change (zlen (@nil Z)) with 0 in L2; lia|].
  rewrite zlen_cons in L1, L2. cbn [zdot].
  pose proof (H 0 k l eq_refl eq_refl) as HZ. injection HZ as ->. rewrite (IH ls cs (i + 1)); [lia|lia|lia|]. intros j u v Hu Hv.
  assert (0 <= j) by (apply znth_Some_range in Hu; lia). specialize (H (j + 1) u v). rewrite !znth_next in H by lia. auto.
Qed.
Lemma linear_kernel s t r p q K L C b M g o1 o2 o3 :
  sum_ready t K b M g o1 -> sum_ready t L b M g o2 -> sum_ready t C b M g o3 -> kernel_for s K b g -> kernel_sum p q K L C ->
  exists og oh oc, convolve s (int_arith t r) 0 K b g o1 = Ok og /\ convolve s (int_arith t r) 0 L b g o2 = Ok oh /\
    convolve s (int_arith t r) 0 C b g o3 = Ok oc /\ output_sum r p q og oh oc.
Proof.
  intros R1 R2 R3 K1 (A1 & A2 & A3 & A4 & A5 & A6 & A7).
  assert (K2 : kernel_for s L b g) by (destruct s, b; cbn in *; unfold kernel1_ok, kernel2_ok in *; rewrite ?A1, ?A2, ?A5; tauto).
  assert (K3 : kernel_for s C b g) by (destruct s, b; cbn in *; unfold kernel1_ok, kernel2_ok in *; rewrite ?A3, ?A4, ?A6; tauto).
  destruct (conv_total s t r K b M g o1 R1 K1) as (og & E1 & W1 & H1 & P1), (conv_total s t r L b M g o2 R2 K2) as (oh & E2 & W2 & H2 & P2),
    (conv_total s t r C b M g o3 R3 K3) as (oc & E3 & W3 & H3 & P3).
  exists og, oh, oc. do 3 (split; auto). unfold same_size in *. split; [split; lia|]. split; [split; lia|]. intros x y u v Eu Ev.
  assert (Ig : inside g x y) by (apply pixel_Some in Eu; unfold inside in *; lia).
  rewrite P1 in Eu by auto. rewrite P2 in Ev by auto. rewrite P3 by auto.
  injection Eu as <-. injection Ev as <-. rewrite cast_combine. do 2 f_equal. unfold total.
  assert (Q : forall N : kernel Z, k_width N = k_width K -> k_offset N = k_offset K -> forall ks,
    zdot ks (fun i => sample b g (x + place_x s N i) (y + place_y s N i)) 0 = zdot ks (fun i => sample b g (x + place_x s K i) (y + place_y s K i)) 0).
  { intros N N1 N2 ks. apply zdot_ext. intros j _. unfold place_x, place_y. now rewrite N1, N2. }
  rewrite (Q L), (Q C) by auto. now apply zdot_sum.
Qed.

(** ** Unit kernels and constant images *)
Lemma zdot_none f ks : forall i, (forall j c, znth ks j = Some c -> c = 0) -> zdot ks f i = 0.
Proof.
  induction ks as [|k ks IH]; intros i H; cbn [zdot]; auto. rewrite (H 0 k eq_refl), (IH (i + 1)); [lia|]. intros j c Hc.
  apply (H (j + 1)). rewrite znth_next; auto. apply znth_Some_range in Hc. lia.
Qed.
Lemma zdot_unit f ks : forall n i, unit_at n ks -> zdot ks f i = f (i + n).
Proof.
  induction ks as [|k ks IH]; intros n i (H & H0).
  - apply znth_Some_range in H. change (zlen (@nil Z)) with 0 in H. lia.
  - cbn [zdot]. pose proof (znth_Some_range _ _ _ H). destruct (Z.eq_dec n 0) as [->|N].
    + injection H as ->. rewrite (zdot_none f ks); [replace (i + 0) with i by lia; lia|]. intros j c Hc. pose proof (znth_Some_range _ _ _ Hc).
      apply (H0 (j + 1)); [lia|]. rewrite znth_next; auto; lia.
    + rewrite (H0 0 k ltac:(lia) eq_refl). rewrite (IH (n - 1) (i + 1)); [replace (i + 1 + (n - 1)) with (i + n) by lia; lia|]. split.
      * replace n with (n - 1 + 1) in H by lia. rewrite znth_next in H by lia. auto.
      * intros j c Hj Hc. pose proof (znth_Some_range _ _ _ Hc). apply (H0 (j + 1)); [lia|]. rewrite znth_next; auto; lia.
Qed.
Lemma unit_kernel s t r K b M g out n : sum_ready t K b M g out -> kernel_for s K b g -> unit_at n (k_data K) ->
  exists o, convolve s (int_arith t r) 0 K b g out = Ok o /\ same_size g o /\
    forall x y, inside g x y -> exists v, extended b g (x + place_x s K n) (y + place_y s K n) = Some v /\ pixel o x y = Some (cast r v).
Proof.
  intros R HK U. destruct (conv_total s t r K b M g out R HK) as (o & E & W & H & P). exists o. split; auto. split; [split; auto|]. intros x y I.
  exists (sample b g (x + place_x s K n) (y + place_y s K n)). split; [eapply sample_ok; eauto|]. rewrite P by auto. do 2 f_equal. unfold total.
  now rewrite (zdot_unit _ _ n).
Qed.
Lemma zdot_const v ks : forall i, zdot ks (fun _ => v) i = v * zsum ks.
Proof. induction ks as [|k ks IH]; intros i; cbn [zdot]; [cbn; lia|]. rewrite IH. change (zsum (k :: ks)) with (k + zsum ks). lia. Qed.
Lemma constant_image s t r K b M g out v : sum_ready t K b M g out -> kernel_for s K b g ->
  (forall x y, inside g x y -> pixel g x y = Some v) -> (forall u, b = BValue u -> u = v) ->
  exists o, convolve s (int_arith t r) 0 K b g out = Ok o /\ same_size g o /\
    forall x y, inside g x y -> pixel o x y = Some (cast r (v * zsum (k_data K))).
Proof.
  intros R HK C B. destruct (conv_total s t r K b M g out R HK) as (o & E & W & H & P). exists o. split; auto. split; [split; auto|]. intros x y I.
  rewrite P by auto. do 2 f_equal. unfold total. rewrite <- (zdot_const v (k_data K) 0). apply zdot_ext. intros j _.
  destruct (sample_ok t K b M g out (x + place_x s K (0 + j)) (y + place_y s K (0 + j)) R) as (F & _).
  destruct (extended_cases _ _ _ _ _ F) as [(x' & y' & G)|G]; [|auto]. pose proof (pixel_Some _ _ _ _ G) as Ig. rewrite C in G by auto. congruence.
Qed.

(** ** Turned around *)
Lemma nearest_turn n x : 0 < n -> nearest n (n - 1 - x) = n - 1 - nearest n x.
Proof. unfold nearest. lia. Qed.
Lemma periodic_turn n x : 0 < n -> periodic n (n - 1 - x) = n - 1 - periodic n x.
Proof.
  intros H. unfold periodic. pose proof (Z.mod_pos_bound x n H). symmetry. apply Z.mod_unique with (q := - (x / n)); [lia|].
  pose proof (Z.div_mod x n). nia.
Qed.
Lemma mirrored_turn n x : 0 < n -> mirrored n (n - 1 - x) = n - 1 - mirrored n x.
Proof.
  intros H. unfold mirrored. destruct (n =? 1) eqn:N; [lia|]. cbn zeta. set (p := 2 * (n - 1)). assert (Hp : 0 < p) by (unfold p; lia).
  pose proof (Z.mod_pos_bound x p Hp) as B. pose proof (Z.div_mod x p ltac:(lia)) as D. set (r := x mod p) in *.
  destruct (r <? n) eqn:C.
  - assert (Q : (n - 1 - x) mod p = n - 1 - r) by (symmetry; apply Z.mod_unique with (q := - (x / p)); [lia|nia]). rewrite Q.
    replace (n - 1 - r <? n) with true by lia. lia.
  - assert (Q : (n - 1 - x) mod p = n - 1 - r + p) by (symmetry; apply Z.mod_unique with (q := - (x / p) - 1); [lia|nia]). rewrite Q.
    replace (n - 1 - r + p <? n) with false by lia. unfold p. lia.
Qed.
Lemma periodic_range n x : 0 < n -> 0 <= periodic n x < n.
Proof. intros. now apply Z.mod_pos_bound. Qed.
Definition turn_x (s : shape) (g : gray Z) (x : Z) := match s with Column => x | _ => g_width g - 1 - x end.
Definition turn_y (s : shape) (g : gray Z) (y : Z) := match s with Row => y | _ => g_height g - 1 - y end.
Lemma turned_pixel s g h x y : turned s g h -> inside g x y -> pixel h (turn_x s g x) (turn_y s g y) = pixel g x y.
Proof.
  intros T I. destruct s; cbn in *; destruct T as (_ & T); (rewrite T by (unfold inside in *; lia)); f_equal; lia.
Qed.
Lemma turned_extended s b g h x y : 0 < g_width g -> 0 < g_height g -> turned s g h ->
  extended b h (turn_x s g x) (turn_y s g y) = extended b g x y.
Proof.
  intros Hw Hh T. assert (S : same_size g h) by (destruct s; cbn in T; apply T). destruct S as (W & H).
  destruct b; cbn [extended]; rewrite ?W, ?H.
  - replace ((0 <=? turn_x s g x) && (turn_x s g x <? g_width g) && (0 <=? turn_y s g y) && (turn_y s g y <? g_height g))
      with ((0 <=? x) && (x <? g_width g) && (0 <=? y) && (y <? g_height g)) by (destruct s; cbn; lia).
    destruct (_ && _ && _ && _) eqn:C; auto. apply turned_pixel; auto. split; lia.
  - pose proof (nearest_range (g_width g) x Hw). pose proof (nearest_range (g_height g) y Hh).
    rewrite <- (turned_pixel s g h) by (auto; split; lia). destruct s; cbn [turn_x turn_y]; rewrite ?nearest_turn by lia; auto.
  - pose proof (mirrored_range (g_width g) x Hw). pose proof (mirrored_range (g_height g) y Hh).
    rewrite <- (turned_pixel s g h) by (auto; split; lia). destruct s; cbn [turn_x turn_y]; rewrite ?mirrored_turn by lia; auto.
  - pose proof (periodic_range (g_width g) x Hw). pose proof (periodic_range (g_height g) y Hh).
    rewrite <- (turned_pixel s g h) by (auto; split; lia). destruct s; cbn [turn_x turn_y]; rewrite ?periodic_turn by lia; auto.
Qed.
Lemma zdot_rev ks f : zdot (rev ks) f 0 = zdot ks (fun i => f (zlen ks - 1 - i)) 0.
Proof.
  induction ks as [|k ks IH]; cbn [rev zdot]; auto. rewrite zdot_app, IH, zlen_cons. unfold zlen at 2. rewrite rev_length. fold (zlen ks). cbn [zdot].
  replace (0 + zlen ks) with (1 + zlen ks - 1 - 0) by lia.
  rewrite (zdot_ext ks (fun i => f (zlen ks - 1 - i)) (fun i => f (1 + zlen ks - 1 - i)) 0 (0 + 1)); [lia|]. intros j _. f_equal. lia.
Qed.
Lemma abs_rev ks : zabs_sum (rev ks) = zabs_sum ks.
Proof.
  assert (A : forall a c, zabs_sum (a ++ c) = zabs_sum a + zabs_sum c) by (induction a; intros; cbn [app zabs_sum]; rewrite ?IHa; lia).
  induction ks as [|k ks IH]; cbn [rev zabs_sum]; auto. rewrite A, IH. cbn [zabs_sum]. lia.
Qed.
Lemma turn_conv s t r K L b M M' g o1 h o2 : sum_ready t K b M g o1 -> sum_ready t L b M' h o2 -> kernel_for s K b g -> kernel_for s L b h ->
  turned s g h -> turned_kernel K L ->
  exists og oh, convolve s (int_arith t r) 0 K b g o1 = Ok og /\ convolve s (int_arith t r) 0 L b h o2 = Ok oh /\ turned s og oh.
Proof.
  intros R1 R2 K1 K2 T (L1 & L2 & L3).
  destruct (conv_total s t r K b M g o1 R1 K1) as (og & E1 & W1 & H1 & P1), (conv_total s t r L b M' h o2 R2 K2) as (oh & E2 & W2 & H2 & P2).
  exists og, oh. do 2 (split; auto). assert (S : same_size g h) by (destruct s; cbn in T; apply T). destruct S as (W & H).
  pose proof R1 as (_ & _ & Hw & Hh & _).
  assert (N : forall i, 0 <= i < zlen (k_data K) -> place_x s L (zlen (k_data K) - 1 - i) = - place_x s K i /\ place_y s L (zlen (k_data K) - 1 - i) = - place_y s K i).
  { intros i Hi. destruct s; cbn [place_x place_y kernel_for] in *; rewrite ?L1, L2.
    - destruct K1 as ((_ & _ & K1) & _). lia.
    - destruct K1 as ((_ & _ & K1) & _). lia.
    - destruct K1 as ((K0 & _ & K1) & _). rewrite K1 in *. set (w := k_width K) in *. assert (Hp : 0 < w) by lia.
      pose proof (Z.mod_pos_bound i w Hp). pose proof (Z.div_mod i w ltac:(lia)).
      assert (0 <= i / w < w) by (split; [apply Z.div_pos; lia|apply Z.div_lt_upper_bound; lia]).
      assert (Q : w * w - 1 - i = w * (w - 1 - i / w) + (w - 1 - i mod w)) by lia.
      rewrite <- (Z.mod_unique (w * w - 1 - i) w (w - 1 - i / w) (w - 1 - i mod w)) by (auto; lia).
      rewrite <- (Z.div_unique (w * w - 1 - i) w (w - 1 - i / w) (w - 1 - i mod w)) by (auto; lia). lia. }
  assert (V : forall x y, inside g x y -> pixel oh (turn_x s g x) (turn_y s g y) = pixel og x y).
  { intros x y I. rewrite P1 by auto. rewrite P2 by (destruct s; unfold inside in *; cbn; lia). do 2 f_equal. unfold total. rewrite L3, zdot_rev.
    apply zdot_ext. intros j Hj. cbn beta. destruct (N (0 + j) ltac:(lia)) as (-> & ->). unfold sample.
    rewrite <- (turned_extended s b g h (x + place_x s K (0 + j)) (y + place_y s K (0 + j))) by (auto; lia).
    replace (turn_x s g (x + place_x s K (0 + j))) with (turn_x s g x + - place_x s K (0 + j)) by (destruct s; unfold turn_x, place_x; lia).
    replace (turn_y s g (y + place_y s K (0 + j))) with (turn_y s g y + - place_y s K (0 + j)) by (destruct s; unfold turn_y, place_y; lia).
    reflexivity. }
  destruct s; cbn [turned turn_x turn_y] in *; (split; [split; lia|]); intros x y I; rewrite ?W1, ?H1.
  - rewrite <- V by (unfold inside in *; lia). f_equal; lia.
  - rewrite <- V by (unfold inside in *; lia). f_equal; lia.
  - rewrite <- V by (unfold inside in *; lia). f_equal; lia.
Qed.

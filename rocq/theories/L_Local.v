(** Lemmas about thresholding by local means. *)
From Coq Require Import QArith.
From Verif Require Import BaseFacts M_Image S_Image L_Image L_Window M_Convolve S_Convolve L_Convolve2 M_Normalized
  M_Blur S_Blur L_Blur L_BlurTop M_Otsu M_Config M_Local S_Local.
Open Scope Z_scope.

(** The loop over two images. *)
Lemma compare_loop {E} (f : E -> E -> bool) (g m : gray E) (o : gray Z) : wf g -> wf m -> wf o ->
  g_width m = g_width g -> g_height m = g_height g -> g_width o = g_width g -> g_height o = g_height g ->
  exists d, for_range 0 (g_height g) (fun y d =>
    for_range 0 (g_width g) (fun i d =>
      let* v := bget (g_data g) (u32 (g_offset g + y * g_stride g) + i) in
      let* u := bget (g_data m) (u32 (g_offset m + y * g_stride m) + i) in
      bset d (u32 (g_offset o + y * g_stride o) + i) (if f v u then 1 else 0)) d) (g_data o) = Ok d /\
    holds g o (with_data o d) (fun x y => match pixel g x y, pixel m x y with
      | Some v, Some u => Some (if f v u then 1 else 0) | _, _ => None end).
Proof.
  intros Hg Hm Ho Mw Mh Ow Oh. pose proof (wf_small g Hg) as Sm. unfold small in Sm. assert (W := Hg). unfold wf in W.
  match goal with |- context [holds g o _ ?f] => set (F := f) end.
  assert (DF : forall x y, inside g x y -> exists v u, pixel g x y = Some v /\ pixel m x y = Some u /\
            F x y = Some (if f v u then 1 else 0)).
  { intros x y Hi. destruct (znth_in_range (g_data g) (pos g x y) (wf_pos _ _ _ Hg Hi)) as (v & Z).
    rewrite <- pixel_inside in Z by auto. assert (Hi' : inside m x y) by (destruct Hi; split; lia).
    destruct (znth_in_range (g_data m) (pos m x y) (wf_pos _ _ _ Hm Hi')) as (u & Z').
    rewrite <- pixel_inside in Z' by auto. exists v, u. unfold F. rewrite Z, Z'. auto. }
  match goal with |- context [for_range 0 (g_height g) ?b (g_data o)] =>
    destruct (win_loop o F (fun y x' y' => y' = y /\ 0 <= x' < g_width g) 0 (g_height g) b (g_data o) eq_refl) as (d & Ed & L & Q) end.
  { intros y d Hy Ld. destruct (Z.eq_dec (g_width g) 0) as [Z0|NZ].
    - exists d. rewrite Z0, for_range_nil by lia. split; auto. apply writes_none. intros j v' (x & y' & _ & H & _). lia.
    - destruct (wf_row o y Ho ltac:(lia) ltac:(lia)) as (R1 & R2 & R3). rewrite R1.
      destruct (wf_row g y Hg ltac:(lia) ltac:(lia)) as (S1 & S2 & S3). rewrite S1.
      destruct (wf_row m y Hm ltac:(lia) ltac:(lia)) as (T1 & T2 & T3). rewrite T1. cbn zeta.
      match goal with |- context [for_range 0 (g_width g) ?b d] =>
        destruct (win_row o F Ho y 0 (g_width g) b d Ld) as (d' & E' & L' & Q') end; [|eauto].
      intros x d0 Hx L0. split; [split; lia|]. destruct (DF x y) as (v & u & P & P' & Fv); [split; lia|].
      eexists. split; [exact Fv|]. rewrite pixel_inside in P, P' by (split; lia). unfold pos in P, P'.
      rewrite (proj2 (bget_Ok _ _ _) P). cbn [bind]. rewrite (proj2 (bget_Ok _ _ _) P'). reflexivity. }
  exists d. split; [exact Ed|]. apply finish; auto.
  - intros x y Hi. destruct (DF x y Hi) as (v & u & _ & _ & ->). eauto.
  - eapply win_iff; [|exact Q]. intros x y [I1 I2]; split; auto. intros _. exists y. lia.
Qed.

(** A second reshape to the same size changes nothing. *)
Lemma reshape_same {A} (z : A) g w h : g_width g = w -> g_height g = h -> gray_reshape z g w h = Ok g.
Proof. intros <- <-. unfold gray_reshape. now rewrite !Z.eqb_refl. Qed.

Lemma reshape_owned {A} (z : A) g w h g' : g_sub g = false -> gray_reshape z g w h = Ok g' -> g_sub g' = false.
Proof.
  intros S E. unfold gray_reshape in E. destruct (_ && _); [now injection E as <-|]. rewrite S in E. now injection E as <-.
Qed.

(** What a call of the local mean needs of its images. *)
Record local_input (t : ity) (r : Z) (g : gray Z) (out : gray Z) (M : Z) : Prop := {
  li_kw : 2 * r + 1 <= 1073741824;
  li_g : wf g;
  li_out : wf out;
  li_w : 0 < g_width g <= 1073741824;
  li_h : 0 < g_height g <= 1073741824;
  li_M : 0 <= M;
  li_px : forall x y v, pixel g x y = Some v -> ity_min t <= v <= ity_max t /\ Z.abs v <= M;
  li_sum : (2 * r + 1) * (M + 1) <= ity_max (signed_type t);
  li_sub : g_sub out = false \/ (g_width out = g_width g /\ g_height out = g_height g);
  li_fit : g_width g * (g_height g + 1) <= 4294967296;
  li_shape : g_width g < 2 * r + 1 \/ 2 * r + 1 <= g_height g }.

Section Local.
Context {D : Type} (O : dops D) (t : ity) (L : lcmp Z) (width : clen D) (down : bool).
Let run := local_mean O (int_narith t) (int_marith t) 0 (fun _ => 1) L width down.

Lemma local_mean_ok n r M (g out s1 s2 : gray Z) :
  clen_computeI O width (d_of O (Z.min (g_width g) (g_height g))) = Ok n -> r = n / 2 -> 0 < r ->
  local_input t r g out M -> wf s1 -> wf s2 -> g_sub s1 = false -> g_sub s2 = false ->
  exists o out' s1' s2', gray_reshape 0 out (g_width g) (g_height g) = Ok o /\
    run g out s1 s2 = Ok (out', (s1', s2')) /\
    holds g o out' (fun x y => match pixel g x y with
      | Some v => Some (if (if down then lc_le L v (mean_box g r x y) else lc_gt L v (mean_box g r x y)) then 1 else 0)
      | None => None end) /\
    wf s1' /\ wf s2' /\ g_sub s1' = false /\ g_sub s2' = false.
Proof.
  intros En Er Hr [Hk Hg Ho Hw Hh HM HP HS Hsub Hfit Hsh] W1 W2 S1 S2.
  destruct (reshape_for 0 g out Hg Ho Hsub) as (o & Eo & Wo & Ow & Oh).
  destruct (reshape_for 0 g s1 Hg W1 (or_introl S1)) as (m & Em & Wm & Mw & Mh).
  destruct (reshape_for 0 g s2 Hg W2 (or_introl S2)) as (w & Ew & Ww & Wkw & Wkh).
  pose proof (reshape_owned _ _ _ _ _ S1 Em) as Sm. pose proof (reshape_owned _ _ _ _ _ S2 Ew) as Sw.
  destruct (blur_mean_ok t r M g m w) as (m0 & m' & w0 & w' & E1 & E2 & E3 & H1 & H2); auto.
  rewrite reshape_same in E1, E2 by auto. injection E1 as <-. injection E2 as <-.
  destruct H1 as (A1 & A2 & A3 & A4 & A5). destruct H2 as (B1 & B2 & B3 & B4 & B5).
  assert (Wm' : wf m') by (eapply wf_layout; eauto). assert (Ww' : wf w') by (eapply wf_layout; eauto).
  destruct (compare_loop (fun v u => if down then lc_le L v u else lc_gt L v u) g m' o) as (d & Ed & Hd); auto.
  exists o, (with_data o d), m', w'. split; [exact Eo|]. split.
  { unfold run, local_mean. rewrite Eo, Em, Ew. cbn [bind]. unfold local_radius. rewrite En. cbn [bind].
    assert (Rn : u32 n / 2 = r).
    { unfold u32. assert (0 <= n) by (destruct (Z.leb_spec 0 n); [auto|]; subst r; pose proof (Z.div_lt_upper_bound n 2 0); lia).
      rewrite Z.mod_small; [auto|]. pose proof (Z.div_mod n 2). pose proof (Z.mod_pos_bound n 2). lia. }
    rewrite Rn, E3. cbn [bind]. cbn zeta in Ed |- *. rewrite Ed. reflexivity. }
  split.
  { destruct Hd as (D1 & D2 & D3 & D4 & D5). split; auto. split; auto. split; auto. split; auto.
    intros x y Hi. rewrite D4 by auto. rewrite A4 by auto. destruct (pixel g x y); reflexivity. }
  split; auto. split; auto. destruct A3 as (_ & _ & _ & _ & X & _). destruct B3 as (_ & _ & _ & _ & Y & _).
  rewrite X, Y. auto.
Qed.

(** Negative region widths and those below two are refused. *)
Lemma local_mean_small n (g out s1 s2 : gray Z) :
  clen_computeI O width (d_of O (Z.min (g_width g) (g_height g))) = Ok n -> 0 <= n < 2 ->
  wf g -> wf out -> wf s1 -> wf s2 -> 
  g_sub s1 = false -> g_sub s2 = false -> run g out s1 s2 = Throw.
Proof.
  intros En Hn Hg Ho W1 W2 S1 S2. unfold run, local_mean.
  destruct (gray_reshape 0 out _ _) as [o| | |] eqn:Eo; try reflexivity.
  - destruct (reshape_for 0 g s1 Hg W1 (or_introl S1)) as (m & Em & _).
    destruct (reshape_for 0 g s2 Hg W2 (or_introl S2)) as (w & Ew & _).
    cbn [bind]. rewrite Em, Ew. cbn [bind]. unfold local_radius. rewrite En. cbn [bind].
    rewrite blur_mean_radius; [reflexivity|]. unfold u32. rewrite Z.mod_small by lia.
    assert (n = 0 \/ n = 1) as [-> | ->] by lia; cbn; lia.
  - unfold gray_reshape in Eo. destruct (_ && _); [discriminate|]. destruct (g_sub out); discriminate.
  - unfold gray_reshape in Eo. destruct (_ && _); [discriminate|]. destruct (g_sub out); discriminate.
Qed.

(** A sequence of calls with the same storage. *)
Definition local_result (r : gray Z -> Z) (c : gray Z * gray Z) (out' : gray Z) : Prop :=
  let (g, out) := c in exists o, gray_reshape 0 out (g_width g) (g_height g) = Ok o /\
    holds g o out' (fun x y => match pixel g x y with
      | Some v => Some (if (if down then lc_le L v (mean_box g (r g) x y) else lc_gt L v (mean_box g (r g) x y)) then 1 else 0)
      | None => None end).

Lemma local_filter_ok (r : gray Z -> Z) calls : forall s1 s2, wf s1 -> wf s2 -> g_sub s1 = false -> g_sub s2 = false ->
  (forall g out, In (g, out) calls -> exists n M,
     clen_computeI O width (d_of O (Z.min (g_width g) (g_height g))) = Ok n /\ r g = n / 2 /\ 0 < r g /\
     local_input t (r g) g out M) ->
  exists outs, local_filter O (int_narith t) (int_marith t) 0 (fun _ => 1) L width down (s1, s2) calls = Ok outs /\
    Forall2 (local_result r) calls outs.
Proof.
  induction calls as [|(g & out) l IH]; intros s1 s2 W1 W2 S1 S2 H.
  - exists []. split; [reflexivity|constructor].
  - destruct (H g out (or_introl eq_refl)) as (n & M & En & Er & Hr & Hin).
    destruct (local_mean_ok n (r g) M g out s1 s2) as (o & out' & s1' & s2' & Eo & E & Hh & W1' & W2' & S1' & S2'); auto.
    destruct (IH s1' s2') as (outs & E' & F); auto. { intros g' out0 Hi. apply H. now right. }
    exists (out' :: outs). cbn [local_filter fst snd]. unfold run in E. rewrite E. cbn [bind]. rewrite E'. split; [reflexivity|].
    constructor; auto. exists o. auto.
Qed.
End Local.

(** Exact arithmetic. *)
Lemma exact_local scale (down : bool) v m :
  (if (if down then lc_le (int_lcmp exact scale) v m else lc_gt (int_lcmp exact scale) v m) then 1 else 0)
  = local_value down scale v m.
Proof.
  unfold local_value. destruct down; cbn.
  - reflexivity.
  - destruct (Qle_bool (inject_Z v * scale) (inject_Z m)); reflexivity.
Qed.

Lemma local_mean_exact t width down scale n M (g out s1 s2 : gray Z) :
  clen_computeI exact width (inject_Z (Z.min (g_width g) (g_height g))) = Ok n -> 2 <= n ->
  local_input t (n / 2) g out M -> wf s1 -> wf s2 -> g_sub s1 = false -> g_sub s2 = false ->
  exists o out' st, gray_reshape 0 out (g_width g) (g_height g) = Ok o /\
    local_mean exact (int_narith t) (int_marith t) 0 (fun _ => 1) (int_lcmp exact scale) width down g out s1 s2 = Ok (out', st) /\
    holds g o out' (local_pixel down scale g (n / 2)).
Proof.
  intros En Hn Hin W1 W2 S1 S2.
  destruct (local_mean_ok exact t (int_lcmp exact scale) width down n (n / 2) M g out s1 s2)
    as (o & out' & s1' & s2' & Eo & E & (H1 & H2 & H3 & H4 & H5) & _); auto.
  { pose proof (Z.div_le_mono 2 n 2). lia. }
  exists o, out', (s1', s2'). split; auto. split; auto. split; auto. split; auto. split; auto. split; auto.
  intros x y Hi. rewrite H4 by auto. unfold local_pixel. destruct (pixel g x y); [|reflexivity]. f_equal. apply exact_local.
Qed.

Lemma local_filter_exact t width down scale (n : gray Z -> Z) calls :
  (forall g out, In (g, out) calls -> exists M,
     clen_computeI exact width (inject_Z (Z.min (g_width g) (g_height g))) = Ok (n g) /\ 2 <= n g /\
     local_input t (n g / 2) g out M) ->
  exists outs, local_filter exact (int_narith t) (int_marith t) 0 (fun _ => 1) (int_lcmp exact scale) width down
                 (gray_new 0 0 0, gray_new 0 0 0) calls = Ok outs /\
    Forall2 (fun c out' => exists o, gray_reshape 0 (snd c) (g_width (fst c)) (g_height (fst c)) = Ok o /\
                             holds (fst c) o out' (local_pixel down scale (fst c) (n (fst c) / 2))) calls outs.
Proof.
  intros H. destruct (local_filter_ok exact t (int_lcmp exact scale) width down (fun g => n g / 2) calls
                        (gray_new 0 0 0) (gray_new 0 0 0)) as (outs & E & F); auto.
  1,2: apply wf_new; lia.
  { intros g out Hi. destruct (H g out Hi) as (M & A & B & C). exists (n g), M. split; [exact A|]. split; [reflexivity|]. split; [|exact C].
    pose proof (Z.div_le_mono 2 (n g) 2). lia. }
  exists outs. split; auto. clear -F. induction F as [|(g & out) o' l l' (o & Eo & H1 & H2 & H3 & H4 & H5) F IH]; constructor; auto.
  exists o. cbn [fst snd]. split; auto. split; auto. split; auto. split; auto. split; auto.
  intros x y Hi. rewrite H4 by auto. unfold local_pixel. destruct (pixel g x y); [|reflexivity]. f_equal. apply exact_local.
Qed.

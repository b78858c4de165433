(** Proofs about a threshold followed by the search for contours. *)
From Coq Require Import QArith Qround Floats.SpecFloat Lia.
From Verif Require Import BaseFacts M_Image S_Image L_Image M_Border M_Convolve S_Convolve M_Float M_Otsu S_Otsu M_Config S_Config M_Block S_Block M_Local S_Local
  M_Binary L_Binary M_PackedSet S_PackedSet M_Contour S_Contour L_Crack L_Hole L_Contour M_Jni S_Jni M_Native S_Native L_Native L_NativeFilt L_NativeBlur
  L_NativeCon S_Pipeline.
Open Scope Z_scope.

Lemma first_of_iff a (S S' : point -> Prop) p : (forall u, S u <-> S' u) -> first_of a S p -> first_of a S' p.
Proof. intros E [H1 H2]. split; [now apply E|]. intros q C. apply H2. now apply (conn_iff _ _ E). Qed.

Lemma parts_ext a (P S S' : point -> Prop) label n : (forall p, S p <-> S' p) -> parts a P S label n -> parts a P S' label n.
Proof.
  intros E [H1 H2 H3 H4].
  assert (Fe : forall p, first_of a S' p -> first_of a S p) by (intros p; apply first_of_iff; intros u; symmetry; apply E).
  split.
  - intros p Pp. destruct (H1 p Pp) as (k & K1 & K2 & K3). exists k. split; auto. split; auto. rewrite K3, E. reflexivity.
  - intros p q k k' Sp Sq K K'. rewrite <- (conn_iff p q E). apply H2; auto; now apply E.
  - intros k K. destruct (H3 k K) as (p & K1 & K2). exists p. split; [now apply (first_of_iff a S)|auto].
  - intros p q k k' Sp Sq. apply H4; auto.
Qed.

(** ** In C++ *)
Lemma parts_process fuel st g lab : used st -> label_args fuel g lab -> exists st' lab', process fuel st g lab = Ok (st', lab') /\
  g_width lab' = g_width g /\ g_height lab' = g_height g /\
  parts (adj (lb_rule st)) (fun p => inside g (fst p) (snd p)) (fg g) (pixel lab') (zlen (lb_contours st')).
Proof.
  intros U A. destruct (labels_theorem fuel st g lab U A) as (st' & lab' & E & W & H & H1 & H2 & H3 & H4).
  exists st', lab'. split; auto. split; auto. split; auto. split; auto.
Qed.

Lemma cpp_threshold fuel st g th down out o lab : used st -> wf g -> wf out -> gray_reshape 0 out (g_width g) (g_height g) = Ok o ->
  4 * (g_width g + 2) * (g_height g + 2) < 4294967296 -> wf lab ->
  (g_sub lab = true -> g_width lab = g_width g /\ g_height lab = g_height g /\ g_stride lab < 2147483647) ->
  4 * g_width g * g_height g <= Z.of_nat fuel ->
  exists bin st' lab', threshold Z.leb Z.gtb g th down out = Ok bin /\ process fuel st bin lab = Ok (st', lab') /\
    g_width lab' = g_width g /\ g_height lab' = g_height g /\
    parts (adj (lb_rule st)) (fun p => inside g (fst p) (snd p)) (chosen (pixel g) (inject_Z th) down) (pixel lab') (zlen (lb_contours st')).
Proof.
  intros U Wg Wo Er Sz Wl Sl Fu. destruct (threshold_ok Z.leb Z.gtb g th down out o Wg Wo Er) as (bin & Et & Hw & Hh & Hl & Hpx & _).
  assert (Wb : wf bin).
  { eapply wf_layout; [exact Hl|]. destruct Wg as (G1 & G2 & _). apply (gray_reshape_wf 0 out _ _ o Wo) in Er; [tauto|lia|lia|nia]. }
  assert (Ib : forall x y, inside bin x y <-> inside g x y) by (intros x y; unfold inside; rewrite Hw, Hh; reflexivity).
  assert (Fg : forall p, fg bin p <-> chosen (pixel g) (inject_Z th) down p).
  { intros p. unfold fg, chosen. split.
    - intros E. pose proof (pixel_Some _ _ _ _ E) as I. apply Ib in I. rewrite Hpx in E by auto. destruct (pixel g (fst p) (snd p)) as [v|]; [|discriminate].
      exists v. split; auto. injection E as E. destruct down.
      + destruct (Z.leb_spec v th); [|discriminate]. rewrite <- Zle_Qle. lia.
      + destruct (v >? th) eqn:G; [|discriminate]. rewrite <- Zlt_Qlt. lia.
    - intros (v & E & C). pose proof (pixel_Some _ _ _ _ E) as I. rewrite Hpx by auto. rewrite E. do 2 f_equal. destruct down.
      + rewrite <- Zle_Qle in C. now rewrite (proj2 (Z.leb_le _ _)).
      + rewrite <- Zlt_Qlt in C. destruct (v >? th) eqn:G; auto. lia. }
  destruct (parts_process fuel st bin lab U) as (st' & lab' & Ep & Lw & Lh & P).
  { split; auto; rewrite ?Hw, ?Hh; auto. intros x y v E. pose proof (pixel_Some _ _ _ _ E) as I. apply Ib in I. rewrite Hpx in E by auto.
    destruct (pixel g x y); [|discriminate]. injection E as <-. destruct (if down then _ else _); auto. }
  exists bin, st', lab'. split; auto. split; auto. rewrite Lw, Lh, Hw, Hh. split; auto. split; auto.
  destruct (parts_ext _ _ _ _ _ _ Fg P) as [H1 H2 H3 H4].
  split; auto. intros p I. apply H1. now apply Ib.
Qed.

(** ** From Java *)
Lemma jpixel_inside t J im x y v : jpixel t J im x y = Some v -> jinside im x y.
Proof. unfold jpixel, jinside. destruct (_ && _) eqn:E; [lia|discriminate]. Qed.

Lemma scanned_ext r J inp bin lab K' J' bin' lab' F F' : (forall x y, F x y = F' x y) -> scanned r J inp bin lab K' J' bin' lab' F ->
  scanned r J inp bin lab K' J' bin' lab' F'.
Proof.
  intros E [H1 H2 H3 H4 H5 H6 H7 H8]. split; auto; [intros x y I; rewrite <- E; auto|]. eapply parts_ext; [|exact H4].
  intros p. cbv beta. now rewrite E.
Qed.

Lemma scan_call grow q fuel K J inp bin lab J1 bin1 F :
  jused K -> scan_args grow q fuel J inp bin lab -> jeffect JByte J inp bin J1 bin1 F ->
  (forall x y, jinside inp x y -> F x y = Some 0 \/ F x y = Some 1) ->
  nc_args grow q fuel J1 bin1 lab /\ exists K' J' lab', nc_process grow q fuel K J1 bin1 lab = Ok (K', J', lab') /\ jused K' /\
    scanned (jrule (settings (nc_lb K))) J inp bin lab K' J' bin1 lab' (fun x y => if (0 <=? x) && (x <? ji_width inp) && (0 <=? y) && (y <? ji_height inp) then F x y else None).
Proof.
  intros U [A Vl [N1 N2] Sh Sz St G Q Fu] [(Ew & Eh) Px Fr Oth Vb _ Ar] B01.
  assert (A' := A). destruct A' as [Vi Vo Fr0 Ap _ Area].
  assert (Ri : 0 <= ji_array inp < zlen (jv_arrays J)) by (destruct Vi as [_ _ _ _ (q0 & Eq & _)]; apply (znth_Some_range _ _ _ Eq)).
  assert (Rl : 0 <= ji_array lab < zlen (jv_arrays J)) by (destruct Vl as [_ _ _ _ (q0 & Eq & _)]; apply (znth_Some_range _ _ _ Eq)).
  assert (keep : forall t im, jvalid t J im -> ji_array im <> ji_array bin1 -> jvalid t J1 im).
  { intros t im [H1 H2 H3 H4 (a & Ea & H)] Na. split; auto. exists a. split; auto. rewrite Oth; auto. apply (znth_Some_range _ _ _ Ea). }
  assert (Vl1 : jvalid JInt J1 lab) by (apply keep; auto; lia).
  assert (Vi1 : jvalid JByte J1 inp) by (apply keep; auto; lia).
  assert (NA : nc_args grow q fuel J1 bin1 lab).
  { split; auto; rewrite ?Ew, ?Eh; auto.
    - split; rewrite ?Ew, ?Eh; auto; lia.
    - intros x y v E. pose proof (jpixel_inside _ _ _ _ _ _ E) as I. unfold jinside in I. rewrite Ew, Eh in I. rewrite Px in E by exact I.
      destruct (B01 x y I) as [B|B]; rewrite B in E; injection E as <-; auto. }
  split; auto.
  destruct (java_labels grow q fuel K J1 bin1 lab U NA) as (K' & J' & lab' & g & E & U' & (_ & Gw & Gh & Gp) & [(Lw & Lh) _ Fr' Oth' Vl' _ Ar'] & H1 & H2 & H3 & H4).
  exists K', J', lab'. split; auto. split; auto.
  assert (Rb : 0 <= ji_array bin1 < zlen (jv_arrays J1)) by (destruct Vb as [_ _ _ _ (q0 & Eq & _)]; apply (znth_Some_range _ _ _ Eq)).
  assert (Ri1 : 0 <= ji_array inp < zlen (jv_arrays J1)) by (destruct Vi1 as [_ _ _ _ (q0 & Eq & _)]; apply (znth_Some_range _ _ _ Eq)).
  assert (keep' : forall t im, jvalid t J1 im -> ji_array im <> ji_array lab' -> jvalid t J' im).
  { intros t im [X1 X2 X3 X4 (a & Ea & X)] Na. split; auto. exists a. split; auto. rewrite Oth'; auto. apply (znth_Some_range _ _ _ Ea). }
  assert (Fge : forall p, fg g p <-> (if (0 <=? fst p) && (fst p <? ji_width inp) && (0 <=? snd p) && (snd p <? ji_height inp) then F (fst p) (snd p) else None) = Some 1).
  { intros p. unfold fg. rewrite Gp. destruct (_ && _) eqn:I.
    - rewrite Px; [reflexivity|]. split; lia.
    - split; [|discriminate]. intros C. apply jpixel_inside in C. unfold jinside in C. rewrite Ew, Eh in C. lia. }
  split.
  - lia.
  - intros x y. rewrite !(jpixel_same _ J1) by (apply Oth'; [lia|auto]). apply jpixel_same. apply Oth; auto. lia.
  - intros x y I. destruct I as [I1 I2]. replace (_ && _) with true by lia. rewrite <- Px by (split; auto). apply jpixel_same. apply Oth'; auto. lia.
  - eapply parts_ext; [exact Fge|].
    split; auto. intros p I. apply H1. unfold inside. unfold jinside in I. rewrite Gw, Gh, Ew, Eh. exact I.
  - split; [apply keep'; auto; lia|]. split; [apply keep'; auto; lia|]. exact Vl'.
  - lia.
  - exact Fr'.
  - intros a Ra Na Nl. destruct (znth_in_range (jv_arrays J) a Ra) as [v Ev]. rewrite <- Oth in Ev by (auto; lia). pose proof (znth_Some_range _ _ _ Ev).
    rewrite Oth' by (auto; lia). apply Oth; auto. lia.
Qed.

(** Any filter that makes a binary image. *)
Lemma scan_any {S} (f : S -> gray Z -> gray Z -> outcome (S * gray Z)) (after : S * list Z) (s : S) (Q : S -> Prop) grow q fuel K J inp bin lab F :
  jused K -> scan_args grow q fuel J inp bin lab ->
  (forall g o, shows JByte J inp g -> wf o -> g_sub o = true -> g_width o = g_width g -> g_height o = g_height g ->
     exists s' o', f s g o = Ok (s', o') /\ Q s' /\ holds g o o' F) ->
  (forall x y, jinside inp x y -> F x y = Some 0 \/ F x y = Some 1) -> (forall x y, F x y <> None -> jinside inp x y) ->
  exists s' J1 bin' K' J' lab', java_filter f after s J inp bin = Ok (s', J1, bin') /\ Q s' /\
    nc_args grow q fuel J1 bin' lab /\ nc_process grow q fuel K J1 bin' lab = Ok (K', J', lab') /\ jused K' /\ scanned (jrule (settings (nc_lb K))) J inp bin lab K' J' bin' lab' F.
Proof.
  intros U A Hf B01 In. destruct (filter_call f after s Q J inp bin F (sc_images _ _ _ _ _ _ _ A) Hf) as (s' & J1 & bin' & E1 & Hq & Ee).
  { intros x y v I E. destruct (B01 x y I) as [B|B]; rewrite B in E; injection E as <-; lia. }
  destruct (scan_call grow q fuel K J inp bin lab J1 bin' F U A Ee B01) as (NA & K' & J' & lab' & E2 & U' & R).
  exists s', J1, bin', K', J', lab'. split; auto. split; auto. split; auto. split; auto. split; auto. eapply scanned_ext; [|exact R].
  intros x y. cbv beta. destruct (_ && _) eqn:C; auto. destruct (F x y) eqn:E; auto. assert (I : jinside inp x y) by (apply In; congruence). unfold jinside in I. lia.
Qed.

(** An example of such a filter. *)
Lemma fixed_is_one tq down J inp : forall g o, shows JByte J inp g -> wf o -> g_sub o = true -> g_width o = g_width g -> g_height o = g_height g ->
  exists s' o', fixed_process (tq, down) g o = Ok (s', o') /\ s' = (tq, down) /\ holds g o o' (fun x y => match jpixel JByte J inp x y with
    | Some v => Some (if (if down then v <=? tq else v >? tq) then 1 else 0) | None => None end).
Proof.
  intros g o (W & Ew & Eh & P) Wo Sub Ew' Eh'.
  assert (Er : gray_reshape 0 o (g_width g) (g_height g) = Ok o) by (unfold gray_reshape; now rewrite Ew', Eh', !Z.eqb_refl).
  destruct (threshold_ok Z.leb Z.gtb g tq down o o W Wo Er) as (o' & E & H1 & H2 & H3 & H4 & H5). unfold fixed_process. cbn [fst snd]. rewrite E. cbn [bind].
  do 2 eexists. split; [reflexivity|]. split; auto. split; auto. split; auto. split; auto. split; auto.
  intros x y I. rewrite H4 by auto. now rewrite P.
Qed.

Lemma chosen_side J inp th down p : (match jpixel JByte J inp (fst p) (snd p) with Some v => Some (side down (Qle_bool (inject_Z v) th)) | None => None end) = Some 1 <->
  chosen (jpixel JByte J inp) th down p.
Proof.
  unfold chosen. destruct (jpixel JByte J inp (fst p) (snd p)) as [v|]; [|split; [discriminate|intros (v & E & _); discriminate]].
  destruct (Qle_bool (inject_Z v) th) eqn:L.
  - apply Qle_bool_iff in L. split; [intros E; exists v; split; auto|intros (v' & [= <-] & C)]; destruct down; cbn in *; auto; try discriminate.
    exfalso. apply (Qlt_not_le _ _ C L).
  - assert (N : (th < inject_Z v)%Q) by (apply Qnot_le_lt; intros C; apply Qle_bool_iff in C; congruence).
    split; [intros E; exists v; split; auto|intros (v' & [= <-] & C)]; destruct down; cbn in *; auto; try discriminate.
    exfalso. apply (Qlt_not_le _ _ N C).
Qed.

Lemma scan_fixed x th down after grow q fuel K J inp bin lab : jused K -> scan_args grow q fuel J inp bin lab ->
  float_value x = Some th -> (0 <= th)%Q -> (th < 256)%Q ->
  exists s J1 bin' K' J' lab', fixed_new double x down = Ok s /\ java_filter fixed_process after s J inp bin = Ok (s, J1, bin') /\
    nc_args grow q fuel J1 bin' lab /\ nc_process grow q fuel K J1 bin' lab = Ok (K', J', lab') /\ jused K' /\
    scanned (jrule (settings (nc_lb K))) J inp bin lab K' J' bin' lab' (fun x y => match jpixel JByte J inp x y with
      | Some v => Some (side down (Qle_bool (inject_Z v) th)) | None => None end) /\
    parts (adj (jrule (settings (nc_lb K)))) (fun p => jinside inp (fst p) (snd p)) (chosen (jpixel JByte J inp) th down)
      (jpixel JInt J' lab') (zlen (nc_contours K')).
Proof.
  intros U A V H0 H1. pose proof (sc_images _ _ _ _ _ _ _ A) as A0.
  destruct (fixed_exact x th down J inp bin after A0 V H0 H1) as (s & J1 & bin' & E0 & E1 & Ee).
  set (F := fun x y => match jpixel JByte J inp x y with Some v => Some (side down (Qle_bool (inject_Z v) th)) | None => None end) in *.
  assert (Some_in : forall x y, jinside inp x y -> exists v, jpixel JByte J inp x y = Some v).
  { intros x0 y0 [I1 I2]. destruct (ja_in _ _ _ _ _ A0) as [(B1 & B2 & B3) B4 B5 B6 (a & Ea & La & Ra & Wa)].
    unfold jpixel. replace (_ && _) with true by lia. rewrite Ea. specialize (Wa ltac:(lia) ltac:(lia)).
    destruct (znth_in_range a (jpos inp x0 y0)) as [v Ev]; [unfold jpos; nia|]. rewrite Ev. eauto. }
  destruct (scan_call grow q fuel K J inp bin lab J1 bin' F U A Ee) as (NA & K' & J' & lab' & E2 & U' & R).
  { intros a b I. unfold F. destruct (Some_in a b I) as [v ->]. destruct down, (Qle_bool _ _); cbn; auto. }
  assert (R' : scanned (jrule (settings (nc_lb K))) J inp bin lab K' J' bin' lab' F).
  { eapply scanned_ext; [|exact R]. intros a b. cbv beta. destruct (_ && _) eqn:C; auto. unfold F.
    destruct (jpixel JByte J inp a b) eqn:E; auto. apply jpixel_inside in E. unfold jinside in E. lia. }
  exists s, J1, bin', K', J', lab'. split; auto. split; auto. split; auto. split; auto. split; auto. split; auto.
  eapply parts_ext; [|exact (sn_parts _ _ _ _ _ _ _ _ _ _ R')].
  intros p. unfold F. apply chosen_side.
Qed.

(** Lemmas about parts of an image. *)
From Coq Require Import Reals.
From Verif Require Import Base BaseFacts M_Image S_Image L_Image M_Border S_Border L_Border M_Convolve S_Convolve L_Convolve L_Convolve2 M_Normalized S_Normalized M_Blur S_Blur
  L_Blur L_BlurTop M_Binary S_Binary L_Binary M_Otsu M_Block M_Config M_Local L_Local M_Kernel S_Kernel L_Kernel L_Gauss L_GaussInt L_NormalizedInt L_GaussBlur S_Symmetry L_Symmetry S_Morph L_Morph L_Divisor S_Tile.
Open Scope Z_scope.

Section Tile.
Variables (x0 y0 : Z).
Lemma tile_inside {E} (g s : gray E) x y : tile x0 y0 g s -> inside s x y -> inside g (x + x0) (y + y0).
Proof. unfold tile, inside. lia. Qed.
(** Near a pixel that is surrounded the two images agree also about which pixels exist. *)
Lemma tile_pixel {E} r (g s : gray E) x y u v : tile x0 y0 g s -> sees r x0 y0 g s x y -> x - r <= u <= x + r -> y - r <= v <= y + r ->
  pixel s u v = pixel g (u + x0) (v + y0).
Proof.
  intros (A & B & C & D & P) (I & U & V) Hu Hv. assert (Dc : inside s u v \/ ~ inside s u v) by (unfold inside; lia). destruct Dc as [Y|N]; [auto|].
  rewrite !pixel_outside; auto. intros [I1 I2]. apply N. split; [now apply U|now apply V].
Qed.
Lemma tile_two_pass ks off r g s x y : tile x0 y0 g s -> sees r x0 y0 g s x y -> 0 <= off <= r -> zlen ks <= off + r + 1 ->
  two_pass ks off s x y = two_pass ks off g (x + x0) (y + y0).
Proof.
  intros T S O L. rewrite !two_pass_col. f_equal. apply zcovered_ext. intros j Hj. unfold col. cbn zeta.
  pose proof S as (I & U & V). pose proof T as (A & B & C & D & P).
  replace (y + y0 - off + (0 + j)) with (y - off + (0 + j) + y0) by lia. set (y' := y - off + (0 + j)).
  assert (Q : (0 <=? y') && (y' <? g_height s) = ((0 <=? y' + y0) && (y' + y0 <? g_height g))).
  { apply Bool.eq_iff_eq_true. rewrite !Bool.andb_true_iff, !Z.leb_le, !Z.ltb_lt. specialize (V y'). unfold inside in I. subst y'. lia. }
  rewrite Q. destruct ((0 <=? y' + y0) && (y' + y0 <? g_height g)); auto. f_equal. unfold row. f_equal. apply zcovered_ext. intros k Hk.
  replace (x + x0 - off + (0 + k)) with (x - off + (0 + k) + x0) by lia. apply (tile_pixel r g s x y); auto; subst y'; lia.
Qed.

(** ** Blur *)
Lemma tile_mean t r M1 M2 g out work s out2 work2 : mean_ready t r M1 g out work -> mean_ready t r M2 s out2 work2 -> tile x0 y0 g s ->
  exists o w p v, blur_mean (int_narith t) (int_marith t) 0 1 r g out work = Ok (o, w) /\
    blur_mean (int_narith t) (int_marith t) 0 1 r s out2 work2 = Ok (p, v) /\
    forall x y, sees r x0 y0 g s x y -> agrees x0 y0 o p x y.
Proof.
  intros Rg Rs T. destruct (mean_result _ _ _ _ _ _ Rg) as (o & w & E1 & (_ & P1)), (mean_result _ _ _ _ _ _ Rs) as (p & v & E2 & (_ & P2)).
  exists o, w, p, v. do 2 (split; [auto|]). intros x y S. unfold agrees. pose proof (proj1 Rg) as Hr. pose proof (proj1 S) as I.
  rewrite P2 by auto. rewrite P1 by (eapply tile_inside; eauto). f_equal. apply (tile_two_pass _ _ r); auto; [lia|]. rewrite ones_len; lia.
Qed.
Lemma tile_gauss t sigma s0 width w g out work s out2 work2 :
  gauss_ready t sigma width s0 w g out work -> gauss_ready t sigma width s0 w s out2 work2 -> tile x0 y0 g s ->
  exists o q p v, gaussian_blur reals exp real_ceil t sigma width g out work = Ok (o, q) /\
    gaussian_blur reals exp real_ceil t sigma width s out2 work2 = Ok (p, v) /\
    forall x y, sees (w / 2) x0 y0 g s x y -> agrees x0 y0 o p x y.
Proof.
  intros Rg Rs T. destruct (gauss_result _ _ _ _ _ _ _ _ Rg) as (o & q & E1 & (_ & P1)), (gauss_result _ _ _ _ _ _ _ _ Rs) as (p & v & E2 & (_ & P2)).
  exists o, q, p, v. do 2 (split; [auto|]). intros x y S. unfold agrees. pose proof (proj1 S) as I. destruct Rg as (_ & C & _).
  destruct (gauss_kernel _ _ _ _ C) as (_ & _ & _ & L). destruct (chosen_pos _ _ _ _ C) as (_ & Pw).
  rewrite P2 by auto. rewrite P1 by (eapply tile_inside; eauto). f_equal. apply (tile_two_pass _ _ (w / 2)); auto; pose proof (Z.div_pos w 2); pose proof (Z.div_mod w 2);
    pose proof (Z.mod_pos_bound w 2); lia.
Qed.
Lemma tile_local {D} (O : dops D) t (L : lcmp Z) width down n M1 M2 g out s1 s2 s out2 q1 q2 :
  clen_computeI O width (d_of O (Z.min (g_width g) (g_height g))) = Ok n -> clen_computeI O width (d_of O (Z.min (g_width s) (g_height s))) = Ok n -> 2 <= n ->
  local_input t (n / 2) g out M1 -> local_input t (n / 2) s out2 M2 -> wf s1 /\ wf s2 /\ wf q1 /\ wf q2 ->
  g_sub s1 = false /\ g_sub s2 = false /\ g_sub q1 = false /\ g_sub q2 = false -> tile x0 y0 g s ->
  exists o st p st', local_mean O (int_narith t) (int_marith t) 0 (fun _ => 1) L width down g out s1 s2 = Ok (o, st) /\
    local_mean O (int_narith t) (int_marith t) 0 (fun _ => 1) L width down s out2 q1 q2 = Ok (p, st') /\
    forall x y, sees (n / 2) x0 y0 g s x y -> agrees x0 y0 o p x y.
Proof.
  intros Ng Ns Hn Ig Is (W1 & W2 & W3 & W4) (A1 & A2 & A3 & A4) T. assert (Hp : 0 < n / 2) by (pose proof (Z.div_le_mono 2 n 2); lia).
  destruct (local_mean_ok O t L width down n (n / 2) M1 g out s1 s2 Ng eq_refl Hp Ig W1 W2 A1 A2) as (o & o' & a & b & _ & E1 & (_ & _ & _ & P1 & _) & _).
  destruct (local_mean_ok O t L width down n (n / 2) M2 s out2 q1 q2 Ns eq_refl Hp Is W3 W4 A3 A4) as (p & p' & c & d & _ & E2 & (_ & _ & _ & P2 & _) & _).
  exists o', (a, b), p', (c, d). do 2 (split; [auto|]). intros x y S. unfold agrees. pose proof (proj1 S) as I.
  rewrite P2 by auto. rewrite P1 by (eapply tile_inside; eauto). pose proof T as (_ & _ & _ & _ & Px). rewrite (Px x y I). rewrite !mean_box_two.
  rewrite (tile_two_pass (ones (n / 2)) (n / 2) (n / 2) g s x y T S); auto; [lia|]. rewrite ones_len; lia.
Qed.

(** ** Erosion and dilation *)
Lemma tile_interior {E} (g s : gray E) x y : tile x0 y0 g s -> 1 <= x < g_width s - 1 /\ 1 <= y < g_height s - 1 ->
  1 <= x + x0 < g_width g - 1 /\ 1 <= y + y0 < g_height g - 1.
Proof. unfold tile. lia. Qed.
Lemma tile_set g s u v : tile x0 y0 g s -> inside s u v -> is_set s u v = is_set g (u + x0) (v + y0).
Proof. intros (_ & _ & _ & _ & P) I. unfold is_set. now rewrite P. Qed.
Lemma tile_morph g out o s out2 o2 : bin_image g -> bin_image s -> wf out -> wf out2 -> tile x0 y0 g s ->
  gray_reshape 0 out (g_width g) (g_height g) = Ok o -> gray_reshape 0 out2 (g_width s) (g_height s) = Ok o2 ->
  exists e f d k, erode4 g out = Ok e /\ erode4 s out2 = Ok f /\ dilate4 g out = Ok d /\ dilate4 s out2 = Ok k /\
    forall x y, interior s x y -> agrees x0 y0 e f x y /\ agrees x0 y0 d k x y.
Proof.
  intros (Wg & Bg & G1 & G2) (Ws & Bs & S1 & S2) Wo Wo2 T E1 E2.
  destruct (erode4_ok g out o Wg Wo Bg E1 G1 G2) as (e & F1 & _ & P1 & _), (erode4_ok s out2 o2 Ws Wo2 Bs E2 S1 S2) as (f & F2 & _ & P2 & _),
    (dilate4_ok g out o Wg Wo Bg E1 G1 G2) as (d & F3 & _ & P3 & _), (dilate4_ok s out2 o2 Ws Wo2 Bs E2 S1 S2) as (k & F4 & _ & P4 & _).
  exists e, f, d, k. do 4 (split; [auto|]). intros x y I. pose proof (tile_interior g s x y T I) as Ig. unfold agrees.
  rewrite P1, P3 by exact Ig. rewrite P2, P4 by exact I.
  assert (Q : forall u v, near x y u v -> is_set s u v = is_set g (u + x0) (v + y0)).
  { intros u v N. apply tile_set; auto. unfold near, interior, inside in *. lia. }
  unfold all_set, some_set, cross. cbn [forallb existsb fst snd]. rewrite !Q by (unfold near; lia).
  replace (x - 1 + x0) with (x + x0 - 1) by lia. replace (x + 1 + x0) with (x + x0 + 1) by lia.
  replace (y - 1 + y0) with (y + y0 - 1) by lia. replace (y + 1 + y0) with (y + y0 + 1) by lia. auto.
Qed.

(** ** Convolution *)
Lemma tile_extended {E} (b : border E) (g s : gray E) u v : tile x0 y0 g s -> inside s u v -> extended b s u v = extended b g (u + x0) (v + y0).
Proof.
  intros T I. pose proof (tile_inside g s u v T I) as Ig. pose proof T as (_ & _ & _ & _ & P). rewrite !extended_inside by auto. auto.
Qed.
Section Conv.
Context {E S R : Type} (A : arith E S R) (zero : R) (K : kernel S) (b : border E) (g s : gray E) (out out2 : gray R).
Hypothesis T : tile x0 y0 g s.
Lemma tile_conv_h : kernel1_ok K -> fits b (g_width g) K -> fits b (g_width s) K -> conv_ready g out (value_h A K b g) -> conv_ready s out2 (value_h A K b s) ->
  exists o p, convolve_h A zero K b g out = Ok o /\ convolve_h A zero K b s out2 = Ok p /\
    forall x y, inside s x y -> k_offset K <= x -> x - k_offset K + k_width K <= g_width s -> agrees x0 y0 o p x y.
Proof.
  intros HK F1 F2 (Wg & Wo & G1 & G2 & So & V1) (Ws & Wo2 & H1 & H2 & So2 & V2).
  destruct (convolve_h_ok A zero K b g out Wg Wo G1 G2 HK F1 So V1) as (a & o & _ & E1 & (_ & _ & _ & P1 & _)).
  destruct (convolve_h_ok A zero K b s out2 Ws Wo2 H1 H2 HK F2 So2 V2) as (a' & p & _ & E2 & (_ & _ & _ & P2 & _)).
  exists o, p. do 2 (split; [auto|]). intros x y I B1 B2. unfold agrees. rewrite P2 by auto. rewrite P1 by (eapply tile_inside; eauto).
  unfold value_h. apply filtered_ext. intros i Hi. replace (x + x0 - k_offset K + i) with (x - k_offset K + i + x0) by lia.
  apply tile_extended; auto. destruct HK as (K1 & K2 & K3). unfold inside in *. lia.
Qed.
Lemma tile_conv_v : kernel1_ok K -> fits b (g_height g) K -> fits b (g_height s) K -> conv_ready g out (value_v A K b g) -> conv_ready s out2 (value_v A K b s) ->
  exists o p, convolve_v A zero K b g out = Ok o /\ convolve_v A zero K b s out2 = Ok p /\
    forall x y, inside s x y -> k_offset K <= y -> y - k_offset K + k_width K <= g_height s -> agrees x0 y0 o p x y.
Proof.
  intros HK F1 F2 (Wg & Wo & G1 & G2 & So & V1) (Ws & Wo2 & H1 & H2 & So2 & V2).
  destruct (convolve_v_ok A zero K b g out Wg Wo G1 G2 HK F1 So V1) as (a & o & _ & E1 & (_ & _ & _ & P1 & _)).
  destruct (convolve_v_ok A zero K b s out2 Ws Wo2 H1 H2 HK F2 So2 V2) as (a' & p & _ & E2 & (_ & _ & _ & P2 & _)).
  exists o, p. do 2 (split; [auto|]). intros x y I B1 B2. unfold agrees. rewrite P2 by auto. rewrite P1 by (eapply tile_inside; eauto).
  unfold value_v. apply filtered_ext. intros i Hi. replace (y + y0 - k_offset K + i) with (y - k_offset K + i + y0) by lia.
  apply tile_extended; auto. destruct HK as (K1 & K2 & K3). unfold inside in *. lia.
Qed.
Lemma tile_conv_2 : kernel2_ok K -> fits b (g_width g) K -> fits b (g_height g) K -> fits b (g_width s) K -> fits b (g_height s) K ->
  conv_ready g out (value_2 A K b g) -> conv_ready s out2 (value_2 A K b s) ->
  exists o p, convolve_2 A zero K b g out = Ok o /\ convolve_2 A zero K b s out2 = Ok p /\
    forall x y, inside s x y -> k_offset K <= x -> x - k_offset K + k_width K <= g_width s -> k_offset K <= y -> y - k_offset K + k_width K <= g_height s ->
      agrees x0 y0 o p x y.
Proof.
  intros HK F1 F1' F2 F2' (Wg & Wo & G1 & G2 & So & V1) (Ws & Wo2 & H1 & H2 & So2 & V2).
  destruct (convolve_2_ok A zero K b g out Wg Wo G1 G2 HK F1 F1' So V1) as (a & o & _ & E1 & (_ & _ & _ & P1 & _)).
  destruct (convolve_2_ok A zero K b s out2 Ws Wo2 H1 H2 HK F2 F2' So2 V2) as (a' & p & _ & E2 & (_ & _ & _ & P2 & _)).
  exists o, p. do 2 (split; [auto|]). intros x y I B1 B2 B3 B4. unfold agrees. rewrite P2 by auto. rewrite P1 by (eapply tile_inside; eauto).
  unfold value_2. apply filtered_ext. intros i Hi. destruct HK as (K1 & K2 & K3).
  replace (x + x0 - k_offset K + i mod k_width K) with (x - k_offset K + i mod k_width K + x0) by lia.
  replace (y + y0 - k_offset K + i / k_width K) with (y - k_offset K + i / k_width K + y0) by lia.
  pose proof (Z.mod_pos_bound i (k_width K) ltac:(lia)). assert (0 <= i / k_width K < k_width K).
  { split; [apply Z.div_pos; lia|]. apply Z.div_lt_upper_bound; lia. }
  apply tile_extended; auto. unfold inside in *. lia.
Qed.
End Conv.
End Tile.

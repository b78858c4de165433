(** The order of contour points as Java sees it. *)
From Verif Require Import Base BaseFacts M_Image S_Image L_Image M_PackedSet S_PackedSet M_Contour S_Contour S_Walk L_Contour L_Walk
  M_Jni S_Jni M_Native S_Native L_Native L_NativeCon.
From Coq Require Import Lia Sorted.

Lemma java_order grow q fuel F J binary labeled F' J' labeled' : jused F -> nc_args grow q fuel J binary labeled ->
  0 <= js_min (settings (nc_lb F)) -> 0 <= js_max (settings (nc_lb F)) ->
  nc_process grow q fuel F J binary labeled = Ok (F', J', labeled') ->
  let s := settings (nc_lb F) in exists g ss, shows JByte J binary g /\ StronglySorted sooner ss /\ (forall b, In b ss <-> begins (jrule s) g b) /\
  zlen (jp_sets (nc_points F')) = zlen ss /\
  (forall i p ext, znth ss i = Some (p, ext) -> exists l, round (jrule s) (fg g) p (first_look (jrule s) ext) l /\
     java_set (nc_points F') i (limited (ext || js_inner s) (js_min s) (js_max s) l)) /\
  forall k co, znth (nc_contours F') (k - 1) = Some co ->
    (exists p, znth ss (co_ext co) = Some (p, true) /\ jpixel JInt J' labeled' (fst p) (snd p) = Some k) /\
    StronglySorted Z.lt (co_int co) /\
    forall j, In j (co_int co) <-> exists p, znth ss j = Some (p, false) /\ jpixel JInt J' labeled' (fst p) (snd p) = Some k.
Proof.
  intros U A N1 N2 Er. cbv zeta. rewrite jrule_eq. destruct (limits_eq (nc_lb F) (proj1 (jused_inv F U)) N1 N2) as [-> ->].
  change (js_inner (settings (nc_lb F))) with (lb_save (nc_lb F)). destruct (nc_java grow q fuel F J binary labeled U A)
    as (F1 & J1 & labeled1 & g & o & l & E & U' & S & Us & La & Ep & Ee & Px & Ec & Es & Hs).
  rewrite Er in E. injection E as <- <- <-. exists g.
  destruct (order_lemma fuel (nc_lb F) g o (nc_lb F') l Us La Ep) as (ss & H1 & H2 & H3 & H4 & H5). exists ss. split; auto. split; auto. split; auto.
  split; [congruence|]. split.
  - intros i p ext Z. destruct (H4 i p ext Z) as (lx & L1 & L2). exists lx. auto.
  - intros k co. rewrite Ec. intros Z. destruct (H5 k co Z) as ((p & P1 & P2) & S1 & I1). split; [exists p; rewrite Px; auto|]. split; auto.
    intros j. rewrite I1. split; intros (p' & Q1 & Q2); exists p'; rewrite Px in *; auto.
Qed.

Lemma settings_inj st1 st2 : used st1 -> used st2 -> settings st1 = settings st2 ->
  lb_rule st1 = lb_rule st2 /\ lb_min st1 = lb_min st2 /\ lb_max st1 = lb_max st2 /\ lb_save st1 = lb_save st2.
Proof.
  intros U1 U2 E. destruct (used_inv _ U1) as [_ _ A1 A2]. destruct (used_inv _ U2) as [_ _ B1 B2].
  rewrite <- !jrule_eq, E. split; auto. unfold settings, nc_get_inner, nc_get_min, nc_get_max, nc_get_rule, s32 in E. injection E as E1 E2 E3 E4.
  split; [|split; [|exact E1]]; lia.
Qed.
Lemma java_moved grow1 grow2 q1 q2 fuel1 fuel2 K1 K2 J1 J2 bin1 bin2 lab1 lab2 v K1' J1' lab1' K2' J2' lab2' :
  jused K1 -> jused K2 -> settings (nc_lb K1) = settings (nc_lb K2) ->
  nc_args grow1 q1 fuel1 J1 bin1 lab1 -> nc_args grow2 q2 fuel2 J2 bin2 lab2 ->
  (forall x y, jpixel JByte J2 bin2 (x + fst v) (y + snd v) = Some 1 <-> jpixel JByte J1 bin1 x y = Some 1) ->
  nc_process grow1 q1 fuel1 K1 J1 bin1 lab1 = Ok (K1', J1', lab1') -> nc_process grow2 q2 fuel2 K2 J2 bin2 lab2 = Ok (K2', J2', lab2') ->
  (forall x y, jpixel JByte J1 bin1 x y = Some 1 -> jpixel JInt J2' lab2' (x + fst v) (y + snd v) = jpixel JInt J1' lab1' x y) /\
  nc_contours K2' = nc_contours K1' /\ zlen (jp_sets (nc_points K2')) = zlen (jp_sets (nc_points K1')) /\
  forall i, 0 <= i < zlen (jp_sets (nc_points K1')) -> exists l, java_set (nc_points K1') i l /\ java_set (nc_points K2') i (map (moved v) l).
Proof.
  intros U1 U2 Es A1 A2 Hv E1 E2.
  destruct (nc_java grow1 q1 fuel1 K1 J1 bin1 lab1 U1 A1) as (X1 & X2 & X3 & g1 & o1 & l1 & E & _ & S1 & Us1 & La1 & Ep1 & _ & Px1 & Ec1 & Es1 & Hs1).
  rewrite E1 in E. injection E as <- <- <-.
  destruct (nc_java grow2 q2 fuel2 K2 J2 bin2 lab2 U2 A2) as (X1 & X2 & X3 & g2 & o2 & l2 & E & _ & S2 & Us2 & La2 & Ep2 & _ & Px2 & Ec2 & Es2 & Hs2).
  rewrite E2 in E. injection E as <- <- <-. destruct (settings_inj _ _ Us1 Us2 Es) as (F1 & F2 & F3 & F4).
  destruct S1 as (_ & _ & _ & P1). destruct S2 as (_ & _ & _ & P2).
  destruct (moved_lemma fuel1 fuel2 (nc_lb K1) (nc_lb K2) g1 g2 v o1 o2 (nc_lb K1') l1 (nc_lb K2') l2) as (M1 & M2 & M3 & M4); auto.
  { intros [x y]. unfold fg, moved; cbn [fst snd]. now rewrite P1, P2. }
  split; [|split; [congruence|split; [congruence|]]].
  - intros x y H. rewrite Px1, Px2. apply (M1 (x, y)). unfold fg; cbn [fst snd]. now rewrite P1.
  - intros i Hi. rewrite Es1 in Hi.
    destruct (process_run fuel1 (nc_lb K1) g1 o1 (used_inv _ Us1) La1) as (lab0 & st1 & lb1 & T & ls & _ & X & R). rewrite Ep1 in X. injection X as <- <-.
    pose proof (la_in _ _ _ La1) as W. pose proof (la_size _ _ _ La1) as Sz. pose proof (run_count _ _ _ _ _ _ _ W Sz R) as C. rewrite C in Hi.
    destruct (znth_in_range T i Hi) as (c & Zc). destruct (run_stored _ _ _ _ _ _ _ W Sz R i c Zc) as (n & _ & H).
    eexists. split; [apply Hs1, H|]. apply Hs2. now apply M4.
Qed.

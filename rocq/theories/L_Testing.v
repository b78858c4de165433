(** Lemmas about the helpers for tests. *)
From Coq Require Import Lia Floats.SpecFloat.
From Verif Require Import Base BaseFacts M_Image S_Image L_Image M_Float M_Otsu M_Kernel M_Block M_Testing S_Testing.

Lemma check_row (sel : Z -> bool) (c : Z -> outcome bool) (cb : Z -> bool) w ok0 : 0 <= w ->
  (forall x, 0 <= x < w -> sel x = true -> c x = Ok (cb x)) ->
  exists r, for_range 0 w (fun x ok => if sel x then assert_that ok (c x) else Ok ok) ok0 = Ok r /\
    (r = true <-> ok0 = true /\ forall x, 0 <= x < w -> sel x = true -> cb x = true).
Proof.
  intros Hw C.
  destruct (for_range_inv (fun n r => r = true <-> ok0 = true /\ forall x, 0 <= x < n -> sel x = true -> cb x = true) 0 w
    (fun x ok => if sel x then assert_that ok (c x) else Ok ok) ok0) as (r & Er & Ir); eauto.
  - split; [intros; split; auto; lia|tauto].
  - intros x ok Hx I. destruct (sel x) eqn:S.
    + unfold assert_that. destruct ok.
      * rewrite (C x Hx S). eexists. split; [reflexivity|]. split.
        -- intros Hc. destruct (proj1 I eq_refl) as (A & B). split; auto. intros x' Hx' S'. destruct (Z.eq_dec x' x) as [->|]; auto. apply B; auto; lia.
        -- intros (_ & B). apply B; auto; lia.
      * eexists. split; [reflexivity|]. split; [discriminate|]. intros (A & B). apply I. split; auto. intros; apply B; auto; lia.
    + eexists. split; [reflexivity|]. rewrite I. split; intros (A & B); split; auto; intros x' Hx' S'.
      * destruct (Z.eq_dec x' x) as [->|]; [congruence|]. apply B; auto; lia.
      * apply B; auto; lia.
Qed.

Section C.
Context {E : Type} (close : E -> E -> outcome bool) (cb : E -> E -> bool).

Lemma check_all sel (a b : gray E) : wf a -> wf b ->
  (g_width a = g_width b -> g_height a = g_height b -> forall x y u v, sel x y = true -> pixel a x y = Some u -> pixel b x y = Some v -> close u v = Ok (cb u v)) ->
  exists r, check_selected sel close a b = Ok r /\
    (r = true <-> agree (fun x y => sel x y = true) (fun u v => cb u v = true) a b).
Proof.
  intros Wa Wb C. unfold check_selected, agree. destruct (Z.eqb_spec (g_width a) (g_width b)) as [Ew|Nw]; cbn [negb].
  2:{ eexists. split; [reflexivity|]. split; [discriminate|]. tauto. }
  destruct (Z.eqb_spec (g_height a) (g_height b)) as [Eh|Nh]; cbn [negb].
  2:{ eexists. split; [reflexivity|]. split; [discriminate|]. tauto. }
  specialize (C Ew Eh).
  set (P := fun x y => forall u v, pixel a x y = Some u -> pixel b x y = Some v -> cb u v = true).
  assert (G : forall x y, inside a x y -> exists u v, pixel a x y = Some u /\ pixel b x y = Some v /\ gray_get a x y = Ok u /\ gray_get b x y = Ok v).
  { intros x y Hi. destruct (gray_get_inside a x y Wa Hi) as (u & Gu & Pu). assert (Hj : inside b x y) by (unfold inside in *; lia).
    destruct (gray_get_inside b x y Wb Hj) as (v & Gv & Pv). exists u, v. auto. }
  set (cbp := fun x y => match pixel a x y, pixel b x y with Some u, Some v => cb u v | _, _ => true end).
  assert (CP : forall x y, inside a x y -> sel x y = true -> check_pixel close a b x y = Ok (cbp x y)).
  { intros x y Hi S. destruct (G x y Hi) as (u & v & Pu & Pv & Gu & Gv). unfold check_pixel, cbp. rewrite Gu, Gv, Pu, Pv. cbn [bind]. eauto. }
  assert (W : 0 <= g_width a /\ 0 <= g_height a) by (destruct Wa as (? & ? & _); lia).
  destruct (for_range_inv (fun n r => r = true <-> forall x y, 0 <= x < g_width a -> 0 <= y < n -> sel x y = true -> cbp x y = true) 0 (g_height a)
    (fun y ok => for_range 0 (g_width a) (fun x ok => if sel x y then assert_that ok (check_pixel close a b x y) else Ok ok) ok) true) as (r & Er & Ir).
  - lia.
  - split; auto. lia.
  - intros y ok Hy I. destruct (check_row (fun x => sel x y) (fun x => check_pixel close a b x y) (fun x => cbp x y) (g_width a) ok) as (r & Er & Ir); [lia| |].
    { intros x Hx S. apply CP; auto. split; lia. }
    exists r. split; auto. rewrite Ir, I. split.
    + intros (A & B) x y' Hx Hy' S. destruct (Z.eq_dec y' y) as [->|]; auto. apply A; auto; lia.
    + intros A. split; intros; apply A; auto; lia.
  - exists r. split; auto. rewrite Ir. split.
    + intros A. repeat (split; auto). intros x y u v S Pu Pv. pose proof (pixel_Some _ _ _ _ Pu) as (Hx & Hy). specialize (A x y Hx Hy S).
      unfold cbp in A. now rewrite Pu, Pv in A.
    + intros (_ & _ & A) x y Hx Hy S. unfold cbp. destruct (G x y (conj Hx Hy)) as (u & v & Pu & Pv & _). rewrite Pu, Pv. eauto.
Qed.

Lemma equals_all (a b : gray E) : wf a -> wf b ->
  (g_width a = g_width b -> g_height a = g_height b -> forall x y u v, pixel a x y = Some u -> pixel b x y = Some v -> close u v = Ok (cb u v)) ->
  exists r, check_equals close a b = Ok r /\ (r = true <-> agree (fun _ _ => True) (fun u v => cb u v = true) a b).
Proof.
  intros Wa Wb C. destruct (check_all (fun _ _ => true) a b Wa Wb) as (r & Er & Ir); [intros; eapply C; eauto|].
  exists r. split; [exact Er|]. rewrite Ir. unfold agree. split; intros (A & B & D); split; auto; split; auto; intros; eapply D; eauto.
Qed.

Lemma difference_marks (a b : gray E) : wf a -> wf b ->
  (forall x y u v, pixel a x y = Some u -> pixel b x y = Some v -> close u v = Ok (cb u v)) ->
  (print_difference close a b = Throw <-> ~ (g_width a = g_width b /\ g_height a = g_height b)) /\
  (g_width a = g_width b -> g_height a = g_height b ->
   exists lines, print_difference close a b = Ok lines /\ zlen lines = g_height a /\
     forall y line, znth lines y = Some line -> zlen line = g_width a /\
       forall x m, znth line x = Some m -> exists u v, pixel a x y = Some u /\ pixel b x y = Some v /\ m = cb u v).
Proof.
  intros Wa Wb C. unfold print_difference, checkSameShape.
  destruct (Z.eqb_spec (g_width a) (g_width b)) as [Ew|Nw]; cbn [negb orb]; [|cbn [bind]; split; [tauto|congruence]].
  destruct (Z.eqb_spec (g_height a) (g_height b)) as [Eh|Nh]; cbn [negb orb]; [|cbn [bind]; split; [tauto|congruence]].
  cbn [bind]. assert (W : 0 <= g_width a /\ 0 <= g_height a) by (destruct Wa as (? & ? & _); lia).
  assert (ROW : forall y, 0 <= y < g_height a -> exists line, for_range 0 (g_width a) (fun x line => let* m := check_pixel close a b x y in Ok (line ++ [m])) [] = Ok line /\
    zlen line = g_width a /\ forall x m, znth line x = Some m -> exists u v, pixel a x y = Some u /\ pixel b x y = Some v /\ m = cb u v).
  { intros y Hy. destruct (for_range_inv (fun n line => zlen line = n /\ forall x m, znth line x = Some m -> exists u v, pixel a x y = Some u /\ pixel b x y = Some v /\ m = cb u v)
      0 (g_width a) (fun x line => let* m := check_pixel close a b x y in Ok (line ++ [m])) []) as (line & El & L & M); eauto; [lia| |].
    - split; [reflexivity|]. intros x m X. apply znth_Some_range in X. zlen_nil. lia.
    - intros x line Hx (L & M). assert (Hi : inside a x y) by (split; lia). assert (Hj : inside b x y) by (unfold inside in *; lia).
      destruct (gray_get_inside a x y Wa Hi) as (u & Gu & Pu). destruct (gray_get_inside b x y Wb Hj) as (v & Gv & Pv).
      unfold check_pixel. rewrite Gu, Gv. cbn [bind]. rewrite (C x y u v Pu Pv). cbn [bind]. eexists. split; [reflexivity|]. rewrite zlen_app, zlen_cons. zlen_nil.
      split; [lia|]. intros x' m X. destruct (Z.ltb_spec x' (zlen line)).
      + rewrite znth_app_l in X by lia. auto.
      + pose proof (znth_Some_range _ _ _ X) as R. rewrite zlen_app, zlen_cons in R. zlen_nil. rewrite znth_app_r in X by lia.
        replace (x' - zlen line) with 0 in X by lia. injection X as <-. replace x' with x by lia. eauto. }
  destruct (for_range_inv (fun n lines => zlen lines = n /\ forall y line, znth lines y = Some line -> zlen line = g_width a /\
       forall x m, znth line x = Some m -> exists u v, pixel a x y = Some u /\ pixel b x y = Some v /\ m = cb u v) 0 (g_height a)
     (fun y lines => let* line := for_range 0 (g_width a) (fun x line => let* m := check_pixel close a b x y in Ok (line ++ [m])) [] in Ok (lines ++ [line])) [])
    as (lines & El & L & M).
  - lia.
  - split; [reflexivity|]. intros y line X. apply znth_Some_range in X. zlen_nil. lia.
  - intros y lines Hy (L & M). destruct (ROW y Hy) as (line & El & Ll & Ml). rewrite El. cbn [bind]. eexists. split; [reflexivity|].
    rewrite zlen_app, zlen_cons. zlen_nil. split; [lia|]. intros y' line' X. destruct (Z.ltb_spec y' (zlen lines)).
    + rewrite znth_app_l in X by lia. auto.
    + pose proof (znth_Some_range _ _ _ X) as R. rewrite zlen_app, zlen_cons in R. zlen_nil. rewrite znth_app_r in X by lia.
      replace (y' - zlen lines) with 0 in X by lia. injection X as <-. replace y' with y by lia. auto.
  - rewrite El. split; [split; [discriminate|tauto]|]. intros _ _. eauto.
Qed.
End C.

Lemma int_close_ok t tol u v : Z.abs (u - v) <= ity_max (signed_type t) -> int_close t tol u v = Ok (Z.abs (u - v) <=? tol).
Proof.
  intros H. unfold int_close, int_distance.
  assert (S : forall z, Z.abs z <= ity_max (signed_type t) -> arith_result (signed_type t) z = Ok z).
  { intros z Hz. apply arith_result_in. destruct t; cbn in *; lia. }
  rewrite (S (u - v)) by auto. cbn [bind]. rewrite S by (rewrite Z.abs_involutive; auto). reflexivity.
Qed.
Lemma int_apart_ok t tol u v : Z.abs (u - v) <= ity_max (signed_type t) -> int_apart t tol u v = Ok (tol <? Z.abs (u - v)).
Proof.
  intros H. unfold int_apart, int_distance.
  assert (S : forall z, Z.abs z <= ity_max (signed_type t) -> arith_result (signed_type t) z = Ok z).
  { intros z Hz. apply arith_result_in. destruct t; cbn in *; lia. }
  rewrite (S (u - v)) by auto. cbn [bind]. rewrite S by (rewrite Z.abs_involutive; auto). reflexivity.
Qed.

Lemma agree_weaken {A} (R R' : Z -> Z -> Prop) (P P' : A -> A -> Prop) (a b : gray A) :
  (forall x y, inside a x y -> (R x y <-> R' x y)) -> (forall u v, P u v <-> P' u v) -> agree R P a b <-> agree R' P' a b.
Proof.
  intros HR HP. unfold agree. split; intros (A1 & A2 & A3); repeat (split; auto); intros x y u v Rxy Pu Pv;
    pose proof (pixel_Some _ _ _ _ Pu) as I; apply HP; eapply A3; eauto; apply HR; auto.
Qed.

Lemma equals_int t tol a b : wf a -> wf b -> comparable t a b ->
  exists r, check_equals (int_close t tol) a b = Ok r /\ (r = true <-> agree (fun _ _ => True) (fun u v => Z.abs (u - v) <= tol) a b).
Proof.
  intros Wa Wb C. destruct (equals_all (int_close t tol) (fun u v => Z.abs (u - v) <=? tol) a b Wa Wb) as (r & Er & Ir).
  { intros _ _ x y u v Pu Pv. apply int_close_ok. eapply C; eauto. }
  exists r. split; auto. rewrite Ir. apply agree_weaken; [tauto|]. intros; apply Z.leb_le.
Qed.

Lemma border_int t tol a b x0 x1 y0 y1 : wf a -> wf b -> comparable t a b ->
  0 <= x0 < 4294967296 -> 0 <= y0 < 4294967296 -> 0 <= x1 <= g_width a -> 0 <= y1 <= g_height a ->
  (exists r, check_equals_border (int_close t tol) a b x0 x1 y0 y1 = Ok r /\
     (r = true <-> agree (near_side (g_width a) (g_height a) x0 x1 y0 y1) (fun u v => Z.abs (u - v) <= tol) a b)) /\
  (exists r, check_equals_inner (int_close t tol) a b x0 x1 y0 y1 = Ok r /\
     (r = true <-> agree (fun x y => ~ near_side (g_width a) (g_height a) x0 x1 y0 y1 x y) (fun u v => Z.abs (u - v) <= tol) a b)).
Proof.
  intros Wa Wb C X0 Y0 X1 Y1. assert (W : 0 <= g_width a < 4294967296 /\ 0 <= g_height a < 4294967296) by (destruct Wa as (? & ? & _); lia).
  split.
  - destruct (check_all (int_close t tol) (fun u v => Z.abs (u - v) <=? tol) (in_border (g_width a) (g_height a) x0 x1 y0 y1) a b Wa Wb) as (r & Er & Ir).
    { intros _ _ x y u v _ Pu Pv. apply int_close_ok. eapply C; eauto. }
    exists r. split; [exact Er|]. rewrite Ir. apply agree_weaken; [|intros; apply Z.leb_le]. intros x y (Hx & Hy). unfold in_border, near_side.
    rewrite !u32_id by lia. lia.
  - destruct (check_all (int_close t tol) (fun u v => Z.abs (u - v) <=? tol) (in_inner (g_width a) (g_height a) x0 x1 y0 y1) a b Wa Wb) as (r & Er & Ir).
    { intros _ _ x y u v _ Pu Pv. apply int_close_ok. eapply C; eauto. }
    exists r. split; [exact Er|]. rewrite Ir. apply agree_weaken; [|intros; apply Z.leb_le]. intros x y (Hx & Hy). unfold in_inner, near_side.
    rewrite !u32_id by lia. lia.
Qed.

Lemma border_any t tol a b x0 x1 y0 y1 : wf a -> wf b -> comparable t a b ->
  0 <= x0 < 4294967296 -> 0 <= y0 < 4294967296 -> 0 <= x1 < 4294967296 -> 0 <= y1 < 4294967296 ->
  let near := near_side (g_width a) (g_height a) x0 (effective (g_width a) x1) y0 (effective (g_height a) y1) in
  (exists r, check_equals_border (int_close t tol) a b x0 x1 y0 y1 = Ok r /\
     (r = true <-> agree near (fun u v => Z.abs (u - v) <= tol) a b)) /\
  (exists r, check_equals_inner (int_close t tol) a b x0 x1 y0 y1 = Ok r /\
     (r = true <-> agree (fun x y => ~ near x y) (fun u v => Z.abs (u - v) <= tol) a b)).
Proof.
  intros Wa Wb C X0 Y0 X1 Y1 near. assert (W : 0 <= g_width a < 4294967296 /\ 0 <= g_height a < 4294967296) by (destruct Wa as (? & ? & _); lia).
  assert (U : forall s d, 0 <= s < 4294967296 -> 0 <= d < 4294967296 -> u32 (s - d) = if s <? d then s - d + 4294967296 else s - d).
  { intros s d Hs Hd. destruct (s <? d) eqn:C'; [|apply u32_id; lia]. unfold u32. rewrite <- (Z.mod_add _ 1) by lia. apply Z.mod_small. lia. }
  split.
  - destruct (check_all (int_close t tol) (fun u v => Z.abs (u - v) <=? tol) (in_border (g_width a) (g_height a) x0 x1 y0 y1) a b Wa Wb) as (r & Er & Ir).
    { intros _ _ x y u v _ Pu Pv. apply int_close_ok. eapply C; eauto. }
    exists r. split; [exact Er|]. rewrite Ir. apply agree_weaken; [|intros; apply Z.leb_le]. intros x y (Hx & Hy). unfold in_border, near, near_side, effective.
    rewrite !U by lia. rewrite !u32_id by lia. destruct (g_width a <? x1) eqn:?, (g_height a <? y1) eqn:?; lia.
  - destruct (check_all (int_close t tol) (fun u v => Z.abs (u - v) <=? tol) (in_inner (g_width a) (g_height a) x0 x1 y0 y1) a b Wa Wb) as (r & Er & Ir).
    { intros _ _ x y u v _ Pu Pv. apply int_close_ok. eapply C; eauto. }
    exists r. split; [exact Er|]. rewrite Ir. apply agree_weaken; [|intros; apply Z.leb_le]. intros x y (Hx & Hy). unfold in_inner, near, near_side, effective.
    rewrite !U by lia. rewrite !u32_id by lia. destruct (g_width a <? x1) eqn:?, (g_height a <? y1) eqn:?; lia.
Qed.

Lemma print_int t tol a b : wf a -> wf b -> comparable t a b ->
  (print_difference (int_apart t tol) a b = Throw <-> ~ (g_width a = g_width b /\ g_height a = g_height b)) /\
  (g_width a = g_width b -> g_height a = g_height b ->
   exists lines, print_difference (int_apart t tol) a b = Ok lines /\ zlen lines = g_height a /\
     forall y line, znth lines y = Some line -> zlen line = g_width a /\
       forall x m, znth line x = Some m -> exists u v, pixel a x y = Some u /\ pixel b x y = Some v /\ (m = true <-> tol < Z.abs (u - v))).
Proof.
  intros Wa Wb C. destruct (difference_marks (int_apart t tol) (fun u v => tol <? Z.abs (u - v)) a b Wa Wb) as (T & L).
  { intros x y u v Pu Pv. apply int_apart_ok. eapply C; eauto. }
  split; auto. intros Ew Eh. destruct (L Ew Eh) as (lines & El & Ll & M). exists lines. repeat (split; auto); destruct (M y line H) as (A & B); auto.
  intros x m X. destruct (B x m X) as (u & v & Pu & Pv & ->). exists u, v. repeat (split; auto); apply Z.ltb_lt.
Qed.

(** ** witnesses *)
Definition tiny (v : Z) : gray Z := mkGray 2 1 0 2 false [v; v].
Lemma tiny_wf v : wf (tiny v).
Proof. unfold wf, tiny. cbn. change (zlen [v; v]) with 2. repeat split; lia. Qed.
Lemma border_wide : exists a b, wf a /\ wf b /\ check_equals_border (int_close U8 0) a b 0 3 0 0 = Ok true /\
  (forall x y, inside a x y -> near_side (g_width a) (g_height a) 0 3 0 0 x y) /\ pixel a 0 0 = Some 1 /\ pixel b 0 0 = Some 2.
Proof.
  exists (tiny 1), (tiny 2). split; [apply tiny_wf|]. split; [apply tiny_wf|].
  split; [reflexivity|]. split; [intros x y (Hx & Hy); unfold near_side, tiny in *; cbn in *; lia|]. split; reflexivity.
Qed.
Lemma inner_wide : exists a b, wf a /\ wf b /\ check_equals_inner (int_close U8 0) a b 0 3 0 0 = Ok false /\
  g_width a = g_width b /\ g_height a = g_height b /\ forall x y, inside a x y -> near_side (g_width a) (g_height a) 0 3 0 0 x y.
Proof.
  exists (tiny 1), (tiny 2). split; [apply tiny_wf|]. split; [apply tiny_wf|].
  split; [reflexivity|]. split; [reflexivity|]. split; [reflexivity|]. intros x y (Hx & Hy). unfold near_side, tiny in *; cbn in *; lia.
Qed.
Lemma equals_overflow : exists a b, wf a /\ wf b /\ pixel a 0 0 = Some 2147483647 /\ pixel b 0 0 = Some (-1) /\ check_equals (int_close S32 0) a b = Undef.
Proof.
  exists (tiny 2147483647), (tiny (-1)). split; [apply tiny_wf|]. split; [apply tiny_wf|].
  split; [reflexivity|]. split; reflexivity.
Qed.
Lemma equals_infinity : exists (a : gray spec_float) tol, wf a /\ SFltb (S754_zero false) tol = true /\
  check_equals (float_close single tol) a a = Ok false /\ print_difference (float_apart single tol) a a = Ok [[false]].
Proof.
  exists (mkGray 1 1 0 1 false [S754_infinity false]), (float_of_Z F32 1).
  split; [unfold wf; cbn; change (zlen [S754_infinity false]) with 1; repeat split; lia|].
  split; [reflexivity|]. split; reflexivity.
Qed.

(** ** sub-images for tests *)
Lemma subimage_copy {A} (zero : A) (g : gray A) : wf g -> (g_width g + 4) * (g_height g + 6) < 4294967296 ->
  exists s, create_subimage zero g = Ok s /\ wf s /\ g_sub s = true /\ g_width s = g_width g /\ g_height s = g_height g /\
    g_offset s = 3 * (g_width g + 4) + 2 /\ g_stride s = g_width g + 4 /\ (forall x y, pixel s x y = pixel g x y) /\
    forall j, 0 <= j < zlen (g_data s) -> outside_window s j -> znth (g_data s) j = Some zero.
Proof.
  intros Wg B. pose proof Wg as (Hw & Hh & _). assert (Bw : g_width g + 4 < 4294967296) by nia. assert (Bh : g_height g + 6 < 4294967296) by nia.
  unfold create_subimage. rewrite (u32_id (g_width g + 4)), (u32_id (g_height g + 6)), (u32_id (2 + g_width g)), (u32_id (3 + g_height g)) by lia.
  set (L := gray_new zero (g_width g + 4) (g_height g + 6)).
  assert (WL : wf L).
  { unfold L, gray_new, wf. cbn. rewrite zlen_repeat, u32_id by nia. repeat split; try lia; nia. }
  destruct (gray_subimage L 2 3 (2 + g_width g) (3 + g_height g)) as [s0| | |] eqn:Es.
  2-4: exfalso; unfold gray_subimage in Es; cbn [L gray_new g_width g_height] in Es;
       destruct (_ || _) eqn:X in Es; [lia|discriminate].
  cbn [bind]. pose proof (gray_subimage_wf L 2 3 (2 + g_width g) (3 + g_height g) s0 WL ltac:(lia) ltac:(lia) Es) as Ws.
  pose proof (gray_subimage_ok L 2 3 (2 + g_width g) (3 + g_height g) s0 WL ltac:(lia) ltac:(lia) Es) as (_ & _ & _ & _ & Ew & Eh & Est & Ed & Eb & Eo).
  assert (Ow : g_offset s0 = 3 * (g_width g + 4) + 2).
  { rewrite Eo. unfold pos, L, gray_new. cbn [g_offset g_stride]. rewrite u32_id by nia. lia. }
  destruct (gray_copy_ok zero s0 g Ws Wg) as (g1 & g2 & Er & Ec & SL & W2 & Ew2 & Eh2 & Px & Ou); [nia|right; lia|].
  exists g2. split; auto. split; auto.
  assert (g1 = s0).
  { unfold gray_reshape in Er. replace (g_width s0 =? g_width g) with true in Er by lia. replace (g_height s0 =? g_height g) with true in Er by lia.
    cbn in Er. congruence. }
  subst g1. destruct SL as (S1 & S2 & S3 & S4 & S5 & S6).
  split; [congruence|]. split; auto. split; auto. split; [congruence|]. split; [rewrite S4, Est; reflexivity|]. split; auto.
  intros j Hj O. rewrite Ou by auto. rewrite Ed. unfold L, gray_new. cbn [g_data]. apply znth_repeat. rewrite S6, Ed in Hj. unfold L, gray_new in Hj. cbn [g_data] in Hj.
  rewrite zlen_repeat in Hj. lia.
Qed.

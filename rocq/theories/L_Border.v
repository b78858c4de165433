From Verif Require Import BaseFacts M_Image S_Image L_Image M_Border S_Border.

Definition i32 (x : Z) : Prop := -2147483648 <= x < 2147483648.

Lemma adjust_extend_ok x n : 0 < n < 2147483648 -> i32 x -> adjust_extend x n = Ok (nearest n x).
Proof.
  unfold i32, adjust_extend, nearest; intros.
  destruct (x <? 0) eqn:E1; [f_equal; lia|]. destruct (n <=? x) eqn:E2; f_equal; [|lia].
  rewrite u32_id, s32_id by lia. lia.
Qed.
Lemma mirrored_near n x : 0 < n -> - n < x < 2 * n - 1 ->
  mirrored n x = if x <? 0 then - x else if n <=? x then 2 * (n - 1) - x else x.
Proof.
  intros Hn Hx. unfold mirrored. destruct (n =? 1) eqn:E1.
  { assert (x = 0) by lia. subst. replace (n <=? 0) with false by lia. reflexivity. }
  cbn zeta. assert (R : x mod (2 * (n - 1)) = if x <? 0 then x + 2 * (n - 1) else if x =? 2 * (n-1) then 0 else x).
  { destruct (x <? 0) eqn:E.
    - rewrite <- (Z_mod_plus_full x 1). rewrite Z.mod_small; lia.
    - destruct (x =? 2 * (n - 1)) eqn:E3.
      + replace x with (2 * (n - 1)) by lia. apply Z_mod_same_full.
      + apply Z.mod_small; lia. }
  rewrite R. destruct (x <? 0) eqn:E.
  - destruct (x + 2 * (n - 1) <? n) eqn:E4; lia.
  - destruct (x =? 2 * (n - 1)) eqn:E3; [replace (0 <? n) with true by lia|];
      destruct (n <=? x) eqn:E5; try lia; destruct (x <? n) eqn:E6; lia.
Qed.
Lemma adjust_reflect_ok x n : 0 < n < 2147483648 -> i32 x -> - n < x < 2 * n - 1 -> 
  adjust_reflect x n = Ok (mirrored n x).
Proof.
  intros Hn H Hx. rewrite mirrored_near by lia. unfold i32, adjust_reflect in *.
  destruct (x <? 0) eqn:E1; [apply arith_result_in; cbn; lia|].
  destruct (n <=? x) eqn:E2; auto. f_equal. rewrite u32_id, s32_id by lia. lia.
Qed.
Lemma adjust_wrap_ok x n : 0 < n < 2147483648 -> i32 x -> - n <= x < 2 * n -> 
  adjust_wrap x n = Ok (periodic n x).
Proof.
  intros Hn H Hx. unfold i32, adjust_wrap, periodic in *.
  destruct (x <? 0) eqn:E1.
  { f_equal. rewrite u32_id, s32_id by lia. rewrite <- (Z_mod_plus_full x 1 n). rewrite Z.mod_small; lia. }
  destruct (n <=? x) eqn:E2.
  - f_equal. rewrite u32_id, s32_id by lia. rewrite <- (Z_mod_plus_full x (-1) n), Z.mod_small; lia.
  - f_equal. rewrite Z.mod_small; lia.
Qed.
Lemma nearest_range n x : 0 < n -> 0 <= nearest n x < n.
Proof. unfold nearest; lia. Qed.
Lemma mirrored_range n x : 0 < n -> 0 <= mirrored n x < n.
Proof.
  intros H. unfold mirrored. destruct (n =? 1) eqn:E; [lia|]. cbn zeta.
  pose proof (Z.mod_pos_bound x (2 * (n - 1)) ltac:(lia)).
  destruct (_ <? n) eqn:E2; lia.
Qed.
Lemma periodic_range n x : 0 < n -> 0 <= periodic n x < n.
Proof. intros; apply Z.mod_pos_bound; lia. Qed.
Lemma nearest_in n x : 0 <= x < n -> nearest n x = x.
Proof. unfold nearest; lia. Qed.
Lemma mirrored_in n x : 0 <= x < n -> mirrored n x = x.
Proof. intros. rewrite mirrored_near by lia. replace (x <? 0) with false by lia. now replace (n <=? x) with false by lia. Qed.
Lemma periodic_in n x : 0 <= x < n -> periodic n x = x.
Proof. intros; apply Z.mod_small; lia. Qed.

Section B.
Context {A : Type}.
Implicit Types g : gray A.

Lemma extended_inside b g x y : inside g x y -> extended b g x y = pixel g x y.
Proof.
  intros [Hx Hy]. destruct b; cbn.
  - now replace (_ && _ && _ && _) with true by lia.
  - now rewrite !nearest_in.
  - now rewrite !mirrored_in.
  - now rewrite !periodic_in.
Qed.
Lemma extended_exists b g x y : wf g -> 0 < g_width g -> 0 < g_height g -> exists v, extended b g x y = Some v.
Proof.
  intros Hg Hw Hh. destruct b; cbn.
  - destruct (_ && _ && _ && _) eqn:E; eauto. apply pixel_exists; auto. split; lia.
  - apply pixel_exists; auto. split; now apply nearest_range.
  - apply pixel_exists; auto. split; now apply mirrored_range.
  - apply pixel_exists; auto. split; now apply periodic_range.
Qed.

(** The value border on an empty image also works. *)
Lemma border_get_ok b g x y v : wf g -> g_width g < 2147483648 -> g_height g < 2147483648 ->
  i32 x -> i32 y -> near b (g_width g) x -> near b (g_height g) y -> 
  extended b g x y = Some v -> border_get b g x y = Ok v.
Proof.
  intros Hg Hw Hh Ix Iy Nx Ny E. unfold border_get.
  destruct ((0 <=? x) && (0 <=? y) && (x <? g_width g) && (y <? g_height g)) eqn:B.
  - assert (I : inside g x y) by (split; lia). rewrite extended_inside in E by auto.
    destruct (gray_get_inside g x y Hg I) as (v' & E' & G). congruence.
  - unfold outside_get, outside_index. destruct b; cbn in *.
    + replace (_ && _ && _ && _) with false in E by lia. congruence.
    + pose proof (pixel_Some _ _ _ _ E) as [I1 I2].
      rewrite !adjust_extend_ok by (auto; lia). cbn. now apply gray_unsafe_inside.
    + pose proof (pixel_Some _ _ _ _ E) as [I1 I2].
      rewrite !adjust_reflect_ok by (auto; lia). cbn. now apply gray_unsafe_inside.
    + pose proof (pixel_Some _ _ _ _ E) as [I1 I2].
      rewrite !adjust_wrap_ok by (auto; lia). cbn. now apply gray_unsafe_inside.
Qed.

Lemma border_get_total b g x y : wf g -> 0 < g_width g < 2147483648 -> 0 < g_height g < 2147483648 ->
  i32 x -> i32 y -> near b (g_width g) x -> near b (g_height g) y -> 
  exists v, extended b g x y = Some v /\ border_get b g x y = Ok v.
Proof.
  intros. destruct (extended_exists b g x y) as (v & E); auto; try lia. exists v; split; auto.
  apply border_get_ok; auto; lia.
Qed.

(** C14: outside of [near] the read leaves the buffer of a freshly created image. *)
Lemma wrap_far (zero : A) w h : 0 < w -> 0 < h -> w * h < 2147483648 -> 2 * h < 2147483648 ->
  border_get BWrap (gray_new zero w h) 0 (2 * h) = Undef.
Proof.
  intros Hw Hh Hs H2. unfold border_get. cbn [g_width g_height gray_new].
  replace (2 * h <? h) with false by lia. rewrite andb_false_r. cbn.
  unfold outside_index, adjust_wrap. cbn [g_width g_height gray_new].
  replace (w <=? 0) with false by lia. replace (2 * h <? 0) with false by lia.
  replace (h <=? 2 * h) with true by lia. cbn. rewrite u32_id, s32_id by lia.
  unfold gray_unsafe_get, gray_index. cbn [g_offset g_stride g_data gray_new]. apply bget_out.
  rewrite zlen_repeat, !u32_id by lia. lia.
Qed.
Lemma reflect_far (zero : A) w h : 0 < w -> 0 < h -> w * h < 2147483648 ->
  border_get BReflect (gray_new zero w h) 0 (- h) = Undef.
Proof.
  intros Hw Hh Hs. unfold border_get. cbn [g_width g_height gray_new].
  replace (0 <=? - h) with false by lia. cbn.
  unfold outside_index, adjust_reflect. cbn [g_width g_height gray_new].
  replace (w <=? 0) with false by lia. cbn [Z.ltb bind]. replace (- h <? 0) with true by lia.
  change (0 <? 0) with false. cbn [bind].
  rewrite arith_result_in by (cbn; nia). cbn. 
  unfold gray_unsafe_get, gray_index. cbn [g_offset g_stride g_data gray_new]. apply bget_out.
  rewrite zlen_repeat, !u32_id by lia. lia.
Qed.
End B.
Lemma value_border_outside {A} (v : A) (g : gray A) x y :
  wf g -> ~ inside g x y -> border_get (BValue v) g x y = Ok v.
Proof.
  intros _ H. unfold border_get. replace (_ && _ && _ && _) with false; auto.
  unfold inside in H. lia.
Qed.

Lemma border_size_inside {A} (b : border A) (g : gray A) x y : wf g ->
  0 <= x < fst (border_size g) -> 0 <= y < snd (border_size g) ->
  exists v, pixel g x y = Some v /\ gray_get g x y = Ok v /\ border_get b g x y = Ok v.
Proof.
  intros W Hx Hy. cbn in Hx, Hy. destruct (gray_get_inside g x y W) as (v & E & P); [split; auto|].
  exists v. split; auto. split; auto. unfold border_get. now replace (_ && _ && _ && _) with true by lia.
Qed.

(** Lemmas about Point2D. *)
From Verif Require Import BaseFacts M_Image M_Convolve M_Stats M_Point S_Point.

Lemma arith_if t z : ity_signed t = true -> arith_result t z = if (ity_min t <=? z) && (z <=? ity_max t) then Ok z else Undef.
Proof. intros H. unfold arith_result. now rewrite H. Qed.

Lemma signed_type_signed t : ity_signed (signed_type t) = true. Proof. now destruct t. Qed.

(** Outcome of the sum of squares once the differences are known. *)
Lemma squares_ok t a b : t <> U32 ->
  (let* s := arith_result (signed_type t) (a * a) in
   let* r := arith_result (signed_type t) (b * b) in
   let* v := arith_result (signed_type t) (s + r) in Ok (cast (sum_type t) v))
  = if a * a + b * b <=? ity_max (signed_type t) then Ok (a * a + b * b) else Undef.
Proof.
  intros Ht. pose proof (Z.square_nonneg a) as Pa. pose proof (Z.square_nonneg b) as Pb.
  rewrite (arith_if _ (a * a)) by apply signed_type_signed.
  replace (ity_min (signed_type t) <=? a * a) with true by (destruct t; cbn; lia). cbn [andb].
  destruct (Z.leb_spec (a * a) (ity_max (signed_type t))).
  2:{ cbn [bind]. replace (a * a + b * b <=? ity_max (signed_type t)) with false by lia. reflexivity. }
  cbn [bind]. rewrite (arith_if _ (b * b)) by apply signed_type_signed.
  replace (ity_min (signed_type t) <=? b * b) with true by (destruct t; cbn; lia). cbn [andb].
  destruct (Z.leb_spec (b * b) (ity_max (signed_type t))).
  2:{ cbn [bind]. replace (a * a + b * b <=? ity_max (signed_type t)) with false by lia. reflexivity. }
  cbn [bind]. rewrite (arith_if _ (a * a + b * b)) by apply signed_type_signed.
  replace (ity_min (signed_type t) <=? a * a + b * b) with true by (destruct t; cbn; lia). cbn [andb].
  destruct (Z.leb_spec (a * a + b * b) (ity_max (signed_type t))); [|reflexivity].
  cbn [bind]. f_equal. apply cast_id. destruct t; cbn in *; lia.
Qed.

Lemma diff_cases t a : t <> U32 ->
  (let* d := arith_result (promote t) a in Ok (cast (signed_type t) d)) = Ok a \/
  (arith_result (promote t) a = Undef /\ ity_max (signed_type t) < a * a).
Proof.
  intros Ht. destruct t; try congruence; cbn [promote signed_type]; rewrite arith_if by reflexivity;
    (destruct ((ity_min _ <=? a) && (a <=? ity_max _)) eqn:E; [left; cbn [bind]; f_equal; apply cast_id; cbn in *; lia
                                                             |right; split; auto; cbn in *; nia]).
Qed.

Lemma distance_total t p q : t <> U32 ->
  distanceSq_point t p q = if sq_dist p q <=? ity_max (signed_type t) then Ok (sq_dist p q) else Undef.
Proof.
  intros Ht. unfold distanceSq_point, distanceSq, sq_dist. rewrite !Z.pow_2_r.
  set (a := fst q - fst p). set (b := snd q - snd p). pose proof (Z.square_nonneg a). pose proof (Z.square_nonneg b).
  destruct (diff_cases t a Ht) as [Ea|[Ea La]].
  - apply bind_Ok in Ea as (a' & -> & Ea). injection Ea as Ea. cbn [bind]. rewrite Ea.
    destruct (diff_cases t b Ht) as [Eb|[Eb Lb]].
    + apply bind_Ok in Eb as (b' & -> & Eb). injection Eb as Eb. cbn [bind]. rewrite Eb. now apply squares_ok.
    + rewrite Eb. cbn [bind]. now replace (a * a + b * b <=? ity_max (signed_type t)) with false by lia.
  - rewrite Ea. cbn [bind]. now replace (a * a + b * b <=? ity_max (signed_type t)) with false by lia.
Qed.

Lemma distance_u8 p q : point_of U8 p -> point_of U8 q -> distanceSq_point U8 p q = Ok (sq_dist p q).
Proof.
  intros [P1 P2] [Q1 Q2]. rewrite distance_total by discriminate. unfold sq_dist. rewrite !Z.pow_2_r. cbn in *.
  assert ((fst q - fst p) * (fst q - fst p) <= 255 * 255) by nia.
  assert ((snd q - snd p) * (snd q - snd p) <= 255 * 255) by nia.
  match goal with |- context [?a <=? ?b] => replace (a <=? b) with true by lia end. reflexivity.
Qed.

(** What the native contour code needs: points of an image of at most 32767 by 32767 pixels. *)
Lemma distance_image w h p q : 0 <= w <= 32767 -> 0 <= h <= 32767 ->
  0 <= fst p <= w -> 0 <= snd p <= h -> 0 <= fst q <= w -> 0 <= snd q <= h ->
  distanceSq_point S32 p q = Ok (sq_dist p q).
Proof.
  intros. rewrite distance_total by discriminate. unfold sq_dist. rewrite !Z.pow_2_r. cbn [signed_type ity_max].
  assert ((fst q - fst p) * (fst q - fst p) <= 32767 * 32767) by nia.
  assert ((snd q - snd p) * (snd q - snd p) <= 32767 * 32767) by nia.
  match goal with |- context [?a <=? ?b] => replace (a <=? b) with true by lia end. reflexivity.
Qed.

(** Theorems about the helpers that compare images (C99) and make sub-images for tests (C100). *)
From Coq Require Import Lia Floats.SpecFloat.
From Verif Require Import Base BaseFacts M_Image S_Image M_Float M_Otsu M_Block M_Testing S_Testing L_Testing.

(** Whatever the comparison of two pixels is: the images pass exactly if they have the same size and all pixels pass. *)
Theorem C99_any : forall E (close : E -> E -> outcome bool) (cb : E -> E -> bool) (a b : gray E), wf a -> wf b ->
  (g_width a = g_width b -> g_height a = g_height b -> forall x y u v, pixel a x y = Some u -> pixel b x y = Some v -> close u v = Ok (cb u v)) ->
  exists r, check_equals close a b = Ok r /\ (r = true <-> agree (fun _ _ => True) (fun u v => cb u v = true) a b).
Proof. exact @equals_all. Qed.
Print Assumptions C99_any.
Definition C99_a : gray Z := mkGray 2 2 0 2 false [10; 20; 30; 40].
Definition C99_b : gray Z := mkGray 2 2 1 3 true [0; 12; 20; 0; 30; 37].
Example C99_any_ex : wf C99_a /\ wf C99_b /\ (forall u v, (fun u v => Ok (u =? v)) u v = Ok (u =? v)) /\ check_equals (fun u v => Ok (u =? v)) C99_a C99_b = Ok false.
Proof.
  split; [|split; [|split; reflexivity]]; unfold wf; cbn; [change (zlen _) with 4|change (zlen _) with 6]; repeat split; try lia; discriminate.
Qed.

(** Integer images: accepted exactly if no pixel differs by more than the tolerance. *)
Theorem C99_integer : forall t tol a b, wf a -> wf b -> comparable t a b ->
  exists r, check_equals (int_close t tol) a b = Ok r /\ (r = true <-> agree (fun _ _ => True) (fun u v => Z.abs (u - v) <= tol) a b).
Proof. exact equals_int. Qed.
Print Assumptions C99_integer.
Lemma C99_comparable : comparable U8 C99_a C99_b.
Proof.
  intros x y u v A B.
  assert (R : forall l i w, znth l i = Some w -> (forall z, In z l -> 0 <= z <= 40) -> 0 <= w <= 40) by (intros l i w H K; apply K; eapply znth_In; eauto).
  unfold pixel in A, B. destruct (_ && _) in A; [|discriminate]. destruct (_ && _) in B; [|discriminate].
  apply R in A; [|cbn; intuition lia]. apply R in B; [|cbn; intuition lia]. cbn. lia.
Qed.
Example C99_integer_ex : comparable U8 C99_a C99_b /\ check_equals (int_close U8 3) C99_a C99_b = Ok true /\ check_equals (int_close U8 2) C99_a C99_b = Ok false.
Proof. split; [exact C99_comparable|split; reflexivity]. Qed.

(** The comparisons of the border and of the inside, for borders that are not wider than the image. *)
Theorem C99_border : forall t tol a b x0 x1 y0 y1, wf a -> wf b -> comparable t a b ->
  0 <= x0 < 4294967296 -> 0 <= y0 < 4294967296 -> 0 <= x1 <= g_width a -> 0 <= y1 <= g_height a ->
  (exists r, check_equals_border (int_close t tol) a b x0 x1 y0 y1 = Ok r /\
     (r = true <-> agree (near_side (g_width a) (g_height a) x0 x1 y0 y1) (fun u v => Z.abs (u - v) <= tol) a b)) /\
  (exists r, check_equals_inner (int_close t tol) a b x0 x1 y0 y1 = Ok r /\
     (r = true <-> agree (fun x y => ~ near_side (g_width a) (g_height a) x0 x1 y0 y1 x y) (fun u v => Z.abs (u - v) <= tol) a b)).
Proof. exact border_int. Qed.
Print Assumptions C99_border.
Example C99_border_ex : comparable U8 C99_a C99_b /\ check_equals_border (int_close U8 0) C99_a C99_b 0 1 0 0 = Ok false /\
  check_equals_inner (int_close U8 0) C99_a C99_b 0 1 1 0 = Ok true.
Proof. split; [exact C99_comparable|split; reflexivity]. Qed.

(** For all borders: one that is wider than the image counts as none on that side. *)
Theorem C99_any_border : forall t tol a b x0 x1 y0 y1, wf a -> wf b -> comparable t a b ->
  0 <= x0 < 4294967296 -> 0 <= y0 < 4294967296 -> 0 <= x1 < 4294967296 -> 0 <= y1 < 4294967296 ->
  let near := near_side (g_width a) (g_height a) x0 (effective (g_width a) x1) y0 (effective (g_height a) y1) in
  (exists r, check_equals_border (int_close t tol) a b x0 x1 y0 y1 = Ok r /\
     (r = true <-> agree near (fun u v => Z.abs (u - v) <= tol) a b)) /\
  (exists r, check_equals_inner (int_close t tol) a b x0 x1 y0 y1 = Ok r /\
     (r = true <-> agree (fun x y => ~ near x y) (fun u v => Z.abs (u - v) <= tol) a b)).
Proof. exact border_any. Qed.
Print Assumptions C99_any_border.
Example C99_any_border_ex : comparable U8 C99_a C99_b /\ check_equals_border (int_close U8 0) C99_a C99_b 0 0 0 3 = Ok true /\
  check_equals_inner (int_close U8 0) C99_a C99_b 0 0 0 3 = Ok false.
Proof. split; [exact C99_comparable|split; reflexivity]. Qed.

(** The picture of the differences marks exactly the pixels that differ by more than the tolerance. *)
Theorem C99_picture : forall t tol a b, wf a -> wf b -> comparable t a b ->
  (print_difference (int_apart t tol) a b = Throw <-> ~ (g_width a = g_width b /\ g_height a = g_height b)) /\
  (g_width a = g_width b -> g_height a = g_height b ->
   exists lines, print_difference (int_apart t tol) a b = Ok lines /\ zlen lines = g_height a /\
     forall y line, znth lines y = Some line -> zlen line = g_width a /\
       forall x m, znth line x = Some m -> exists u v, pixel a x y = Some u /\ pixel b x y = Some v /\ (m = true <-> tol < Z.abs (u - v))).
Proof. exact print_int. Qed.
Print Assumptions C99_picture.
Example C99_picture_ex : comparable U8 C99_a C99_b /\ print_difference (int_apart U8 2) C99_a C99_b = Ok [[false; false]; [false; true]].
Proof. split; [exact C99_comparable|reflexivity]. Qed.

(** With a border wider than the image, different images pass the comparison of the border although all pixels belong to it,
    and fail the comparison of the inside although no pixel belongs to it. *)
Theorem C99_wide_border_refuted : exists a b, wf a /\ wf b /\ check_equals_border (int_close U8 0) a b 0 3 0 0 = Ok true /\
  (forall x y, inside a x y -> near_side (g_width a) (g_height a) 0 3 0 0 x y) /\ pixel a 0 0 = Some 1 /\ pixel b 0 0 = Some 2.
Proof. exact border_wide. Qed.
Print Assumptions C99_wide_border_refuted.
Theorem C99_wide_inner_refuted : exists a b, wf a /\ wf b /\ check_equals_inner (int_close U8 0) a b 0 3 0 0 = Ok false /\
  g_width a = g_width b /\ g_height a = g_height b /\ forall x y, inside a x y -> near_side (g_width a) (g_height a) 0 3 0 0 x y.
Proof. exact inner_wide. Qed.
Print Assumptions C99_wide_inner_refuted.

(** 32-bit pixels far apart: the difference overflows. *)
Theorem C99_overflow_refuted : exists a b, wf a /\ wf b /\ pixel a 0 0 = Some 2147483647 /\ pixel b 0 0 = Some (-1) /\ check_equals (int_close S32 0) a b = Undef.
Proof. exact equals_overflow. Qed.
Print Assumptions C99_overflow_refuted.

(** A float image with an infinite pixel does not equal itself, and the picture of the differences shows none. *)
Theorem C99_infinity_refuted : exists (a : gray spec_float) tol, wf a /\ SFltb (S754_zero false) tol = true /\
  check_equals (float_close single tol) a a = Ok false /\ print_difference (float_apart single tol) a a = Ok [[false]].
Proof. exact equals_infinity. Qed.
Print Assumptions C99_infinity_refuted.

(** The sub-image made for tests has the pixels of the image, in the middle of a larger one that is zero elsewhere. *)
Theorem C100_subimage : forall A (zero : A) (g : gray A), wf g -> (g_width g + 4) * (g_height g + 6) < 4294967296 ->
  exists s, create_subimage zero g = Ok s /\ wf s /\ g_sub s = true /\ g_width s = g_width g /\ g_height s = g_height g /\
    g_offset s = 3 * (g_width g + 4) + 2 /\ g_stride s = g_width g + 4 /\ (forall x y, pixel s x y = pixel g x y) /\
    forall j, 0 <= j < zlen (g_data s) -> outside_window s j -> znth (g_data s) j = Some zero.
Proof. exact @subimage_copy. Qed.
Print Assumptions C100_subimage.
Example C100_ex : wf C99_b /\ (g_width C99_b + 4) * (g_height C99_b + 6) < 4294967296 /\
  exists s, create_subimage 0 C99_b = Ok s /\ pixel s 1 1 = Some 37 /\ znth (g_data s) 27 = Some 37.
Proof.
  split; [unfold wf; cbn; change (zlen _) with 6; repeat split; try lia; discriminate|]. split; [cbn; lia|].
  eexists. split; [vm_compute; reflexivity|]. split; reflexivity.
Qed.

(** Properties of image borders: C13, C14. *)
From Verif Require Import BaseFacts M_Image S_Image L_Image M_Border S_Border L_Border.

Theorem C13_border_read : forall A (b : border A) (g : gray A) x y,
  wf g -> 0 < g_width g < 2147483648 -> 0 < g_height g < 2147483648 ->
  -2147483648 <= x < 2147483648 -> -2147483648 <= y < 2147483648 ->
  near b (g_width g) x -> near b (g_height g) y ->
  exists v, extended b g x y = Some v /\ border_get b g x y = Ok v.
Proof. exact @border_get_total. Qed.
Print Assumptions C13_border_read.

Definition demo : gray Z := mkGray 3 2 1 4 true [9; 1;2;3; 9; 4;5;6; 9].
Example C13_hypotheses :
  wf demo /\ near (@BReflect Z) 3 4 /\ near (@BReflect Z) 2 (-1) /\
  extended BReflect demo 4 (-1) = Some 4 /\ border_get BReflect demo 4 (-1) = Ok 4 /\
  near (@BWrap Z) 3 (-3) /\ extended BWrap demo (-1) 3 = Some 6 /\ border_get BWrap demo (-1) 3 = Ok 6 /\
  extended BExtend demo 1000 (-1000) = Some 3 /\ border_get BExtend demo 1000 (-1000) = Ok 3 /\
  border_get (BValue 7) demo 3 0 = Ok 7.
Proof.
  split; [unfold wf; cbn; repeat split; try lia; intros; discriminate|].
  split; [cbn; lia|]. split; [cbn; lia|]. split; [reflexivity|]. split; [reflexivity|].
  split; [cbn; lia|]. repeat split; reflexivity.
Qed.

(** The value border answers on empty images too. *)
Theorem C13_value_border : forall A (v : A) (g : gray A) x y,
  wf g -> ~ inside g x y -> border_get (BValue v) g x y = Ok v.
Proof. exact @value_border_outside. Qed.
Print Assumptions C13_value_border.
Example C13_value_border_hypotheses : wf (gray_new 0 0 5) /\ ~ inside (gray_new 0 0 5) 0 0.
Proof. split; [unfold wf; cbn; repeat split; intros; try lia|unfold inside; cbn; lia]. Qed.

(** Inside the width and height a border reports it returns the pixels of its image, whatever the border. *)
Theorem C13_size : forall A (b : border A) (g : gray A) x y, wf g ->
  0 <= x < fst (border_size g) -> 0 <= y < snd (border_size g) ->
  exists v, pixel g x y = Some v /\ gray_get g x y = Ok v /\ border_get b g x y = Ok v.
Proof. exact @border_size_inside. Qed.
Print Assumptions C13_size.
Example C13_size_hypotheses : border_size demo = (3, 2) /\ border_get BWrap demo 2 1 = Ok 6 /\ border_get (BValue 7) demo 2 1 = Ok 6.
Proof. vm_compute. auto. Qed.

(** C14 is violated on every non-empty image: one image size below the bottom edge (wrap) or one image size above the
    top edge (reflect) the read leaves the buffer. *)
Theorem C14_wrap_far_refuted : forall A (zero : A) w h,
  0 < w -> 0 < h -> w * h < 2147483648 -> 2 * h < 2147483648 ->
  exists x y, border_get BWrap (gray_new zero w h) x y = Undef.
Proof. intros. exists 0, (2 * h). now apply wrap_far. Qed.
Print Assumptions C14_wrap_far_refuted.
Theorem C14_reflect_far_refuted : forall A (zero : A) w h,
  0 < w -> 0 < h -> w * h < 2147483648 ->
  exists x y, border_get BReflect (gray_new zero w h) x y = Undef.
Proof. intros. exists 0, (- h). now apply reflect_far. Qed.
Print Assumptions C14_reflect_far_refuted.
Example C14_witness : border_get BWrap (gray_new 0 4 3) 0 6 = Undef /\ border_get BReflect (gray_new 0 4 3) 0 (-3) = Undef.
Proof. split; reflexivity. Qed.

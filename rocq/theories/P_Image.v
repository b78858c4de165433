(** Property theorems about images: C01-C08, C12, C53. *)
From Verif Require Import Base BaseFacts M_Image S_Image L_Image L_Inter L_ImageProps S_SetTo L_SetTo.

(** Concrete images used to show that the hypotheses below can be met: a 6x5 image, a nested sub-image of it. *)
Definition ex_img : gray Z := gray_new 0 6 5.
Definition ex_sub : gray Z := mkGray 4 3 7 6 true (repeat 0 30).
Definition ex_sub2 : gray Z := mkGray 2 2 14 6 true (repeat 0 30).
Example ex_img_reachable : reachable 0 ex_img.
Proof. apply R_new; vm_compute; intuition congruence. Qed.
Example ex_sub_reachable : gray_subimage ex_img 1 1 5 4 = Ok ex_sub /\ reachable 0 ex_sub.
Proof.
  assert (E : gray_subimage ex_img 1 1 5 4 = Ok ex_sub) by reflexivity. split; auto.
  apply (R_sub 0 ex_img 1 1 5 4); auto using ex_img_reachable; vm_compute; intuition congruence.
Qed.
Example ex_sub2_reachable : gray_subimage ex_sub 1 1 3 3 = Ok ex_sub2 /\ reachable 0 ex_sub2.
Proof.
  assert (E : gray_subimage ex_sub 1 1 3 3 = Ok ex_sub2) by reflexivity. split; auto.
  apply (R_sub 0 ex_sub 1 1 3 3); auto; [apply ex_sub_reachable|..]; vm_compute; intuition congruence.
Qed.

(** ** C01 *)
(** at(x,y) on any image a user can obtain: throws exactly outside width x height, otherwise yields the element of the
    image's own buffer at (x,y); [reachable] covers constructors, reshape, copies, assignment, writes and nested
    sub-images. *)
Theorem C01_at_exact : forall (A : Type) (zero : A) (g : gray A) x y,
  reachable zero g -> 0 <= x < 4294967296 -> 0 <= y < 4294967296 ->
  (inside g x y -> exists v, gray_get g x y = Ok v /\ pixel g x y = Some v /\
      znth (g_data g) (gray_index g x y) = Some v) /\
  (~ inside g x y -> gray_get g x y = Throw).
Proof. exact at_exact_lemma. Qed.
Print Assumptions C01_at_exact.
Example C01_at_exact_ex : reachable 0 ex_sub2 /\ inside ex_sub2 1 0 /\ ~ inside ex_sub2 2 0 /\
  gray_get ex_sub2 1 0 = Ok 0 /\ gray_get ex_sub2 2 0 = Throw.
Proof. split; [apply ex_sub2_reachable|]. vm_compute. intuition congruence. Qed.

(** isInBounds tells in advance whether at throws. *)
Theorem C01_in_bounds : forall (A : Type) (zero : A) (g : gray A) x y,
  reachable zero g -> 0 <= x < 4294967296 -> 0 <= y < 4294967296 ->
  (gray_isInBounds g x y = true <-> inside g x y) /\ (gray_isInBounds g x y = true <-> exists v, gray_get g x y = Ok v).
Proof. exact in_bounds_lemma. Qed.
Print Assumptions C01_in_bounds.
Example C01_in_bounds_ex : reachable 0 ex_sub2 /\ gray_isInBounds ex_sub2 1 0 = true /\ gray_isInBounds ex_sub2 2 0 = false.
Proof. split; [apply ex_sub2_reachable|]. vm_compute. auto. Qed.

(** Different coordinates never designate the same element. *)
Theorem C01_at_distinct : forall (A : Type) (zero : A) (g : gray A) x y x' y',
  reachable zero g -> inside g x y -> inside g x' y' ->
  gray_index g x y = gray_index g x' y' -> x = x' /\ y = y'.
Proof. exact at_distinct_lemma. Qed.
Print Assumptions C01_at_distinct.

(** Writing through at changes that pixel and nothing else, inside or outside the window. *)
Theorem C01_at_write : forall (A : Type) (zero : A) (g : gray A) x y v,
  reachable zero g -> inside g x y ->
  exists g', gray_set g x y v = Ok g' /\ same_layout g g' /\
    (forall x' y', pixel g' x' y' = if (x' =? x) && (y' =? y) then Some v else pixel g x' y') /\
    (forall j, outside_window g j -> znth (g_data g') j = znth (g_data g) j).
Proof. exact at_set_get_lemma. Qed.
Print Assumptions C01_at_write.
Example C01_at_write_ex : exists g', gray_set ex_sub2 1 1 9 = Ok g' /\ pixel g' 1 1 = Some 9 /\ pixel g' 0 1 = Some 0.
Proof. eexists; split; [reflexivity|]. vm_compute; auto. Qed.

(** ** C02 *)
(** at never touches memory outside the buffer, for every coordinate, exactly when width*height fits in 32 bits. *)
Theorem C02_at_safe_iff : forall (A : Type) (zero : A) w h,
  0 <= w < 4294967296 -> 0 <= h < 4294967296 ->
  ((forall x y, 0 <= x < 4294967296 -> 0 <= y < 4294967296 -> gray_get (gray_new zero w h) x y <> Undef)
   <-> w * h < 4294967296).
Proof. exact at_safe_iff_lemma. Qed.
Print Assumptions C02_at_safe_iff.
(** 65536 x 65536: nothing is allocated, yet (0,0) is accepted. *)
Example C02_overflow_refuted : exists w h, 0 <= w < 4294967296 /\ 0 <= h < 4294967296 /\
  g_data (gray_new 0 w h) = [] /\ gray_get (gray_new 0 w h) 0 0 = Undef.
Proof. exists 65536, 65536. vm_compute. intuition congruence. Qed.

(** ** C03 *)
Theorem C03_reshape : forall (A : Type) (zero : A) (g : gray A) w h,
  reachable zero g -> 0 <= w < 4294967296 -> 0 <= h < 4294967296 -> w * h < 4294967296 ->
  (g_width g = w /\ g_height g = h -> gray_reshape zero g w h = Ok g) /\
  (~ (g_width g = w /\ g_height g = h) -> g_sub g = true -> gray_reshape zero g w h = Throw) /\
  (~ (g_width g = w /\ g_height g = h) -> g_sub g = false ->
     exists g', gray_reshape zero g w h = Ok g' /\ g_width g' = w /\ g_height g' = h /\
       g_sub g' = false /\ g_offset g' = 0 /\ g_stride g' = w /\
       w * h <= zlen (g_data g') /\ zlen (g_data g) <= zlen (g_data g') /\
       (w * h <= zlen (g_data g) -> g_data g' = g_data g) /\
       (zlen (g_data g) < w * h -> forall x y, inside g' x y -> pixel g' x y = Some zero) /\
       forall x y, inside g' x y -> exists v, gray_get g' x y = Ok v).
Proof. exact reshape_contract_lemma. Qed.
Print Assumptions C03_reshape.
Example C03_reshape_ex :
  gray_reshape 0 ex_sub 3 4 = Throw /\ gray_reshape 0 ex_sub 4 3 = Ok ex_sub /\
  gray_reshape 0 ex_img 2 3 = Ok (mkGray 2 3 0 2 false (repeat 0 30)) /\
  gray_reshape 0 ex_img 7 5 = Ok (gray_new 0 7 5).
Proof. vm_compute. auto. Qed.

(** ** C04 *)
Theorem C04_subimage_throws : forall (A : Type) (g : gray A) x0 y0 x1 y1,
  gray_subimage g x0 y0 x1 y1 = Throw <-> ~ (x0 <= x1 <= g_width g /\ y0 <= y1 <= g_height g).
Proof. exact subimage_throws_lemma. Qed.
Print Assumptions C04_subimage_throws.

Theorem C04_subimage_window : forall (A : Type) (zero : A) (g s : gray A) x0 y0 x1 y1,
  reachable zero g -> 0 <= x0 -> 0 <= y0 -> gray_subimage g x0 y0 x1 y1 = Ok s ->
  g_width s = x1 - x0 /\ g_height s = y1 - y0 /\
  forall x y, inside s x y ->
    (* reading *)
    pixel s x y = pixel g (x0 + x) (y0 + y) /\
    (* a write through the sub-image seen through the parent *)
    (forall v, exists s', gray_set s x y v = Ok s' /\
       forall a b, pixel (with_data g (g_data s')) a b =
         if (a =? x0 + x) && (b =? y0 + y) then Some v else pixel g a b) /\
    (* a write through the parent seen through the sub-image *)
    (forall a b v, inside g a b -> exists g', gray_set g a b v = Ok g' /\
       pixel (with_data s (g_data g')) x y = if (a =? x0 + x) && (b =? y0 + y) then Some v else pixel s x y).
Proof. exact subimage_window_lemma. Qed.
Print Assumptions C04_subimage_window.
Example C04_subimage_window_ex : reachable 0 ex_img /\ gray_subimage ex_img 1 1 5 4 = Ok ex_sub /\ inside ex_sub 3 2.
Proof. split; [apply ex_img_reachable|]. vm_compute. intuition congruence. Qed.

(** Sub-images of sub-images: origins add up. *)
Theorem C04_subimage_nested : forall (A : Type) (zero : A) (g s t : gray A) x0 y0 x1 y1 a0 b0 a1 b1,
  reachable zero g -> 0 <= x0 -> 0 <= y0 -> 0 <= a0 -> 0 <= b0 ->
  gray_subimage g x0 y0 x1 y1 = Ok s -> gray_subimage s a0 b0 a1 b1 = Ok t ->
  exists t', gray_subimage g (x0 + a0) (y0 + b0) (x0 + a1) (y0 + b1) = Ok t' /\
    g_width t' = g_width t /\ g_height t' = g_height t /\ g_data t' = g_data t /\
    forall x y, inside t x y -> pos t' x y = pos t x y.
Proof. exact subimage_nested_lemma. Qed.
Print Assumptions C04_subimage_nested.
Example C04_subimage_nested_ex : gray_subimage ex_sub 1 1 3 3 = Ok ex_sub2 /\ gray_subimage ex_img 2 2 4 4 = Ok ex_sub2.
Proof. vm_compute. auto. Qed.

(** ** C05 *)
(** dst.copy(src), dst and src in separate buffers. *)
Theorem C05_copy : forall (A : Type) (zero : A) (dst src : gray A),
  reachable zero dst -> reachable zero src ->
  (g_sub dst = false \/ (g_width dst = g_width src /\ g_height dst = g_height src)) ->
  exists g', gray_copy zero dst src = Ok g' /\
    g_width g' = g_width src /\ g_height g' = g_height src /\ g_sub g' = g_sub dst /\
    (forall x y, pixel g' x y = pixel src x y) /\
    (g_width dst = g_width src /\ g_height dst = g_height src ->
       same_layout dst g' /\ forall j, outside_window dst j -> znth (g_data g') j = znth (g_data dst) j).
Proof. exact copy_exact_lemma. Qed.
Print Assumptions C05_copy.

Theorem C05_copy_throws : forall (A : Type) (zero : A) (dst src : gray A),
  g_sub dst = true -> ~ (g_width dst = g_width src /\ g_height dst = g_height src) ->
  gray_copy zero dst src = Throw.
Proof. exact @gray_copy_throw. Qed.
Print Assumptions C05_copy_throws.

(** Assignment: a sub-image is adopted as a view of the same storage, anything else is copied. *)
Theorem C05_assign : forall (A : Type) (zero : A) (dst src : gray A),
  reachable zero dst -> reachable zero src ->
  (g_sub src = true \/ g_sub dst = false \/ (g_width dst = g_width src /\ g_height dst = g_height src)) ->
  exists g', gray_assign zero dst src = Ok g' /\ (forall x y, pixel g' x y = pixel src x y) /\
    (g_sub src = true -> g_data g' = g_data src /\ g_sub g' = true /\ forall x y, pos g' x y = pos src x y).
Proof. exact assign_lemma. Qed.
Print Assumptions C05_assign.
Example C05_copy_ex :
  reachable 0 ex_sub /\ reachable 0 (gray_new 0 4 3) /\
  (g_width ex_sub = g_width (gray_new 0 4 3) /\ g_height ex_sub = g_height (gray_new 0 4 3)) /\
  exists g', gray_copy 0 ex_sub (mkGray 4 3 0 4 false [1;2;3;4;5;6;7;8;9;10;11;12]) = Ok g' /\
    pixel g' 2 1 = Some 7 /\ pixel (with_data ex_img (g_data g')) 3 2 = Some 7.
Proof.
  split; [apply ex_sub_reachable|]. split; [apply R_new; vm_compute; intuition congruence|].
  split; [auto|]. eexists; split; [vm_compute; reflexivity|]. vm_compute; auto.
Qed.

(** ** C06 *)
(** The height reported by getHeight is not the number of rows. *)
Theorem C06_getHeight_refuted : exists g : gray Z, reachable 0 g /\ gray_getHeight g <> g_height g.
Proof. exists ex_img. split; [apply ex_img_reachable|]. vm_compute. discriminate. Qed.
Print Assumptions C06_getHeight_refuted.

(** getWidth is right; getHeight is right for square images only. *)
Theorem C06_getters : forall (A : Type) (g : gray A),
  gray_getWidth g = g_width g /\ (gray_getHeight g = g_height g <-> g_width g = g_height g).
Proof. exact getters_lemma. Qed.
Print Assumptions C06_getters.
Example C06_getters_ex : gray_getWidth ex_img <> g_height ex_img /\ gray_getHeight (gray_new 0 4 4) = g_height (gray_new 0 4 4).
Proof. vm_compute. split; [discriminate|reflexivity]. Qed.

(** ** C07 *)
Definition ex_inter : inter Z := inter_new 0 3 2 2.
Example ex_inter_reachable : i_reachable 0 ex_inter.
Proof. apply IR_new; vm_compute; intuition congruence. Qed.
Example ex_inter_sub : exists s, inter_subimage ex_inter 1 0 3 2 = Ok s /\ i_reachable 0 s /\ i_inside s 1 1 1.
Proof.
  eexists; split; [reflexivity|]. split; [|vm_compute; intuition congruence].
  apply (IR_sub 0 ex_inter 1 0 3 2); try apply ex_inter_reachable; auto; vm_compute; congruence.
Qed.

Theorem C07_inter_at : forall (A : Type) (zero : A) (g : inter A),
  i_reachable zero g ->
  (forall x y b, i_inside g x y b -> exists v, inter_get g x y b = Ok v /\ i_pixel g x y b = Some v) /\
  (forall x y b, 0 <= x -> 0 <= y -> ~ (x < i_width g /\ y < i_height g) -> inter_get g x y b = Throw) /\
  (forall x y b x' y' b', i_inside g x y b -> i_inside g x' y' b' ->
     inter_index g x y b = inter_index g x' y' b' -> x = x' /\ y = y' /\ b = b').
Proof. exact inter_at_reachable_lemma. Qed.
Print Assumptions C07_inter_at.

Theorem C07_inter_write : forall (A : Type) (zero : A) (g : inter A) x y b v,
  i_reachable zero g -> i_inside g x y b ->
  exists g', inter_set g x y b v = Ok g' /\
    (forall x' y' b', i_pixel g' x' y' b' =
       if (x' =? x) && (y' =? y) && (b' =? b) then Some v else i_pixel g x' y' b').
Proof. exact inter_set_lemma. Qed.
Print Assumptions C07_inter_write.

Theorem C07_inter_subimage : forall (A : Type) (zero : A) (g s : inter A) x0 y0 x1 y1,
  i_reachable zero g -> 0 <= x0 -> 0 <= y0 ->
  (inter_subimage g x0 y0 x1 y1 = Throw <-> ~ (x0 <= x1 <= i_width g /\ y0 <= y1 <= i_height g)) /\
  (inter_subimage g x0 y0 x1 y1 = Ok s ->
     i_width s = x1 - x0 /\ i_height s = y1 - y0 /\ i_bands s = i_bands g /\
     forall x y b, i_inside s x y b -> i_pixel s x y b = i_pixel g (x0 + x) (y0 + y) b).
Proof. exact inter_sub_lemma. Qed.
Print Assumptions C07_inter_subimage.

(** A band that does not exist is not rejected: it designates a pixel of the neighbour, or memory outside. *)
Theorem C07_band_refuted : exists g : inter Z, i_reachable 0 g /\
  (exists x y b, i_bands g <= b < 4294967296 /\ inter_index g x y b = inter_index g (x + 1) y 0 /\ inter_get g x y b = Ok 0) /\
  (exists x y b, i_bands g <= b < 4294967296 /\ inter_get g x y b = Undef).
Proof.
  exists ex_inter. split; [apply ex_inter_reachable|]. split.
  - exists 0, 0, 2. vm_compute; intuition congruence.
  - exists 2, 1, 2. vm_compute; intuition congruence.
Qed.
Print Assumptions C07_band_refuted.
(** Two bands of 65536 x 32768: the number of elements wraps to nothing, yet (0,0) is accepted and designates no memory. *)
Theorem C07_size_refuted : exists w h b, 0 <= w < 4294967296 /\ 0 <= h < 4294967296 /\ 0 <= b < 4294967296 /\
  i_data (inter_new 0 w h b) = [] /\ inter_get (inter_new 0 w h b) 0 0 0 = Undef.
Proof. exists 65536, 32768, 2. vm_compute. intuition congruence. Qed.
Print Assumptions C07_size_refuted.

(** ** C08 *)
(** setTo for element types of one byte. *)
Theorem C08_setTo_one_byte : forall t (dst src : inter Z),
  ity_size t = 1 -> i_reachable 0 dst -> i_reachable 0 src ->
  (i_sub dst = false \/ (i_width dst = i_width src /\ i_height dst = i_height src /\ i_bands dst = i_bands src)) ->
  exists g', inter_setTo t dst src = Ok g' /\
    i_width g' = i_width src /\ i_height g' = i_height src /\ i_bands g' = i_bands src /\
    (forall x y b, i_pixel g' x y b = i_pixel src x y b) /\
    (i_sub dst = true -> forall j, i_outside_window dst j -> znth (i_data g') j = znth (i_data dst) j).
Proof. exact setTo_reachable_lemma. Qed.
Print Assumptions C08_setTo_one_byte.
Example C08_setTo_one_byte_ex : ity_size U8 = 1 /\ i_reachable 0 ex_inter /\
  exists g', inter_setTo U8 (inter_new 0 1 1 3) (mkInter 2 1 2 0 4 false [1;2;3;4]) = Ok g' /\ i_data g' = [1;2;3;4].
Proof. split; auto. split; [apply ex_inter_reachable|]. eexists; split; vm_compute; reflexivity. Qed.

Theorem C08_setTo_throws : forall t (dst src : inter Z),
  i_sub dst = true ->
  ~ (i_width dst = i_width src /\ i_height dst = i_height src /\ i_bands dst = i_bands src) ->
  inter_setTo t dst src = Throw.
Proof. exact setTo_throw_lemma. Qed.
Print Assumptions C08_setTo_throws.

(** For every wider element type the copy is incomplete. *)
Theorem C08_setTo_refuted : forall t, 1 < ity_size t ->
  exists dst src g', i_wf dst /\ i_wf src /\ inter_setTo t dst src = Ok g' /\
    exists x y b, i_pixel g' x y b <> i_pixel src x y b.
Proof. exact setTo_refuted_lemma. Qed.
Print Assumptions C08_setTo_refuted.
(** What it does instead, when the shapes agree: of the elements of a row only the leading bytes, one per element, are
    copied; [reached] of them belong to the element; the others keep their value. *)
Theorem C08_setTo_wide : forall t (dst src : inter Z), i_wf dst -> i_wf src ->
  i_width dst = i_width src -> i_height dst = i_height src -> i_bands dst = i_bands src ->
  (forall v, In v (i_data dst) -> ity_min t <= v <= ity_max t) -> (forall v, In v (i_data src) -> ity_min t <= v <= ity_max t) ->
  exists g', inter_setTo t dst src = Ok g' /\ i_width g' = i_width src /\ i_height g' = i_height src /\ i_bands g' = i_bands src /\
    (forall x y b, i_inside src x y b -> exists d s v, i_pixel dst x y b = Some d /\ i_pixel src x y b = Some s /\
       i_pixel g' x y b = Some v /\ mixed t (reached t (i_width src * i_bands src) (x * i_bands src + b)) d s v) /\
    (forall j, i_outside_window dst j -> znth (i_data g') j = znth (i_data dst) j).
Proof. exact setTo_wide. Qed.
Print Assumptions C08_setTo_wide.
(** Three 16-bit elements: the first is copied, the second gets its low byte, the third nothing. *)
Example C08_setTo_wide_ex : i_wf (mkInter 3 1 1 0 3 false [258; 259; 260]) /\ i_wf (mkInter 3 1 1 0 3 false [0; 0; 0]) /\
  inter_setTo U16 (mkInter 3 1 1 0 3 false [0; 0; 0]) (mkInter 3 1 1 0 3 false [258; 259; 260]) =
    Ok (mkInter 3 1 1 0 3 false [258; 3; 0]) /\ reached U16 3 0 = 2 /\ reached U16 3 1 = 1 /\ reached U16 3 2 = 0.
Proof.
  split; [unfold i_wf, zlen; cbn; repeat split; lia|]. split; [unfold i_wf, zlen; cbn; repeat split; lia|].
  vm_compute. auto.
Qed.

(** ** C12 *)
Theorem C12_same_shape : forall (A B C : Type) (a : gray A) (b : gray B) (c : gray C),
  (checkSameShape a b = Ok tt <-> g_width a = g_width b /\ g_height a = g_height b) /\
  (checkSameShape a b = Throw <-> ~ (g_width a = g_width b /\ g_height a = g_height b)) /\
  (checkSameShape3 a b c = Ok tt <->
     (g_width a = g_width b /\ g_height a = g_height b) /\ (g_width a = g_width c /\ g_height a = g_height c)) /\
  (checkSameShape3 a b c = Throw <->
     ~ ((g_width a = g_width b /\ g_height a = g_height b) /\ (g_width a = g_width c /\ g_height a = g_height c))).
Proof. exact same_shape_lemma. Qed.
Print Assumptions C12_same_shape.
Example C12_same_shape_ex : checkSameShape ex_img ex_sub = Throw /\ checkSameShape ex_sub (gray_new true 4 3) = Ok tt.
Proof. vm_compute; auto. Qed.

(** ** C53 *)
Theorem C53_rows : forall (A : Type) (zero : A) (l : list (list A)) w,
  zlen l < 4294967296 -> w * zlen l < 4294967296 -> 0 <= w < 4294967296 -> (forall r, In r l -> zlen r = w) ->
  exists g, gray_of_rows zero l = Ok g /\ g_height g = zlen l /\ (l <> [] -> g_width g = w) /\
    forall y r x, znth l y = Some r -> 0 <= x < w -> pixel g x y = znth r x.
Proof. exact @gray_of_rows_ok. Qed.
Print Assumptions C53_rows.

Theorem C53_ragged_throws : forall (A : Type) (zero : A) (l : list (list A)),
  zlen l < 4294967296 -> (forall r, In r l -> zlen r < 4294967296) ->
  (forall r, In r l -> zlen r * zlen l < 4294967296) ->
  (exists r r', In r l /\ In r' l /\ zlen r <> zlen r') -> gray_of_rows zero l = Throw.
Proof. exact @gray_of_rows_ragged. Qed.
Print Assumptions C53_ragged_throws.

Example C53_rows_ex : (forall r, In r [[1;2;3];[4;5;6]] -> zlen r = 3) /\
  (exists g, gray_of_rows 0 [[1;2;3];[4;5;6]] = Ok g /\ pixel g 2 0 = Some 3 /\ pixel g 0 1 = Some 4) /\
  (exists r r', In r [[1];[2;3]] /\ In r' [[1];[2;3]] /\ zlen r <> zlen r') /\ gray_of_rows 0 [[1];[2;3]] = Throw.
Proof.
  split; [intros r [<-|[<-|[]]]; reflexivity|]. split; [eexists; split; [reflexivity|split; reflexivity]|].
  split; [|reflexivity]. exists [1], [2; 3]. split; [now left|]. split; [right; now left|]. discriminate.
Qed.

(** Properties of filling images and of averaging bands: C27 (bands), C28, C29, C30, C55 (bands), C57. *)
From Verif Require Import BaseFacts M_Image S_Image L_Image L_Inter M_Convolve S_Convolve M_Blur S_Blur M_Stats S_Stats L_Stats M_Misc L_Misc.

(** C28: [holds g g g' F] says that [g'] has the pixels [F] and that storage outside the window is untouched. *)
Theorem C28_fill : forall A (g : gray A) (v : A), wf g ->
  exists g', gray_fill g v = Ok g' /\ holds g g g' (fun _ _ => Some v).
Proof. exact (fun A g v Hg => gray_fill_ok g Hg v). Qed.
Print Assumptions C28_fill.

Theorem C28_fill_border : forall A (g : gray A) (v : A) r, wf g -> 0 <= r ->
  exists g', gray_fill_border g v r = Ok g' /\
    holds g g g' (fun x y => if near_edge g r x y then Some v else pixel g x y).
Proof. exact (fun A g v r Hg => gray_fill_border_ok g Hg v r). Qed.
Print Assumptions C28_fill_border.

Definition fimg : gray Z := mkGray 4 3 1 5 true [9; 10;20;30;45; 9; 50;60;70;80; 9; 90;100;110;255; 9].
Lemma fimg_wf : wf fimg.
Proof. unfold wf; cbn; repeat split; try lia; intros; discriminate. Qed.
Example C28_hypotheses : wf fimg /\
  (exists g', gray_fill fimg 1 = Ok g' /\ g_data g' = [9; 1;1;1;1; 9; 1;1;1;1; 9; 1;1;1;1; 9]) /\
  (exists g', gray_fill_border fimg 1 1 = Ok g' /\ g_data g' = [9; 1;1;1;1; 9; 1;60;70;1; 9; 1;1;1;1; 9]).
Proof. split; [exact fimg_wf|]. split; eexists; split; reflexivity. Qed.

(** C29 *)
Theorem C29_fill : forall A (g : inter A) (v : A), i_wf g -> i_sub g = false ->
  exists g', inter_fill g v = Ok g' /\ i_width g' = i_width g /\ i_height g' = i_height g /\ i_bands g' = i_bands g /\
    (forall x y b, i_inside g x y b -> i_pixel g' x y b = Some v) /\
    (forall j, i_outside_window g j -> znth (i_data g') j = znth (i_data g) j).
Proof. exact @inter_fill_ok. Qed.
Print Assumptions C29_fill.

Definition iimg : inter Z := mkInter 2 2 2 0 4 false [1;2;3;4;5;6;7;8;99].
Lemma iimg_wf : i_wf iimg.
Proof. unfold i_wf; cbn; repeat split; try lia; intros; discriminate. Qed.
Example C29_hypotheses : i_wf iimg /\ i_sub iimg = false /\
  exists g', inter_fill iimg 0 = Ok g' /\ i_data g' = [0;0;0;0;0;0;0;0;99].
Proof. split; [exact iimg_wf|]. split; auto. eexists; split; reflexivity. Qed.

(** A sub-image: pixels of the window keep their values and elements outside the window are overwritten. *)
Theorem C29_subimage_refuted : exists (g g' : inter Z) (v : Z),
  i_wf g /\ inter_fill g v = Ok g' /\
  (exists x y b, i_inside g x y b /\ i_pixel g' x y b <> Some v) /\
  (exists j, i_outside_window g j /\ znth (i_data g') j <> znth (i_data g) j).
Proof.
  exists (mkInter 1 1 2 2 4 true [1;2;3;4]), (mkInter 1 1 2 2 4 true [0;0;3;4]), 0.
  split; [unfold i_wf; cbn; repeat split; try lia; intros; discriminate|]. split; [reflexivity|]. split.
  - exists 0, 0, 0. split; [cbv; intuition discriminate|discriminate].
  - exists 0. split; [|discriminate]. intros x y b (H1 & H2 & H3). cbn in H1, H2, H3. unfold i_pos. cbn. lia.
Qed.
Print Assumptions C29_subimage_refuted.

(** C30: every output pixel is the truncated average of its bands.  Also covers signed images without negative values
    and 64-bit images. *)
Theorem C30_convert_average : forall t (g : inter Z) (out : gray Z) M, i_wf g -> wf out -> 0 < i_bands g -> 0 <= M ->
  (forall x y b v, i_pixel g x y b = Some v -> ity_min t <= v <= ity_max t /\ Z.abs v <= M) ->
  i_bands g * M <= ity_max (sum_type t) ->
  t = S64 \/ (forall x y b v, i_pixel g x y b = Some v -> 0 <= v) ->
  g_sub out = false \/ (g_width out = i_width g /\ g_height out = i_height g) ->
  exists o out', gray_reshape 0 out (i_width g) (i_height g) = Ok o /\
    convert_average t g out = Ok out' /\
    holds o o out' (fun x y => Some (Z.quot (zsum (bands_of g x y)) (i_bands g))).
Proof. exact convert_average_ok. Qed.
Print Assumptions C30_convert_average.

(** [bands_of] lists each band of the pixel once. *)
Theorem C30_bands : forall (g : inter Z) x y, i_wf g -> 0 <= x < i_width g -> 0 <= y < i_height g ->
  zlen (bands_of g x y) = i_bands g /\ forall v, In v (bands_of g x y) <-> exists b, i_pixel g x y b = Some v.
Proof. exact (fun g x y Hg Hx Hy => conj (bands_len g x y Hg Hx Hy) (bands_In g x y)). Qed.
Print Assumptions C30_bands.

Lemma iimg_range : forall x y b v, i_pixel iimg x y b = Some v -> 1 <= v <= 8.
Proof.
  intros a b c v Hv.
  assert (J : i_inside iimg a b c).
  { assert (D : i_inside iimg a b c \/ ~ i_inside iimg a b c) by (unfold i_inside; lia).
    destruct D as [D|D]; auto. rewrite i_pixel_outside in Hv by exact D. discriminate. }
  destruct J as (X & Y & B). cbn in X, Y, B.
  assert (a = 0 \/ a = 1) as XX by lia; assert (b = 0 \/ b = 1) as YY by lia; assert (c = 0 \/ c = 1) as BB by lia.
  destruct YY as [-> | ->]; destruct XX as [-> | ->]; destruct BB as [-> | ->]; injection Hv as <-; lia.
Qed.
Example C30_hypotheses : i_wf iimg /\ wf (gray_new 0 1 1) /\ 0 < i_bands iimg /\
  (forall x y b v, i_pixel iimg x y b = Some v -> ity_min U8 <= v <= ity_max U8 /\ Z.abs v <= 255) /\
  i_bands iimg * 255 <= ity_max (sum_type U8) /\ (forall x y b v, i_pixel iimg x y b = Some v -> 0 <= v) /\
  g_sub (gray_new 0 1 1) = false /\
  exists out', convert_average U8 iimg (gray_new 0 1 1) = Ok out' /\ g_data out' = [1;3;5;7].
Proof.
  split; [exact iimg_wf|]. split; [apply wf_new; lia|]. split; [cbn; lia|].
  split. { intros x y b v Hv. apply iimg_range in Hv. cbn. lia. }
  split; [cbn; lia|]. split. { intros x y b v Hv. apply iimg_range in Hv. lia. }
  split; [reflexivity|]. eexists; split; reflexivity.
Qed.

(** C27: negative bands. *)
Theorem C27_average_refuted : exists (g : inter Z) (out out' : gray Z),
  i_wf g /\ wf out /\ i_bands g = 3 /\ (forall b, 0 <= b < 3 -> i_pixel g 0 0 b = Some (-1)) /\
  convert_average S16 g out = Ok out' /\ pixel out' 0 0 = Some 21844.
Proof.
  exists (mkInter 1 1 3 0 3 false [-1;-1;-1]), (gray_new 0 1 1), (mkGray 1 1 0 1 false [21844]).
  split; [unfold i_wf; cbn; repeat split; try lia; intros; discriminate|]. split; [apply wf_new; lia|].
  split; [reflexivity|]. split; [|split; reflexivity]. intros b Hb. assert (b = 0 \/ b = 1 \/ b = 2) as B by lia.
  destruct B as [-> | [-> | ->]]; reflexivity.
Qed.
Print Assumptions C27_average_refuted.

(** C55: averaging the bands of an image without bands divides by zero. *)
Theorem C55_average_no_bands : forall t (g : inter Z) (out : gray Z), i_wf g -> wf out -> g_sub out = false ->
  i_width g * i_height g < 4294967296 -> i_bands g = 0 -> 0 < i_width g -> 0 < i_height g ->
  convert_average t g out = Undef.
Proof. exact convert_average_no_bands. Qed.
Print Assumptions C55_average_no_bands.
Example C55_hypotheses : let g := mkInter (A := Z) 2 1 0 0 0 false [] in i_wf g /\ wf (gray_new 0 1 1) /\ i_bands g = 0.
Proof. intro g. split; [unfold i_wf; cbn; repeat split; try lia; intros; discriminate|]. split; [apply wf_new; lia|reflexivity]. Qed.

(** C57: random fill.  [rng] is the sequence of numbers the generator yields. *)
Theorem C57_fill_uniform : forall A (g : gray A) (rng : Z -> A), wf g -> g_sub g = false ->
  exists g', gray_fill_uniform g rng = Ok g' /\ holds g g g' (fun x y => Some (rng (y * g_width g + x))).
Proof. exact (fun A g f Hg => gray_fill_uniform_ok g Hg f). Qed.
Print Assumptions C57_fill_uniform.
Example C57_hypotheses : wf (gray_new 0 3 2) /\ g_sub (gray_new 0 3 2) = false /\
  exists g', gray_fill_uniform (gray_new 0 3 2) (fun i => i * i) = Ok g' /\ g_data g' = [0;1;4;9;16;25].
Proof. split; [apply wf_new; lia|]. split; auto. eexists; split; reflexivity. Qed.

Theorem C57_subimage_refuted : exists (g g' : gray Z) (rng : Z -> Z), wf g /\ (forall i, 5 <= rng i < 8) /\
  gray_fill_uniform g rng = Ok g' /\ (exists x y v, pixel g' x y = Some v /\ ~ 5 <= v < 8) /\
  exists j, outside_window g j /\ znth (g_data g') j <> znth (g_data g) j.
Proof.
  exists (mkGray 1 1 2 3 true [1;2;3]), (mkGray 1 1 2 3 true [6;2;3]), (fun _ => 6).
  split; [unfold wf; cbn; repeat split; try lia; intros; discriminate|]. split; [lia|]. split; [reflexivity|]. split.
  - exists 0, 0, 3. split; [reflexivity|lia].
  - exists 0. split; [|discriminate]. intros x y (H1 & H2). cbn in H1, H2. unfold pos. cbn. lia.
Qed.
Print Assumptions C57_subimage_refuted.

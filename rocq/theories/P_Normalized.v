(** Properties of normalized convolution: C19, C20, C21, C51. *)
From Verif Require Import BaseFacts M_Image S_Image L_Image M_Convolve S_Convolve L_Convolve2 L_ConvolveInt
  M_Normalized S_Normalized L_Normalized L_NormalizedInt.

(** C19, any arithmetic.  [nvalue_h .. = Some r]: the sums at that pixel are defined and the division too. *)
Theorem C19_horizontal : forall E S (N : narith E S) (K : kernel S) (g out : gray E),
  narith_ok N -> kernel1_ok K -> wf g -> wf out -> g_width out = g_width g -> g_height out = g_height g ->
  0 < g_width g <= 1073741824 -> 0 < g_height g <= 1073741824 ->
  (na_float N = true -> zlen (g_data g) < 2147483648) ->
  (forall x y, inside g x y -> exists r, nvalue_h N K g x y = Some r) ->
  exists out', normalized_h N K g out = Ok out' /\ holds g out out' (nvalue_h N K g).
Proof. exact @normalized_h_all. Qed.
Print Assumptions C19_horizontal.

(** The vertical version additionally needs coefficients that fit into a pixel when the kernel is not shorter than the
    image, see C20. *)
Theorem C19_vertical : forall E S (N : narith E S) (K : kernel S) (g out : gray E),
  narith_ok N -> kernel1_ok K -> wf g -> wf out -> g_width out = g_width g -> g_height out = g_height g ->
  0 < g_width g <= 1073741824 -> 0 < g_height g <= 1073741824 ->
  (na_float N = true -> zlen (g_data g) < 2147483648) ->
  (g_height g <= k_width K -> forall c, In c (k_data K) -> na_trunc N c = Ok c) ->
  (forall x y, inside g x y -> exists r, nvalue_v N K g x y = Some r) ->
  exists out', normalized_v N K g out = Ok out' /\ holds g out out' (nvalue_v N K g).
Proof. exact @normalized_v_all. Qed.
Print Assumptions C19_vertical.

Theorem C19_convolve : forall E S (N : narith E S) zero (K : kernel S) (g out work : gray E),
  narith_ok N -> kernel1_ok K -> wf g -> wf out -> wf work ->
  0 < g_width g <= 1073741824 -> 0 < g_height g <= 1073741824 ->
  g_sub out = false \/ (g_width out = g_width g /\ g_height out = g_height g) ->
  g_sub work = false \/ (g_width work = g_width g /\ g_height work = g_height g) ->
  (na_float N = true -> zlen (g_data g) < 2147483648 /\ zlen (g_data work) < 2147483648) ->
  (g_height g <= k_width K -> forall c, In c (k_data K) -> na_trunc N c = Ok c) ->
  (forall x y, inside g x y -> exists r, nvalue_h N K g x y = Some r) ->
  (forall x y, inside g x y -> exists r, nvalue_2 N K g x y = Some r) ->
  exists o out' w work', gray_reshape zero out (g_width g) (g_height g) = Ok o /\
    gray_reshape zero work (g_width g) (g_height g) = Ok w /\
    normalized_2 N zero K g out work = Ok (out', work') /\
    holds g o out' (nvalue_2 N K g) /\ holds g w work' (nvalue_h N K g).
Proof. exact @normalized_2_ok. Qed.
Print Assumptions C19_convolve.

(** C19 for integer pixels: rounded quotient of the exact sums. *)
Theorem C19_horizontal_int : forall t (K : kernel Z) (g out : gray Z) M,
  wf g -> wf out -> 0 < g_width g <= 1073741824 -> 0 < g_height g <= 1073741824 ->
  g_width out = g_width g -> g_height out = g_height g -> kernel1_ok K ->
  0 <= M -> (forall x y v, pixel g x y = Some v -> Z.abs v <= M) ->
  zabs_sum (k_data K) * (M + 1) <= ity_max (signed_type t) ->
  (forall x y, inside g x y -> snd (zcovered (k_data K) (fun i => pixel g (x - k_offset K + i) y) 0) <> 0) ->
  exists out', normalized_h (int_narith t) K g out = Ok out' /\
    holds g out out' (fun x y =>
      Some (cast t (rounded (zcovered (k_data K) (fun i => pixel g (x - k_offset K + i) y) 0)))).
Proof. exact normalized_h_int. Qed.
Print Assumptions C19_horizontal_int.

Theorem C19_vertical_int : forall t (K : kernel Z) (g out : gray Z) M,
  wf g -> wf out -> 0 < g_width g <= 1073741824 -> 0 < g_height g <= 1073741824 ->
  g_width out = g_width g -> g_height out = g_height g -> kernel1_ok K ->
  0 <= M -> (forall x y v, pixel g x y = Some v -> Z.abs v <= M) ->
  zabs_sum (k_data K) * (M + 1) <= ity_max (signed_type t) ->
  (g_height g <= k_width K -> forall c, In c (k_data K) -> ity_min t <= c <= ity_max t) ->
  (forall x y, inside g x y -> snd (zcovered (k_data K) (fun i => pixel g x (y - k_offset K + i)) 0) <> 0) ->
  exists out', normalized_v (int_narith t) K g out = Ok out' /\
    holds g out out' (fun x y =>
      Some (cast t (rounded (zcovered (k_data K) (fun i => pixel g x (y - k_offset K + i)) 0)))).
Proof. exact normalized_v_int. Qed.
Print Assumptions C19_vertical_int.

(** Images of different shape are refused. *)
Theorem C19_wrong_shape : forall E S (N : narith E S) (K : kernel S) (g out : gray E),
  g_width out <> g_width g \/ g_height out <> g_height g ->
  normalized_h N K g out = Throw /\ normalized_v N K g out = Throw.
Proof. exact @normalized_throws. Qed.
Print Assumptions C19_wrong_shape.

Definition nimg : gray Z := mkGray 5 2 1 6 true [9; 10;20;30;40;50; 9; 60;70;80;90;100; 9].
Definition nout : gray Z := gray_new 0 5 2.
Definition nker : kernel Z := mkKernel 3 0 [1; 2; 4].
Lemma nimg_wf : wf nimg.
Proof. unfold wf; cbn; repeat split; try lia; intros; discriminate. Qed.
Lemma nker_ok : kernel1_ok nker.
Proof. unfold kernel1_ok; cbn; unfold zlen; cbn; lia. Qed.

Ltac each_pixel := let x := fresh "x" in let y := fresh "y" in let X1 := fresh in let X2 := fresh in
  let Y1 := fresh in let Y2 := fresh in
  intros x y [[X1 X2] [Y1 Y2]]; cbn in X2, Y2;
  assert (x = 0 \/ x = 1 \/ x = 2 \/ x = 3 \/ x = 4) as XX by lia; assert (y = 0 \/ y = 1) as YY by lia;
  destruct YY as [-> | ->]; destruct XX as [-> | [-> | [-> | [-> | ->]]]].

Example C19_hypotheses :
  narith_ok (int_narith U8) /\ kernel1_ok nker /\ wf nimg /\ wf nout /\ g_width nout = g_width nimg /\
  g_height nout = g_height nimg /\
  (forall x y, inside nimg x y -> exists r, nvalue_h (int_narith U8) nker nimg x y = Some r) /\
  zabs_sum (k_data nker) * (255 + 1) <= ity_max (signed_type U8) /\
  exists out', normalized_h (int_narith U8) nker nimg nout = Ok out' /\
    pixel out' 0 0 = Some 24 /\ pixel out' 3 1 = Some 97 /\ pixel out' 4 1 = Some 100.
Proof.
  split; [exact (int_ok U8)|]. split; [exact nker_ok|]. split; [exact nimg_wf|].
  split; [apply wf_new; lia|]. do 2 (split; [reflexivity|]). split.
  - each_pixel; eexists; vm_compute; reflexivity.
  - split; [cbn; lia|]. eexists; split; [vm_compute; reflexivity|]. repeat split; reflexivity.
Qed.
Example C19_hypotheses_vertical :
  (g_height nimg <= k_width nker -> forall c, In c (k_data nker) -> na_trunc (int_narith U8) c = Ok c) /\
  (forall x y, inside nimg x y -> exists r, nvalue_v (int_narith U8) nker nimg x y = Some r) /\
  (forall x y, inside nimg x y -> exists r, nvalue_2 (int_narith U8) nker nimg x y = Some r) /\
  exists out' work', normalized_2 (int_narith U8) 0 nker nimg (gray_new 0 1 1) (gray_new 0 2 9) = Ok (out', work') /\
    pixel out' 0 0 = Some 57 /\ pixel out' 4 1 = Some 100.
Proof.
  split; [intros _ c [<-|[<-|[<-|[]]]]; reflexivity|]. split; [each_pixel; eexists; vm_compute; reflexivity|].
  split; [each_pixel; eexists; vm_compute; reflexivity|].
  do 2 eexists; split; [vm_compute; reflexivity|]. repeat split; reflexivity.
Qed.

(** C20.  All hypotheses of C19_vertical_int except the one on the coefficients; the result differs from the definition
    (15 instead of 10 for a two pixel image and the kernel 257, 1 ). *)
Theorem C20_truncation_refuted : exists (K : kernel Z) (g out out' : gray Z) x y r,
  wf g /\ wf out /\ g_width out = g_width g /\ g_height out = g_height g /\ kernel1_ok K /\
  (forall x y v, pixel g x y = Some v -> 0 <= v <= 255) /\
  zabs_sum (k_data K) * (255 + 1) <= ity_max (signed_type U8) /\
  (forall c, In c (k_data K) -> 0 < c) /\
  inside g x y /\ nvalue_v (int_narith U8) K g x y = Some r /\
  normalized_v (int_narith U8) K g out = Ok out' /\ pixel out' x y <> Some r.
Proof.
  exists (mkKernel 2 0 [257; 1]), (mkGray 1 2 0 1 false [10; 20]), (gray_new 0 1 2).
  do 2 eexists. exists 0. eexists.
  split; [unfold wf; cbn; repeat split; try lia; intros; discriminate|]. split; [apply wf_new; lia|].
  do 2 (split; [reflexivity|]). split; [unfold kernel1_ok; cbn; unfold zlen; cbn; lia|].
  split. { intros a b v Hv. pose proof (pixel_Some _ _ _ _ Hv) as [[I1 I2] [I3 I4]]. cbn in I2, I4.
    assert (a = 0) by lia. subst a. assert (b = 0 \/ b = 1) as [-> | ->] by lia; injection Hv as <-; lia. }
  split; [cbn; lia|]. split; [intros c [<-|[<-|[]]]; lia|].
  split; [instantiate (1 := 0); split; cbn; lia|]. split; [vm_compute; reflexivity|].
  split; [vm_compute; reflexivity|]. discriminate.
Qed.
Print Assumptions C20_truncation_refuted.

(** C21: every output lies between the bounds of the pixels under the kernel. *)
Theorem C21_horizontal : forall t (K : kernel Z) (g out : gray Z),
  t = U8 \/ t = U16 -> wf g -> wf out -> 0 < g_width g <= 1073741824 -> 0 < g_height g <= 1073741824 ->
  kernel1_ok K -> (forall c, In c (k_data K) -> 0 <= c) ->
  zabs_sum (k_data K) * (ity_max t + 1) <= 2147483647 ->
  (forall x y v, pixel g x y = Some v -> 0 <= v <= ity_max t) ->
  g_width out = g_width g -> g_height out = g_height g ->
  (forall x y, inside g x y -> snd (zcovered (k_data K) (fun i => pixel g (x - k_offset K + i) y) 0) <> 0) ->
  exists out', normalized_h (int_narith t) K g out = Ok out' /\
    forall x y v l h, pixel out' x y = Some v -> 0 <= l -> h <= ity_max t ->
      (forall i u, 0 <= i < k_width K -> pixel g (x - k_offset K + i) y = Some u -> l <= u <= h) -> l <= v <= h.
Proof. exact normalized_h_range. Qed.
Print Assumptions C21_horizontal.

Theorem C21_vertical : forall t (K : kernel Z) (g out : gray Z),
  t = U8 \/ t = U16 -> wf g -> wf out -> 0 < g_width g <= 1073741824 -> 0 < g_height g <= 1073741824 ->
  kernel1_ok K -> (forall c, In c (k_data K) -> 0 <= c) ->
  zabs_sum (k_data K) * (ity_max t + 1) <= 2147483647 ->
  (forall x y v, pixel g x y = Some v -> 0 <= v <= ity_max t) ->
  g_width out = g_width g -> g_height out = g_height g ->
  (g_height g <= k_width K -> forall c, In c (k_data K) -> c <= ity_max t) ->
  (forall x y, inside g x y -> snd (zcovered (k_data K) (fun i => pixel g x (y - k_offset K + i)) 0) <> 0) ->
  exists out', normalized_v (int_narith t) K g out = Ok out' /\
    forall x y v l h, pixel out' x y = Some v -> 0 <= l -> h <= ity_max t ->
      (forall i u, 0 <= i < k_width K -> pixel g x (y - k_offset K + i) = Some u -> l <= u <= h) -> l <= v <= h.
Proof. exact normalized_v_range. Qed.
Print Assumptions C21_vertical.

(** Both passes; [lo = hi] says that constant images are unchanged. *)
Theorem C21_convolve : forall t (K : kernel Z) (g out work : gray Z) lo hi,
  t = U8 \/ t = U16 -> wf g -> wf out -> wf work -> 0 < g_width g <= 1073741824 -> 0 < g_height g <= 1073741824 ->
  kernel1_ok K -> (forall c, In c (k_data K) -> 0 <= c) ->
  zabs_sum (k_data K) * (ity_max t + 1) <= 2147483647 ->
  (forall x y v, pixel g x y = Some v -> 0 <= v <= ity_max t) ->
  0 <= lo -> hi <= ity_max t -> (forall x y v, pixel g x y = Some v -> lo <= v <= hi) ->
  g_sub out = false \/ (g_width out = g_width g /\ g_height out = g_height g) ->
  g_sub work = false \/ (g_width work = g_width g /\ g_height work = g_height g) ->
  (g_height g <= k_width K -> forall c, In c (k_data K) -> c <= ity_max t) ->
  (forall x y, inside g x y -> snd (zcovered (k_data K) (fun i => pixel g (x - k_offset K + i) y) 0) <> 0) ->
  (forall x y, inside g x y -> snd (zcovered (k_data K) (fun i => pixel g x (y - k_offset K + i)) 0) <> 0) ->
  exists out' work', normalized_2 (int_narith t) 0 K g out work = Ok (out', work') /\
    g_width out' = g_width g /\ g_height out' = g_height g /\
    forall x y v, pixel out' x y = Some v -> lo <= v <= hi.
Proof. intros; eapply normalized_2_range; eauto. Qed.
Print Assumptions C21_convolve.

Example C21_hypotheses :
  (forall c, In c (k_data nker) -> 0 <= c) /\ zabs_sum (k_data nker) * (ity_max U8 + 1) <= 2147483647 /\
  (forall x y, inside nimg x y -> snd (zcovered (k_data nker) (fun i => pixel nimg (x - k_offset nker + i) y) 0) <> 0) /\
  (forall x y, inside nimg x y -> snd (zcovered (k_data nker) (fun i => pixel nimg x (y - k_offset nker + i)) 0) <> 0) /\
  (g_height nimg <= k_width nker -> forall c, In c (k_data nker) -> c <= ity_max U8) /\
  (forall x y v, pixel nimg x y = Some v -> 10 <= v <= 100).
Proof.
  split; [intros c [<-|[<-|[<-|[]]]]; lia|]. split; [cbn; lia|].
  split; [each_pixel; vm_compute; discriminate|]. split; [each_pixel; vm_compute; discriminate|].
  split; [intros _ c [<-|[<-|[<-|[]]]]; cbn; lia|].
  intros a b v Hv. pose proof (pixel_Some _ _ _ _ Hv) as Hi. revert a b Hi v Hv.
  each_pixel; intros v Hv; injection Hv as <-; lia.
Qed.

(** C51: with signed pixels even a constant image changes, because the rounding term is added to a negative total. *)
Theorem C51_signed_constant_refuted : exists (K : kernel Z) (g out out' : gray Z) c,
  wf g /\ wf out /\ g_width out = g_width g /\ g_height out = g_height g /\ kernel1_ok K /\
  (forall k, In k (k_data K) -> 0 < k) /\
  (forall x y, inside g x y -> pixel g x y = Some c) /\
  normalized_h (int_narith S16) K g out = Ok out' /\
  exists x y, inside g x y /\ pixel out' x y <> Some c.
Proof.
  exists (mkKernel 3 1 [1; 1; 1]), (mkGray 4 1 0 4 false [-1; -1; -1; -1]), (gray_new 0 4 1). eexists. exists (-1).
  split; [unfold wf; cbn; repeat split; try lia; intros; discriminate|]. split; [apply wf_new; lia|].
  do 2 (split; [reflexivity|]). split; [unfold kernel1_ok; cbn; unfold zlen; cbn; lia|].
  split; [intros c [<-|[<-|[<-|[]]]]; lia|]. split.
  { intros a b [[I1 I2] [I3 I4]]. cbn in I2, I4. assert (b = 0) by lia. subst b.
    assert (a = 0 \/ a = 1 \/ a = 2 \/ a = 3) as [-> | [-> | [-> | ->]]] by lia; reflexivity. }
  split; [vm_compute; reflexivity|]. exists 1, 0. split; [split; cbn; lia|]. discriminate.
Qed.
Print Assumptions C51_signed_constant_refuted.

(** C120: the order of the points of the contours. *)
From Coq Require Import Sorted Lia.
From Verif Require Import Base BaseFacts M_Image S_Image L_Image M_PackedSet S_PackedSet M_Contour S_Contour S_Walk L_ContourEx L_Contour L_Walk
  M_Jni S_Jni M_Native S_Native L_Native L_NativeWalk.
From Verif Require P_Native.

(** The sets of points are numbered in the order in which their beginnings are met when the image is read row by row; each is
    the round along the boundary from there. *)
Theorem C120_order : forall fuel st g lab st' lab', used st -> label_args fuel g lab -> process fuel st g lab = Ok (st', lab') ->
  exists ss, StronglySorted sooner ss /\ (forall s, In s ss <-> begins (lb_rule st) g s) /\ ps_count (lb_pts st') = zlen ss /\
  (forall i p ext, znth ss i = Some (p, ext) -> exists l, round (lb_rule st) (fg g) p (first_look (lb_rule st) ext) l /\
     has_points st' i (limited (ext || lb_save st) (lb_min st) (lb_max st) l)) /\
  forall k co, znth (lb_contours st') (k - 1) = Some co ->
    (exists p, znth ss (co_ext co) = Some (p, true) /\ pixel lab' (fst p) (snd p) = Some k) /\
    StronglySorted Z.lt (co_int co) /\
    forall j, In j (co_int co) <-> exists p, znth ss j = Some (p, false) /\ pixel lab' (fst p) (snd p) = Some k.
Proof. exact order_lemma. Qed.
Print Assumptions C120_order.
Example C120_order_ex : used (lb_new Eight) /\ label_args 16 pair2 lab0 /\ begins Eight pair2 (0, 0, true) /\
  exists st lab, process 16 (lb_new Eight) pair2 lab0 = Ok (st, lab) /\ has_points st 0 [(0, 0); (1, 1)] /\ lb_contours st = [mkCo 1 0 []].
Proof. exact pair_example. Qed.

(** There is only one such round, so that the points and their order are settled. *)
Theorem C120_one : forall r S p s l l', round r S p s l -> round r S p s l' -> l = l'.
Proof. exact round_det. Qed.
Print Assumptions C120_one.
Example C120_one_ex : round Eight (fg pair2) (0, 0) (first_look Eight true) [(0, 0); (1, 1)].
Proof. exact pair_round. Qed.

(** The same foreground at another place, in an image of another size: the same labels, contours and points, at that place. *)
Theorem C120_moved : forall fuel1 fuel2 st1 st2 g1 g2 v lab1 lab2 st1' lab1' st2' lab2',
  used st1 -> used st2 -> lb_rule st1 = lb_rule st2 -> lb_min st1 = lb_min st2 -> lb_max st1 = lb_max st2 -> lb_save st1 = lb_save st2 ->
  label_args fuel1 g1 lab1 -> label_args fuel2 g2 lab2 -> (forall p, fg g2 (moved v p) <-> fg g1 p) ->
  process fuel1 st1 g1 lab1 = Ok (st1', lab1') -> process fuel2 st2 g2 lab2 = Ok (st2', lab2') ->
  (forall p, fg g1 p -> pixel lab2' (fst p + fst v) (snd p + snd v) = pixel lab1' (fst p) (snd p)) /\
  lb_contours st2' = lb_contours st1' /\ ps_count (lb_pts st2') = ps_count (lb_pts st1') /\
  (forall i l, has_points st1' i l <-> has_points st2' i (map (moved v) l)).
Proof. exact moved_lemma. Qed.
Print Assumptions C120_moved.
Example C120_moved_ex : label_args 16 pair2 lab0 /\ label_args 48 pair4 lab0 /\ (forall p, fg pair4 (moved (1, 1) p) <-> fg pair2 p) /\
  exists st lab, process 48 (lb_new Eight) pair4 lab0 = Ok (st, lab) /\ has_points st 0 [(1, 1); (2, 2)].
Proof. split; [exact args_pair2|]. split; [exact args_pair4|exact pair_moved]. Qed.

(** From Java. *)
Theorem C120_java : forall grow q fuel F J binary labeled F' J' labeled', jused F -> nc_args grow q fuel J binary labeled ->
  0 <= js_min (settings (nc_lb F)) -> 0 <= js_max (settings (nc_lb F)) ->
  nc_process grow q fuel F J binary labeled = Ok (F', J', labeled') ->
  let s := settings (nc_lb F) in exists g ss, shows JByte J binary g /\ StronglySorted sooner ss /\ (forall b, In b ss <-> begins (jrule s) g b) /\
  zlen (jp_sets (nc_points F')) = zlen ss /\
  (forall i p ext, znth ss i = Some (p, ext) -> exists l, round (jrule s) (fg g) p (first_look (jrule s) ext) l /\
     java_set (nc_points F') i (limited (ext || js_inner s) (js_min s) (js_max s) l)) /\
  forall k co, znth (nc_contours F') (k - 1) = Some co ->
    (exists p, znth ss (co_ext co) = Some (p, true) /\ jpixel JInt J' labeled' (fst p) (snd p) = Some k) /\
    StronglySorted Z.lt (co_int co) /\
    forall j, In j (co_int co) <-> exists p, znth ss j = Some (p, false) /\ jpixel JInt J' labeled' (fst p) (snd p) = Some k.
Proof. exact java_order. Qed.
Print Assumptions C120_java.

Theorem C120_java_moved : forall grow1 grow2 q1 q2 fuel1 fuel2 K1 K2 J1 J2 bin1 bin2 lab1 lab2 v K1' J1' lab1' K2' J2' lab2',
  jused K1 -> jused K2 -> settings (nc_lb K1) = settings (nc_lb K2) ->
  nc_args grow1 q1 fuel1 J1 bin1 lab1 -> nc_args grow2 q2 fuel2 J2 bin2 lab2 ->
  (forall x y, jpixel JByte J2 bin2 (x + fst v) (y + snd v) = Some 1 <-> jpixel JByte J1 bin1 x y = Some 1) ->
  nc_process grow1 q1 fuel1 K1 J1 bin1 lab1 = Ok (K1', J1', lab1') -> nc_process grow2 q2 fuel2 K2 J2 bin2 lab2 = Ok (K2', J2', lab2') ->
  (forall x y, jpixel JByte J1 bin1 x y = Some 1 -> jpixel JInt J2' lab2' (x + fst v) (y + snd v) = jpixel JInt J1' lab1' x y) /\
  nc_contours K2' = nc_contours K1' /\ zlen (jp_sets (nc_points K2')) = zlen (jp_sets (nc_points K1')) /\
  forall i, 0 <= i < zlen (jp_sets (nc_points K1')) -> exists l, java_set (nc_points K1') i l /\ java_set (nc_points K2') i (map (moved v) l).
Proof. exact java_moved. Qed.
Print Assumptions C120_java_moved.

(** A pixel and the same one in a larger image; a finder used before and a new one. *)
Definition wj1 : jvm := mkJvm [[1]; [7]] [].
Definition wj2 : jvm := mkJvm [[0;0;0;1;0;0]; [7]] [].
Definition wb1 : jimage := mkJimage 1 1 0 1 false 0.
Definition wb2 : jimage := mkJimage 3 2 0 3 false 0.
Definition wl : jimage := mkJimage 1 1 0 1 false 1.
Definition wq : jqueue := mkJq [[7; 7]] 0 1.
Ltac jarray := eexists; split; [reflexivity|]; split; [vm_compute; discriminate|];
  split; [repeat apply Forall_cons; try apply Forall_nil; cbn; lia|intros _ _; vm_compute; discriminate].
Ltac jvalid_tac := split; [cbn; lia|cbn; lia|cbn; lia|cbn; try discriminate; auto|jarray].
Ltac jargs_tac := split; [jvalid_tac|jvalid_tac|reflexivity|discriminate|cbn; tauto|cbn; lia].
Lemma wargs1 : nc_args (fun n => n) wq 4 wj1 wb1 wl.
Proof.
  split; [jargs_tac| |cbn; lia|cbn; lia|intros; lia|exists [7; 7]; vm_compute; intuition congruence|cbn; lia].
  intros x y v E. unfold jpixel in E. cbn [ji_width ji_height wb1 ji_array] in E. destruct (_ && _) eqn:I; [|discriminate].
  assert (x = 0) as -> by lia. assert (y = 0) as -> by lia. cbn in E. injection E as <-. auto.
Qed.
Lemma wargs2 : nc_args (fun n => n) wq 24 wj2 wb2 wl.
Proof.
  split; [jargs_tac| |cbn; lia|cbn; lia|intros; lia|exists [7; 7]; vm_compute; intuition congruence|cbn; lia].
  intros x y v E. unfold jpixel in E. cbn [ji_width ji_height wb2 ji_array] in E. destruct (_ && _) eqn:I; [|discriminate].
  assert (x = 0 \/ x = 1 \/ x = 2) as X by lia. assert (y = 0 \/ y = 1) as Y by lia.
  destruct X as [->|[->| ->]], Y as [->| ->]; cbn in E; injection E as <-; auto.
Qed.
Example C120_java_ex : jused nc_new /\ nc_args (fun n => n) wq 4 wj1 wb1 wl /\ nc_args (fun n => n) wq 24 wj2 wb2 wl /\
  js_min (settings (nc_lb nc_new)) = 0 /\ js_max (settings (nc_lb nc_new)) = 2147483647 /\
  (forall x y, jpixel JByte wj2 wb2 (x + 0) (y + 1) = Some 1 <-> jpixel JByte wj1 wb1 x y = Some 1) /\
  exists K1 J1 l1 K2 J2 l2, nc_process (fun n => n) wq 4 nc_new wj1 wb1 wl = Ok (K1, J1, l1) /\
    nc_process (fun n => n) wq 24 nc_new wj2 wb2 wl = Ok (K2, J2, l2).
Proof.
  split; [constructor|]. split; [exact wargs1|]. split; [exact wargs2|]. split; [reflexivity|]. split; [reflexivity|]. split.
  - intros x y. unfold jpixel. cbn [ji_width ji_height wb1 wb2 ji_array]. split.
    + destruct (_ && _) eqn:I; [|discriminate]. assert (x = 0 \/ x = 1 \/ x = 2) as X by lia. assert (y = -1 \/ y = 0) as Y by lia.
      destruct X as [->|[->| ->]], Y as [->| ->]; vm_compute; congruence.
    + destruct (_ && _) eqn:I; [|discriminate]. assert (x = 0) as -> by lia. assert (y = 0) as -> by lia. reflexivity.
  - destruct (P_Native.C86_labels _ _ _ nc_new _ _ _ ltac:(constructor) wargs1) as (K1 & J1 & l1 & _ & E1 & _).
    destruct (P_Native.C86_labels _ _ _ nc_new _ _ _ ltac:(constructor) wargs2) as (K2 & J2 & l2 & _ & E2 & _).
    exists K1, J1, l1, K2, J2, l2. auto.
Qed.

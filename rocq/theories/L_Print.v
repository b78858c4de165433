(** Lemmas about the text written by [print] and [print_kernel]. *)
From Coq Require Import Ascii String Reals Lia Lra Psatz Floats.SpecFloat.
From Flocq Require Import Core BinarySingleNaN.
From Verif Require Import BaseFacts M_Image S_Image L_Image M_Convolve S_Convolve M_GrowArray S_GrowArray M_KernelObj S_KernelObj S_Ieee L_Ieee M_Print S_Print.
From Verif Require L_KernelObj L_GrowArray S_Block.
Open Scope Z_scope.

(** ** Splitting *)
Lemma split_app c a b : ~ In c a -> split_at c (a ++ c :: b) = a :: split_at c b.
Proof.
  induction a as [|x a IH]; intros N; cbn; [now rewrite Ascii.eqb_refl|].
  destruct (Ascii.eqb_spec x c) as [->|D]; [destruct N; now left|]. rewrite IH; auto. intros I. apply N. now right.
Qed.
Lemma split_none c a : ~ In c a -> split_at c a = [a].
Proof.
  induction a as [|x a IH]; intros N; cbn; auto. destruct (Ascii.eqb_spec x c) as [->|D]; [destruct N; now left|].
  rewrite IH; auto. intros I. apply N. now right.
Qed.
Notation plain := one_word.
Lemma words_cons a b : plain a -> words (a ++ " "%char :: b) = a :: words b.
Proof. intros (H & N & _). unfold words. rewrite split_app by auto. cbn. destruct a; auto. now destruct H. Qed.
Lemma words_blank b : words (" "%char :: b) = words b.
Proof. reflexivity. Qed.
Lemma words_last a : plain a -> words a = [a].
Proof. intros (H & N & _). unfold words. rewrite split_none by auto. cbn. destruct a; auto. now destruct H. Qed.
Lemma words_blanks ws b : (forall w, In w ws -> plain w) -> words (flat_map (fun w => w ++ [" "%char]) ws ++ b) = ws ++ words b.
Proof.
  induction ws as [|w ws IH]; intros H; cbn [flat_map app]; auto. rewrite <- !app_assoc. cbn [app]. rewrite words_cons, IH; auto; intros; apply H; cbn; auto.
Qed.
Lemma words_blanks' ws b : (forall w, In w ws -> plain w) -> words (flat_map (fun w => " "%char :: w) ws ++ " "%char :: b) = ws ++ words b.
Proof.
  induction ws as [|w ws IH]; intros H; cbn [flat_map app]; auto. rewrite words_blank, <- app_assoc.
  destruct ws as [|v ws].
  - cbn [flat_map app]. rewrite words_cons; auto. apply H. now left.
  - cbn [flat_map app] in *. rewrite words_cons by (apply H; now left). rewrite words_blank in IH.
    rewrite IH by (intros; apply H; cbn in *; auto). reflexivity.
Qed.
Lemma lines_end ls b : (forall l, In l ls -> ~ In "010"%char l) -> lines (flat_map (fun l => l ++ ["010"%char]) ls ++ b) = ls ++ lines b.
Proof.
  induction ls as [|l ls IH]; intros H; cbn [flat_map app]; auto. rewrite <- !app_assoc. cbn [app]. unfold lines at 1. rewrite split_app by (apply H; now left).
  fold (lines (flat_map (fun l => l ++ ["010"%char]) ls ++ b)). rewrite IH; auto. intros; apply H; cbn; auto.
Qed.

(** ** Digits *)
Lemma digit_cases n : 0 <= n < 16 -> n = 0 \/ n = 1 \/ n = 2 \/ n = 3 \/ n = 4 \/ n = 5 \/ n = 6 \/ n = 7 \/ n = 8 \/ n = 9 \/ n = 10 \/ n = 11 \/ n = 12 \/ n = 13 \/ n = 14 \/ n = 15.
Proof. lia. Qed.
Lemma digit_ok n : 0 <= n < 16 -> digit_value (digit n) = Some n.
Proof. intros H. apply digit_cases in H. repeat (destruct H as [-> | H]; [reflexivity|]). now subst. Qed.
Lemma digit_good n : 0 <= n < 16 -> digit n <> " "%char /\ digit n <> "010"%char /\ digit n <> "-"%char /\ digit n <> "+"%char.
Proof. intros H. apply digit_cases in H. repeat (destruct H as [-> | H]; [repeat split; discriminate|]). subst. repeat split; discriminate. Qed.
Lemma read_app b a t s : read_from b a (t ++ s) = match read_from b a t with Some v => read_from b v s | None => None end.
Proof. revert a. induction t as [|c t IH]; intros a; cbn; auto. destruct (digit_value c); auto. destruct (_ <? _); auto. Qed.
Lemma digits_acc k b n acc : digits_in k b n acc = digits_in k b n [] ++ acc.
Proof.
  revert n acc. induction k as [|k IH]; intros n acc; cbn [digits_in]; auto. destruct (n / b =? 0); auto.
  rewrite IH, (IH _ [_]). now rewrite <- app_assoc.
Qed.
Lemma digits_read k b n : 2 <= b <= 16 -> 0 <= n < b ^ Z.of_nat k -> read_from b 0 (digits_in k b n []) = Some n.
Proof.
  intros Hb. revert n. induction k as [|k IH]; intros n Hn; [cbn in Hn; cbn; f_equal; lia|]. cbn [digits_in].
  pose proof (Z.mod_pos_bound n b ltac:(lia)) as M. pose proof (Z.div_mod n b ltac:(lia)) as D.
  destruct (Z.eqb_spec (n / b) 0) as [E|E].
  - cbn [read_from]. rewrite digit_ok by lia. replace (n mod b <? b) with true by lia. f_equal. nia.
  - rewrite digits_acc, read_app, IH.
    + cbn [read_from]. rewrite digit_ok by lia. replace (n mod b <? b) with true by lia. f_equal. lia.
    + rewrite Nat2Z.inj_succ, Z.pow_succ_r in Hn by lia. split; [apply Z.div_pos; lia|apply Z.div_lt_upper_bound; lia].
Qed.
Lemma digits_len k b n acc : (0 < k)%nat -> 0 < zlen (digits_in k b n acc).
Proof. destruct k; [lia|]. intros _. cbn [digits_in]. destruct (_ =? _); [rewrite zlen_cons; pose proof (zlen_nonneg acc); lia|].
  rewrite digits_acc, zlen_app, zlen_cons. pose proof (zlen_nonneg (digits_in k b (n / b) [])). pose proof (zlen_nonneg acc). lia. Qed.
Lemma digits_chars k b n : 2 <= b <= 16 -> forall c, In c (digits_in k b n []) -> exists d, 0 <= d < 16 /\ c = digit d.
Proof.
  intros Hb. revert n. induction k as [|k IH]; intros n c; cbn [digits_in]; [intros []|].
  assert (M : 0 <= n mod b < 16) by (pose proof (Z.mod_pos_bound n b ltac:(lia)); lia).
  destruct (_ =? _); [intros [<-|[]]; eauto|]. rewrite digits_acc. intros I. apply in_app_or in I as [I|[<-|[]]]; eauto.
Qed.
Lemma digits_plain k b n : (0 < k)%nat -> 2 <= b <= 16 -> plain (digits_in k b n []).
Proof.
  intros Hk Hb. split; [|split].
  - intros E. pose proof (digits_len k b n [] Hk) as L. rewrite E in L. discriminate L.
  - intros I. destruct (digits_chars k b n Hb _ I) as (d & Hd & E). destruct (digit_good d Hd). congruence.
  - intros I. destruct (digits_chars k b n Hb _ I) as (d & Hd & E). destruct (digit_good d Hd) as (_ & ? & _). congruence.
Qed.
Lemma digits_base k b n : (0 < k)%nat -> 2 <= b <= 16 -> 0 <= n < b ^ Z.of_nat k -> read_base b (digits_in k b n []) = Some n.
Proof.
  intros Hk Hb Hn. unfold read_base. rewrite <- (digits_read k b n) by auto. destruct (digits_plain k b n Hk Hb) as (H & _).
  destruct (digits_in k b n []); auto. now destruct H.
Qed.
Lemma digits_unsigned k b n read : (0 < k)%nat -> 2 <= b <= 16 -> read_signed read (digits_in k b n []) = read (digits_in k b n []).
Proof.
  intros Hk Hb. destruct (digits_plain k b n Hk Hb) as (H & _). destruct (digits_in k b n []) as [|c r] eqn:E; [now destruct H|].
  cbn. destruct (digits_chars k b n Hb c) as (d & Hd & ->). { rewrite E. now left. } destruct (digit_good d Hd) as (_ & _ & N1 & N2).
  destruct (Ascii.eqb_spec (digit d) "-"%char); [contradiction|]. destruct (Ascii.eqb_spec (digit d) "+"%char); [contradiction|]. reflexivity.
Qed.

Lemma plain_app a b : plain a -> plain b -> plain (a ++ b).
Proof.
  intros (A1 & A2 & A3) (B1 & B2 & B3). split; [destruct a; [now destruct A1|discriminate]|]. split; intros I; apply in_app_or in I; tauto.
Qed.
Lemma plain_lit s : (forallb (fun c => negb (Ascii.eqb c " ") && negb (Ascii.eqb c "010")) (list_ascii_of_string s) && negb (match s with EmptyString => true | _ => false end))%bool = true -> plain (lit s).
Proof.
  unfold plain, lit. intros H. apply andb_true_iff in H as (H & N). rewrite forallb_forall in H. split; [destruct s; [discriminate|discriminate]|].
  split; intros I; specialize (H _ I); cbn in H; discriminate.
Qed.
Lemma fmt_d_ok v : read_decimal (fmt_d v) = Some (s32 (u32 v)) /\ plain (fmt_d v).
Proof.
  pose proof (s32_range (u32 v)) as R. unfold fmt_d. set (n := s32 (u32 v)) in *. destruct (Z.ltb_spec n 0).
  - split; [|apply plain_app; [apply plain_lit; reflexivity|apply digits_plain; lia]].
    change (read_decimal (lit "-" ++ digits_in 10 10 (- n) [])) with (option_map Z.opp (read_base 10 (digits_in 10 10 (- n) []))).
    rewrite digits_base by (try lia; change (10 ^ Z.of_nat 10) with 10000000000; lia). cbn. f_equal. lia.
  - split; [|apply digits_plain; lia]. unfold read_decimal. rewrite digits_unsigned by lia.
    apply digits_base; try lia; change (10 ^ Z.of_nat 10) with 10000000000; lia.
Qed.
Lemma fmt_02x_ok v : read_base 16 (fmt_02x v) = Some (u32 v) /\ 2 <= zlen (fmt_02x v) /\ plain (fmt_02x v).
Proof.
  assert (U : 0 <= u32 v < 4294967296) by (unfold u32; apply Z.mod_pos_bound; lia).
  assert (P := digits_plain 8 16 (u32 v) ltac:(lia) ltac:(lia)). assert (B := digits_base 8 16 (u32 v) ltac:(lia) ltac:(lia) ltac:(change (16 ^ Z.of_nat 8) with 4294967296; lia)).
  unfold fmt_02x. destruct (Z.ltb_spec (zlen (digits_in 8 16 (u32 v) [])) 2) as [L|L]; [|auto].
  split; [|split; [|apply plain_app; auto; apply plain_lit; reflexivity]].
  - rewrite <- B. unfold read_base. destruct (digits_in 8 16 (u32 v) []); [destruct P as (P & _); now destruct P|]. reflexivity.
  - rewrite zlen_app. pose proof (digits_len 8 16 (u32 v) [] ltac:(lia)). change (zlen (lit "0")) with 1. lia.
Qed.

(** ** Loops that write *)
Lemma choose {A} (P : Z -> A -> Prop) n : 0 <= n -> (forall i, 0 <= i < n -> exists v, P i v) ->
  exists vs, zlen vs = n /\ forall i, 0 <= i < n -> exists v, znth vs i = Some v /\ P i v.
Proof.
  intros Hn. revert n Hn. apply (natlike_ind (fun n => (forall i, 0 <= i < n -> exists v, P i v) -> exists vs, zlen vs = n /\ forall i, 0 <= i < n -> exists v, znth vs i = Some v /\ P i v)).
  - intros _. exists []. split; [reflexivity|lia].
  - intros n Hn IH H. destruct IH as (vs & L & Q); [intros; apply H; lia|]. destruct (H n ltac:(lia)) as (v & Pv). exists (vs ++ [v]).
    rewrite zlen_app, zlen_cons. zlen_nil. split; [lia|]. intros i Hi. destruct (Z.eq_dec i n) as [->|D].
    + exists v. split; auto. rewrite znth_app_r by lia. now replace (n - zlen vs) with 0 by lia.
    + destruct (Q i ltac:(lia)) as (w & E & Pw). exists w. split; auto. now rewrite znth_app_l by lia.
Qed.
Lemma firstn_next {A} (l : list A) i v : znth l i = Some v -> firstn (Z.to_nat (i + 1)) l = firstn (Z.to_nat i) l ++ [v].
Proof. exact (L_KernelObj.firstn_next l i v). Qed.
Lemma loop_text {A} n (body : Z -> text -> outcome text) (f : A -> text) (vs : list A) : 0 <= n -> zlen vs = n ->
  (forall i t v, 0 <= i < n -> znth vs i = Some v -> body i t = Ok (t ++ f v)) ->
  forall t0, for_range 0 n body t0 = Ok (t0 ++ flat_map f vs).
Proof.
  intros Hn L H t0. destruct (@for_range_inv text (fun i t => t = t0 ++ flat_map f (firstn (Z.to_nat i) vs)) 0 n body t0) as (t & -> & ->); auto.
  - cbn. now rewrite app_nil_r.
  - intros i t Hi ->. destruct (znth_in_range vs i ltac:(lia)) as (v & Ev). rewrite (H i _ v Hi Ev). eexists. split; [reflexivity|].
    rewrite (firstn_next vs i v Ev), flat_map_app. cbn. now rewrite app_nil_r, app_assoc.
  - do 2 f_equal. rewrite firstn_all2; auto. unfold zlen in L. lia.
Qed.

(** ** Images *)
Section Image.
Context {E : Type}.
Variables (fmt : E -> text) (g : gray E).
Hypothesis Hg : wf g.
Hypothesis Hf : forall x y v, pixel g x y = Some v -> one_word (fmt v).
Definition row_is (y : Z) (r : text) : Prop := exists vs, zlen vs = g_width g /\ (forall x v, znth vs x = Some v -> pixel g x y = Some v) /\
  r = lit "[ " ++ flat_map (fun v => fmt v ++ lit " ") vs ++ lit "]".
Lemma row_text y : 0 <= y < g_height g -> exists r, row_is y r /\ forall t,
  (let* t := for_range 0 (g_width g) (fun x t => let* v := gray_get g x y in Ok (t ++ fmt v ++ lit " ")) (t ++ lit "[ ") in
    Ok (t ++ lit "]" ++ [nl])) = Ok (t ++ r ++ [nl]).
Proof.
  intros Hy. assert (W : 0 <= g_width g) by (destruct Hg as (? & _); lia).
  destruct (choose (fun x v => gray_get g x y = Ok v /\ pixel g x y = Some v) (g_width g) W) as (vs & L & Q).
  { intros x Hx. destruct (gray_get_inside g x y Hg) as (v & G & P); [split; lia|]. eauto. }
  exists (lit "[ " ++ flat_map (fun v => fmt v ++ lit " ") vs ++ lit "]"). split.
  - exists vs. split; auto. split; auto. intros x v Ev. pose proof (znth_Some_range _ _ _ Ev). destruct (Q x ltac:(lia)) as (v' & E1 & _ & P). congruence.
  - intros t. rewrite (loop_text (g_width g) _ (fun v => fmt v ++ lit " ") vs W L).
    + cbn [bind]. now rewrite <- !app_assoc.
    + intros x t' v Hx Ev. destruct (Q x ltac:(lia)) as (v' & E1 & G & P). rewrite G. cbn [bind]. congruence.
Qed.
Lemma row_words y r : row_is y r -> exists toks, words r = word "[" :: toks ++ [word "]"] /\ zlen toks = g_width g /\
  forall x tok, znth toks x = Some tok -> exists v, pixel g x y = Some v /\ tok = fmt v.
Proof.
  intros (vs & L & P & ->). exists (map fmt vs). split; [|split].
  - change (lit "[ ") with (word "[" ++ " "%char :: []). rewrite <- app_assoc. cbn [app]. rewrite words_cons by (apply plain_lit; reflexivity). f_equal.
    replace (flat_map (fun v => fmt v ++ lit " ") vs) with (flat_map (fun w => w ++ [" "%char]) (map fmt vs)) by (rewrite !flat_map_concat_map, map_map; reflexivity).
    rewrite words_blanks; [reflexivity|]. intros w I. apply in_map_iff in I as (v & <- & I). apply In_znth in I as (x & I). eapply Hf. eauto.
  - unfold zlen. rewrite map_length. exact L.
  - intros x tok. rewrite znth_map. destruct (znth vs x) as [v|] eqn:Ev; [|discriminate]. intros [= <-]. eauto.
Qed.
Lemma row_line y r : row_is y r -> ~ In "010"%char r.
Proof.
  intros (vs & L & P & ->) I. apply in_app_or in I as [I|I]; [cbn in I; intuition discriminate|]. apply in_app_or in I as [I|I]; [|cbn in I; intuition discriminate].
  apply in_flat_map in I as (v & Iv & I). apply In_znth in Iv as (x & Ev). apply in_app_or in I as [I|I]; [|cbn in I; intuition discriminate].
  destruct (Hf _ _ _ (P _ _ Ev)) as (_ & _ & N). auto.
Qed.
Lemma image_text : exists t hdr rows tw th, print_image fmt g = Ok t /\ lines t = hdr :: rows ++ [[]; []] /\
  words hdr = [word "image"; tw; word "x"; th] /\ read_decimal tw = Some (s32 (u32 (g_width g))) /\ read_decimal th = Some (s32 (u32 (g_height g))) /\
  zlen rows = g_height g /\ forall y row, znth rows y = Some row -> exists toks, words row = word "[" :: toks ++ [word "]"] /\ zlen toks = g_width g /\
    forall x tok, znth toks x = Some tok -> exists v, pixel g x y = Some v /\ tok = fmt v.
Proof.
  assert (H : 0 <= g_height g) by (destruct Hg as (_ & ? & _); lia).
  destruct (choose (fun y r => row_is y r /\ forall t,
    (let* t := for_range 0 (g_width g) (fun x t => let* v := gray_get g x y in Ok (t ++ fmt v ++ lit " ")) (t ++ lit "[ ") in
      Ok (t ++ lit "]" ++ [nl])) = Ok (t ++ r ++ [nl])) (g_height g) H row_text) as (rows & L & Q).
  destruct (fmt_d_ok (g_width g)) as (Dw & Pw), (fmt_d_ok (g_height g)) as (Dh & Ph).
  set (hdr := lit "image " ++ fmt_d (g_width g) ++ lit " x " ++ fmt_d (g_height g)).
  assert (R : forall y r, znth rows y = Some r -> row_is y r).
  { intros y r Er. pose proof (znth_Some_range _ _ _ Er). destruct (Q y ltac:(lia)) as (r' & E1 & B & _). congruence. }
  exists (flat_map (fun l => l ++ ["010"%char]) (hdr :: rows) ++ ["010"%char]), hdr, rows, (fmt_d (g_width g)), (fmt_d (g_height g)).
  split; [|split; [|split; [|split; [auto|split; [auto|split; [auto|]]]]]].
  - unfold print_image. rewrite (loop_text (g_height g) _ (fun r => r ++ [nl]) rows H L).
    + cbn [bind flat_map]. unfold hdr. now rewrite <- !app_assoc.
    + intros y t r Hy Er. destruct (Q y Hy) as (r' & E1 & _ & B). pose proof (eq_trans (eq_sym Er) E1) as X. injection X as ->. exact (B t).
  - rewrite lines_end; [reflexivity|]. intros l [<-|I].
    + unfold hdr. intros I. apply in_app_or in I as [I|I]; [cbn in I; intuition discriminate|]. apply in_app_or in I as [I|I]; [now apply Pw in I|].
      apply in_app_or in I as [I|I]; [cbn in I; intuition discriminate|now apply Ph in I].
    + apply In_znth in I as (y & I). eapply row_line; eauto.
  - unfold hdr. change (lit "image ") with (word "image" ++ " "%char :: []). rewrite <- app_assoc. cbn [app]. rewrite words_cons by (apply plain_lit; reflexivity).
    change (lit " x ") with (" "%char :: word "x" ++ " "%char :: []). cbn [app]. rewrite words_cons by auto. rewrite <- app_assoc. cbn [app].
    change ("x"%char :: " "%char :: fmt_d (g_height g)) with (word "x" ++ " "%char :: fmt_d (g_height g)).
    rewrite words_cons by (apply plain_lit; reflexivity). now rewrite words_last.
  - intros y r Er. eapply row_words; eauto.
Qed.
End Image.

(** ** Images of integers *)
Lemma int_text g : wf g -> exists t hdr rows tw th, print_int g = Ok t /\ lines t = hdr :: rows ++ [[]; []] /\
  words hdr = [word "image"; tw; word "x"; th] /\ read_decimal tw = Some (s32 (u32 (g_width g))) /\ read_decimal th = Some (s32 (u32 (g_height g))) /\
  zlen rows = g_height g /\ forall y row, znth rows y = Some row -> exists toks, words row = word "[" :: toks ++ [word "]"] /\ zlen toks = g_width g /\
    forall x tok, znth toks x = Some tok -> exists v, pixel g x y = Some v /\ read_base 16 tok = Some (v mod 4294967296) /\ 2 <= zlen tok.
Proof.
  intros Hg. destruct (image_text fmt_02x g Hg) as (t & hdr & rows & tw & th & E & L & W & Dw & Dh & Lr & R); [intros; apply fmt_02x_ok|].
  exists t, hdr, rows, tw, th. do 6 (split; [assumption|]). intros y row Er. destruct (R y row Er) as (toks & W1 & L1 & P). exists toks.
  do 2 (split; [assumption|]). intros x tok Et. destruct (P x tok Et) as (v & Pv & ->). exists v. split; auto. destruct (fmt_02x_ok v) as (A & B & _). auto.
Qed.
Lemma image_ext {E} (fmt : E -> text) a b : wf a -> wf b -> g_width a = g_width b -> g_height a = g_height b -> (forall x y, inside a x y -> pixel a x y = pixel b x y) ->
  print_image fmt a = print_image fmt b.
Proof.
  intros Wa Wb Ew Eh H. unfold print_image. rewrite Ew, Eh.
  replace (for_range 0 (g_height b) (fun y t => let* t := for_range 0 (g_width b) (fun x t => let* v := gray_get a x y in Ok (t ++ fmt v ++ lit " ")) (t ++ lit "[ ") in Ok (t ++ lit "]" ++ [nl])) (lit "image " ++ fmt_d (g_width b) ++ lit " x " ++ fmt_d (g_height b) ++ [nl]))
    with (for_range 0 (g_height b) (fun y t => let* t := for_range 0 (g_width b) (fun x t => let* v := gray_get b x y in Ok (t ++ fmt v ++ lit " ")) (t ++ lit "[ ") in Ok (t ++ lit "]" ++ [nl])) (lit "image " ++ fmt_d (g_width b) ++ lit " x " ++ fmt_d (g_height b) ++ [nl])); auto.
  apply for_range_ext. intros y t Hy. f_equal. apply for_range_ext. intros x t' Hx.
  destruct (gray_get_inside a x y Wa) as (v & G & P); [split; lia|]. destruct (gray_get_inside b x y Wb) as (v' & G' & P'); [split; lia|].
  rewrite H in P by (split; lia). rewrite G, G'. congruence.
Qed.
Lemma same_text t a b : ity_max t - ity_min t < 4294967296 -> wf a -> wf b -> S_Block.typed t a -> S_Block.typed t b ->
  (print_int a = print_int b <-> g_width a = g_width b /\ g_height a = g_height b /\ forall x y, inside a x y -> pixel a x y = pixel b x y).
Proof.
  intros Ht Wa Wb Ta Tb. split; [|intros (E1 & E2 & H); unfold print_int; apply image_ext; auto].
  intros Eq. destruct (int_text a Wa) as (ta & ha & ra & wa & qa & Ea & La & Ha & Dwa & Dha & Na & Ra), (int_text b Wb) as (tb & hb & rb & wb & qb & Eb & Lb & Hb & Dwb & Dhb & Nb & Rb).
  assert (ta = tb) by congruence. subst tb. rewrite La in Lb. injection Lb as <- Lb. apply app_inv_tail in Lb. subst rb.
  rewrite Ha in Hb. injection Hb as <- <-. rewrite Dwa in Dwb. rewrite Dha in Dhb.
  assert (U : 0 <= g_width a < 4294967296 /\ 0 <= g_height a < 4294967296 /\ 0 <= g_width b < 4294967296 /\ 0 <= g_height b < 4294967296)
    by (destruct Wa as (? & ? & _), Wb as (? & ? & _); lia).
  assert (Ew : g_width a = g_width b) by (injection Dwb as X; unfold s32, u32 in X; lia).
  assert (Eh : g_height a = g_height b) by (injection Dhb as X; unfold s32, u32 in X; lia).
  split; [exact Ew|]. split; [exact Eh|]. intros x y [Ix Iy].
  destruct (znth_in_range ra y ltac:(lia)) as (row & Er). destruct (Ra y row Er) as (ka & Ka & Lka & Pa), (Rb y row Er) as (kb & Kb & Lkb & Pb).
  rewrite Ka in Kb. injection Kb as Kb. apply app_inv_tail in Kb. subst kb.
  destruct (znth_in_range ka x ltac:(lia)) as (tok & Et). destruct (Pa x tok Et) as (v & Pv & Rv & _), (Pb x tok Et) as (v' & Pv' & Rv' & _).
  rewrite Pv, Pv'. f_equal. rewrite Rv in Rv'. injection Rv' as X. pose proof (Ta x y v Pv). pose proof (Tb x y v' Pv'). lia.
Qed.

(** ** Kernels *)
Definition coefs {E} (k : kobj E) (l : list E) : Prop := ga_size (ko_data k) = zlen l /\ kcoefs k = map Some l.
Lemma coef_get {E} (k : kobj E) l i v : coefs k l -> znth l i = Some v -> ga_idx (ko_data k) i = Ok v.
Proof.
  intros (S & C) Ev. pose proof (znth_Some_range _ _ _ Ev) as Hi. unfold ga_idx.
  assert (X : znth (kcoefs k) i = Some (Some v)) by (rewrite C, znth_map, Ev; reflexivity).
  unfold kcoefs, ga_seq in X. rewrite L_GrowArray.znth_firstn in X by lia. now rewrite X.
Qed.
Lemma words_first a ws b : plain a -> (forall w, In w ws -> plain w) -> words (a ++ flat_map (fun w => " "%char :: w) ws ++ " "%char :: b) = a :: ws ++ words b.
Proof.
  intros Ha H. rewrite <- (words_blanks' ws b H). destruct ws as [|w ws]; cbn [flat_map app]; rewrite words_cons by auto; rewrite words_blank; reflexivity.
Qed.
Lemma words_tail ws : (forall w, In w ws -> plain w) -> words (flat_map (fun w => " "%char :: w) ws) = ws.
Proof.
  induction ws as [|w ws IH]; intros H; [reflexivity|]. cbn [flat_map app]. rewrite words_blank. destruct ws as [|v ws].
  - cbn [flat_map app]. rewrite app_nil_r. apply words_last. apply H. now left.
  - cbn [flat_map app] in *. rewrite words_cons by (apply H; now left). rewrite words_blank in IH. rewrite IH; auto. intros u Iu. apply H. now right.
Qed.
Lemma blanks_map {E} (fmt : E -> text) l : flat_map (fun v => lit " " ++ fmt v) l = flat_map (fun w => " "%char :: w) (map fmt l).
Proof. rewrite !flat_map_concat_map, map_map. reflexivity. Qed.
Lemma blanks_line ws : (forall w, In w ws -> plain w) -> ~ In "010"%char (flat_map (fun w => " "%char :: w) ws).
Proof. intros H I. apply in_flat_map in I as (w & Iw & [I|I]); [discriminate|]. now apply H in Iw as (_ & _ & N). Qed.
Lemma kernel1_text {E} (fmt : E -> text) k l : coefs k l -> ko_width k = zlen l -> (forall v, In v l -> one_word (fmt v)) ->
  exists t line, print_kernel1 fmt k = Ok t /\ lines t = [line; []] /\ words line = word "Kernel1D[" :: map fmt l ++ [word "]"].
Proof.
  intros C W H. assert (H' : forall w, In w (map fmt l) -> plain w) by (intros w I; apply in_map_iff in I as (v & <- & I); auto).
  exists ((lit "Kernel1D[" ++ flat_map (fun v => lit " " ++ fmt v) l ++ lit " ]") ++ ["010"%char]), (lit "Kernel1D[" ++ flat_map (fun v => lit " " ++ fmt v) l ++ lit " ]").
  split; [|split].
  - unfold print_kernel1. rewrite W. rewrite (loop_text (zlen l) _ (fun v => lit " " ++ fmt v) l (zlen_nonneg l) eq_refl).
    + cbn [bind]. now rewrite <- !app_assoc.
    + intros i t v Hi Ev. unfold ko_idx. now rewrite (coef_get k l i v C Ev).
  - unfold lines. rewrite split_app; [reflexivity|]. intros I. apply in_app_or in I as [I|I]; [cbn in I; intuition discriminate|].
    rewrite blanks_map in I. apply in_app_or in I as [I|I]; [now apply blanks_line in I|cbn in I; intuition discriminate].
  - rewrite blanks_map. change (lit " ]") with (" "%char :: word "]"). rewrite words_first; auto. apply plain_lit. reflexivity.
Qed.
Lemma kernel2_text {E} (fmt : E -> text) k l : coefs k l -> zlen l = ko_width k * ko_width k -> 0 <= ko_width k < 65536 -> (forall v, In v l -> one_word (fmt v)) ->
  exists t hdr rows to tw, print_kernel2 fmt k = Ok t /\ lines t = hdr :: rows ++ [[]] /\
    words hdr = [word "Kernel2D{"; word "offset=" ++ to ++ word ","; word "width=" ++ tw; word "}"] /\
    read_decimal to = Some (s32 (u32 (ko_offset k))) /\ read_decimal tw = Some (ko_width k) /\
    zlen rows = ko_width k /\ forall y row, znth rows y = Some row -> zlen (words row) = ko_width k /\
      forall x tok, znth (words row) x = Some tok -> exists v, znth l (y * ko_width k + x) = Some v /\ tok = fmt v.
Proof.
  intros C Ln W H. set (w := ko_width k) in *. destruct (fmt_d_ok (ko_offset k)) as (Do & Po), (fmt_d_ok w) as (Dw & Pw).
  rewrite s32_u32 in Dw by lia.
  assert (ROW : forall y, 0 <= y < w -> exists r, (zlen (words r) = w /\ ~ In "010"%char r /\ forall x tok, znth (words r) x = Some tok -> exists v, znth l (y * w + x) = Some v /\ tok = fmt v) /\ forall t,
    (let* t := for_range 0 w (fun x t => let* v := ga_idx (ko_data k) (u32 (y * w + x)) in Ok (t ++ lit " " ++ fmt v)) (t ++ lit " ") in Ok (t ++ [nl])) = Ok (t ++ r ++ [nl])).
  { intros y Hy. destruct (choose (fun x v => znth l (y * w + x) = Some v) w ltac:(lia)) as (vs & L & Q).
    { intros x Hx. apply znth_in_range. nia. }
    assert (Hv : forall u, In u (map fmt vs) -> plain u).
    { intros u I. apply in_map_iff in I as (v & <- & I). apply In_znth in I as (x & Ex). pose proof (znth_Some_range _ _ _ Ex).
      destruct (Q x ltac:(lia)) as (v' & Ev & Ev'). apply H. apply (znth_In _ (y * w + x)). congruence. }
    exists (" "%char :: flat_map (fun w => " "%char :: w) (map fmt vs)). rewrite words_blank, words_tail by auto. split; [split; [|split]|].
    - unfold zlen. rewrite map_length. exact L.
    - intros [I|I]; [discriminate|]. now apply blanks_line in I.
    - intros x tok. rewrite znth_map. destruct (znth vs x) as [v|] eqn:Ev; [|discriminate]. intros [= <-]. pose proof (znth_Some_range _ _ _ Ev).
      destruct (Q x ltac:(lia)) as (v' & Ev' & Ex). exists v. split; congruence.
    - intros t. rewrite (loop_text w _ (fun v => lit " " ++ fmt v) vs ltac:(lia) L).
      + cbn [bind]. rewrite blanks_map, <- !app_assoc. reflexivity.
      + intros x t' v Hx Ev. destruct (Q x Hx) as (v' & Ev' & Ex). assert (v' = v) by congruence. subst v'. pose proof (znth_Some_range _ _ _ Ex).
        rewrite u32_id by nia. now rewrite (coef_get k l _ v C Ex). }
  destruct (choose _ w ltac:(lia) ROW) as (rows & Lr & Q). clear ROW.
  set (hdr := lit "Kernel2D{ offset=" ++ fmt_d (ko_offset k) ++ lit ", width=" ++ fmt_d w ++ lit " }").
  exists (flat_map (fun l => l ++ ["010"%char]) (hdr :: rows)), hdr, rows, (fmt_d (ko_offset k)), (fmt_d w).
  assert (R : forall y r, znth rows y = Some r -> zlen (words r) = w /\ ~ In "010"%char r /\ forall x tok, znth (words r) x = Some tok -> exists v, znth l (y * w + x) = Some v /\ tok = fmt v).
  { intros y r Er. pose proof (znth_Some_range _ _ _ Er). destruct (Q y ltac:(lia)) as (r' & E1 & B & _). pose proof (eq_trans (eq_sym Er) E1) as X. now injection X as ->. }
  split; [|split; [|split; [|split; [auto|split; [auto|split; [auto|]]]]]].
  - unfold print_kernel2. fold w. rewrite (loop_text w _ (fun r => r ++ [nl]) rows ltac:(lia) Lr).
    + cbn [flat_map]. unfold hdr. now rewrite <- !app_assoc.
    + intros y t r Hy Er. destruct (Q y Hy) as (r' & E1 & _ & B). pose proof (eq_trans (eq_sym Er) E1) as X. injection X as ->. exact (B t).
  - rewrite <- (app_nil_r (flat_map _ _)). rewrite lines_end; [reflexivity|]. intros r [<-|I].
    + unfold hdr. intros I. apply in_app_or in I as [I|I]; [cbn in I; intuition discriminate|]. apply in_app_or in I as [I|I]; [now apply Po in I|].
      apply in_app_or in I as [I|I]; [cbn in I; intuition discriminate|]. apply in_app_or in I as [I|I]; [now apply Pw in I|cbn in I; intuition discriminate].
    + apply In_znth in I as (y & I). now apply R in I.
  - unfold hdr. change (lit "Kernel2D{ offset=") with (word "Kernel2D{" ++ " "%char :: word "offset="). change (lit ", width=") with (word "," ++ " "%char :: word "width=").
    change (lit " }") with (" "%char :: word "}"). rewrite <- !app_assoc. cbn [app]. rewrite words_cons by (apply plain_lit; reflexivity). f_equal.
    rewrite <- ?app_assoc, ?app_comm_cons.
    replace (words _) with (words ((word "offset=" ++ fmt_d (ko_offset k) ++ word ",") ++ " "%char :: (word "width=" ++ fmt_d w) ++ " "%char :: word "}")) by (f_equal; rewrite <- !app_assoc; reflexivity).
    rewrite words_cons by (repeat apply plain_app; auto; apply plain_lit; reflexivity). f_equal.
    rewrite words_cons by (apply plain_app; auto; apply plain_lit; reflexivity). f_equal.
  - intros y r Er. destruct (R y r Er) as (A & _ & B). auto.
Qed.

(** ** Floats *)
Lemma exponent_read k : Z.abs k < 1000 ->
  let t := digits_in 3 10 (Z.abs k) [] in let t' := if zlen t <? 2 then lit "0" ++ t else t in read_base 10 t' = Some (Z.abs k) /\ plain t'.
Proof.
  intros Hk. cbn zeta. assert (B := digits_base 3 10 (Z.abs k) ltac:(lia) ltac:(lia) ltac:(change (10 ^ Z.of_nat 3) with 1000; lia)).
  assert (P := digits_plain 3 10 (Z.abs k) ltac:(lia) ltac:(lia)). destruct (zlen _ <? 2); auto. split; [|apply plain_app; auto; apply plain_lit; reflexivity].
  rewrite <- B. unfold read_base. destruct (digits_in 3 10 (Z.abs k) []); [destruct P as (P & _); now destruct P|]. reflexivity.
Qed.
Lemma sci_ok n k : 0 <= n < 100000 -> Z.abs k < 1000 -> read_plain (sci n k) = Some (n, k) /\ plain (sci n k) /\
  exists c r, sci n k = c :: r /\ c <> "-"%char.
Proof.
  intros Hn Hk. destruct (exponent_read k Hk) as (B & P). cbn zeta in B, P. unfold sci. cbn zeta.
  set (f := n mod 10000). assert (Hf : 0 <= f < 10000) by (apply Z.mod_pos_bound; lia).
  set (t := if zlen (digits_in 3 10 (Z.abs k) []) <? 2 then lit "0" ++ digits_in 3 10 (Z.abs k) [] else digits_in 3 10 (Z.abs k) []) in *.
  assert (D0 : 0 <= n / 10000 < 10) by (pose proof (Z.div_mod n 10000 ltac:(lia)); fold f in H; lia).
  assert (D1 : 0 <= f / 1000 < 10) by (split; [apply Z.div_pos; lia|apply Z.div_lt_upper_bound; lia]).
  assert (D2 : 0 <= f / 100 mod 10 < 10) by (apply Z.mod_pos_bound; lia). assert (D3 : 0 <= f / 10 mod 10 < 10) by (apply Z.mod_pos_bound; lia).
  assert (D4 : 0 <= f mod 10 < 10) by (apply Z.mod_pos_bound; lia).
  assert (V : ((((0 * 10 + n / 10000) * 10 + f / 1000) * 10 + f / 100 mod 10) * 10 + f / 10 mod 10) * 10 + f mod 10 = n) by (subst f; lia).
  assert (G : forall d, 0 <= d < 10 -> plain [digit d]).
  { intros d Hd. destruct (digit_good d ltac:(lia)) as (G1 & G2 & _). split; [discriminate|]. split; intros [I|[]]; congruence. }
  split; [|split].
  - unfold lit. cbn [list_ascii_of_string app]. unfold read_plain. rewrite !Ascii.eqb_refl. cbn [andb]. unfold read_base. cbn [read_from].
    rewrite !digit_ok by lia. replace (n / 10000 <? 10) with true by lia. replace (f / 1000 <? 10) with true by lia. replace (f / 100 mod 10 <? 10) with true by lia.
    replace (f / 10 mod 10 <? 10) with true by lia. replace (f mod 10 <? 10) with true by lia. rewrite V.
    destruct (Z.ltb_spec k 0).
    + change (read_decimal (list_ascii_of_string "-" ++ t)) with (option_map Z.opp (read_base 10 t)). rewrite B. cbn. do 2 f_equal. lia.
    + change (read_decimal (list_ascii_of_string "+" ++ t)) with (read_base 10 t). rewrite B. do 2 f_equal. lia.
  - change (digit (n / 10000) :: ?r) with ([digit (n / 10000)] ++ r). apply plain_app; [auto|]. apply plain_app; [apply plain_lit; reflexivity|].
    apply plain_app. { change [digit (f / 1000); digit (f / 100 mod 10); digit (f / 10 mod 10); digit (f mod 10)] with ([digit (f / 1000)] ++ [digit (f / 100 mod 10)] ++ [digit (f / 10 mod 10)] ++ [digit (f mod 10)]). repeat apply plain_app; auto. }
    apply plain_app; [apply plain_lit; reflexivity|]. apply plain_app; auto. destruct (k <? 0); apply plain_lit; reflexivity.
  - eexists _, _. split; [reflexivity|]. now destruct (digit_good (n / 10000) ltac:(lia)) as (_ & _ & G1 & _).
Qed.

Local Open Scope R_scope.
Lemma power_split b j : (0 < b)%Z -> IZR (b ^ Z.max j 0) = IZR (b ^ Z.max (- j) 0) * powerRZ (IZR b) j.
Proof.
  intros Hb. assert (B : IZR b <> 0) by (apply not_0_IZR; lia). destruct j as [|p|p].
  - change (Z.max 0 0) with 0%Z. change (Z.max (- 0) 0) with 0%Z. cbn [powerRZ]. ring.
  - change (Z.max (Zpos p) 0) with (Zpos p). change (Z.max (- Zpos p) 0) with 0%Z. cbn [powerRZ]. rewrite pow_IZR, positive_nat_Z. cbn [Z.pow]. lra.
  - change (Z.max (Zneg p) 0) with 0%Z. change (Z.max (- Zneg p) 0) with (Zpos p). cbn [powerRZ]. rewrite pow_IZR, positive_nat_Z.
    change (b ^ 0)%Z with 1%Z. rewrite Rinv_r; auto. apply not_0_IZR. pose proof (Z.pow_pos_nonneg b (Zpos p) Hb ltac:(lia)). lia.
Qed.
Lemma ratio_val m e j p q : ratio m e j = (p, q) -> (0 < q)%Z /\ IZR p = IZR q * (IZR m * powerRZ 2 e * powerRZ 10 j).
Proof.
  unfold ratio. intros [= <- <-]. split.
  - pose proof (Z.pow_pos_nonneg 2 (Z.max (- e) 0) ltac:(lia) ltac:(lia)). pose proof (Z.pow_pos_nonneg 10 (Z.max (- j) 0) ltac:(lia) ltac:(lia)). nia.
  - rewrite !mult_IZR, (power_split 2 e), (power_split 10 j) by lia. ring.
Qed.
Lemma ten_pos j : 0 < powerRZ 10 j. Proof. apply powerRZ_lt. lra. Qed.
Lemma ten_add i j : powerRZ 10 (i + j) = powerRZ 10 i * powerRZ 10 j. Proof. apply powerRZ_add. lra. Qed.
Lemma ten_cancel j : powerRZ 10 (- j) * powerRZ 10 j = 1.
Proof. rewrite <- ten_add. replace (- j + j)%Z with 0%Z by lia. reflexivity. Qed.
Lemma ratio_lt m e k p q : ratio m e (- k) = (p, q) -> (p <? q)%Z = true <-> IZR m * powerRZ 2 e < powerRZ 10 k.
Proof.
  intros E. destruct (ratio_val _ _ _ _ _ E) as (Hq & V). set (v := IZR m * powerRZ 2 e) in *. pose proof (ten_pos k) as T. pose proof (ten_cancel k) as TC.
  assert (Q : 0 < IZR q) by (now apply IZR_lt). rewrite Z.ltb_lt. split; intros H.
  - apply IZR_lt in H. rewrite V in H. assert (v * powerRZ 10 (- k) < 1) by nra. assert (v = v * powerRZ 10 (- k) * powerRZ 10 k) by (rewrite Rmult_assoc, TC; ring). nra.
  - apply lt_IZR. rewrite V. pose proof (ten_pos (- k)). assert (v * powerRZ 10 (- k) < 1) by nra. nra.
Qed.
Lemma ten_le i j : (i <= j)%Z -> powerRZ 10 i <= powerRZ 10 j.
Proof.
  intros H. replace j with (i + (j - i))%Z by lia. rewrite ten_add. pose proof (ten_pos i). assert (1 <= powerRZ 10 (j - i)); [|nra].
  replace (j - i)%Z with (Z.of_nat (Z.to_nat (j - i))) by lia. rewrite <- pow_powerRZ. apply pow_R1_Rle. lra.
Qed.
Lemma exponent_ok fuel m e k : powerRZ 10 k <= IZR m * powerRZ 2 e < powerRZ 10 (k + Z.of_nat fuel) ->
  let r := decimal_exponent fuel m e k in powerRZ 10 r <= IZR m * powerRZ 2 e < powerRZ 10 (r + 1) /\ (k <= r < k + Z.of_nat fuel)%Z.
Proof.
  revert k. induction fuel as [|n IH]; intros k [L U]; cbn [decimal_exponent]; cbn zeta.
  - rewrite Z.add_0_r in U. lra.
  - destruct (ratio m e (- (k + 1))) as [p q] eqn:E. pose proof (ratio_lt _ _ _ _ _ E) as RL. destruct (Z.ltb_spec p q) as [H|H].
    + split; [split; [exact L|now apply RL]|lia].
    + assert (NL : powerRZ 10 (k + 1) <= IZR m * powerRZ 2 e) by (apply Rnot_lt_le; intros X; apply RL in X; discriminate).
      destruct (IH (k + 1)%Z) as (A & B); [split; [exact NL|]; replace (k + 1 + Z.of_nat n)%Z with (k + Z.of_nat (S n))%Z by lia; exact U|]. split; [exact A|lia].
Qed.
Lemma exponent_start_ok m e : powerRZ 10 (-324) <= IZR m * powerRZ 2 e -> (-324 <= exponent_start m e)%Z /\ powerRZ 10 (exponent_start m e) <= IZR m * powerRZ 2 e.
Proof.
  intros L. unfold exponent_start. cbn zeta. set (k := Z.max _ _). assert (-324 <= k)%Z by (unfold k; lia).
  destruct (ratio m e (- k)) as [p q] eqn:E. pose proof (ratio_lt _ _ _ _ _ E) as RL. destruct (p <? q)%Z; [split; [lia|exact L]|].
  split; auto. apply Rnot_lt_le. intros X. apply RL in X. discriminate.
Qed.
Lemma nearest_even_ok p q : (0 < q)%Z -> (Z.abs (2 * (nearest_even p q * q - p)) <= q)%Z.
Proof.
  intros Hq. unfold nearest_even. pose proof (Z.div_mod p q ltac:(lia)) as D. pose proof (Z.mod_pos_bound p q Hq) as M. set (d := (p / q)%Z) in *. set (r := (p mod q)%Z) in *. cbn zeta.
  destruct (Z.ltb_spec (2 * r) q); [nia|]. destruct (Z.ltb_spec q (2 * r)); [nia|]. destruct (Z.even d); nia.
Qed.
Lemma val_mag s m e : Rabs (val (S754_finite s m e)) = IZR (Zpos m) * powerRZ 2 e /\ val (S754_finite s m e) = (if s then - (IZR (Zpos m) * powerRZ 2 e) else IZR (Zpos m) * powerRZ 2 e).
Proof.
  assert (E : val (S754_finite s m e) = (if s then - (IZR (Zpos m) * powerRZ 2 e) else IZR (Zpos m) * powerRZ 2 e)).
  { unfold val, SF2R, F2R. cbn [Fnum Fexp]. rewrite bpow_powerRZ. change (IZR radix2) with 2. destruct s; cbn [cond_Zopp]; [|reflexivity].
    change (- Zpos m)%Z with (Zneg m). replace (IZR (Z.neg m)) with (- IZR (Zpos m)) by (symmetry; apply (opp_IZR (Zpos m))). ring. }
  split; auto. rewrite E. assert (0 < IZR (Zpos m) * powerRZ 2 e) by (apply Rmult_lt_0_compat; [apply IZR_lt; lia|apply powerRZ_lt; lra]).
  destruct s; [rewrite Rabs_Ropp|]; apply Rabs_pos_eq; lra.
Qed.
Lemma fmt_size f s m e : standard f -> finite f (S754_finite s m e) -> powerRZ 10 (-324) <= IZR (Zpos m) * powerRZ 2 e < powerRZ 10 316.
Proof.
  intros St F. pose proof (finite_lt f _ F) as U. rewrite (proj1 (val_mag s m e)) in U. split.
  - destruct F as [V _]. unfold isfloat in V. cbn in V. unfold bounded in V. apply andb_true_iff in V as (C & B). apply Z.leb_le in B.
    unfold canonical_mantissa in C. apply Zeq_bool_eq in C. unfold fexp, emin in C.
    assert (P : (-1074 <= e)%Z) by (destruct St as [-> | ->]; cbn in B, C; lia).
    assert (M : 1 <= IZR (Zpos m)) by (apply IZR_le; lia). assert (L : powerRZ 2 (-1074) <= powerRZ 2 e).
    { pose proof (bpow_le radix2 (-1074) e P) as X. now rewrite !bpow_powerRZ in X. }
    assert (L2 : powerRZ 10 (-324) <= powerRZ 2 (-1074)).
    { cbn [powerRZ]. apply Rinv_le_contravar; [apply pow_lt; lra|]. rewrite !pow_IZR, !positive_nat_Z. apply IZR_le. vm_compute. discriminate. }
    pose proof (powerRZ_lt 2 e ltac:(lra)). nra.
  - eapply Rlt_le_trans; [exact U|]. unfold huge. apply Rle_trans with (bpow radix2 1024); [apply bpow_le; destruct St as [-> | ->]; cbn; lia|].
    rewrite bpow_powerRZ. change (IZR radix2) with 2. cbn [powerRZ]. rewrite !pow_IZR, !positive_nat_Z. apply IZR_le. vm_compute. discriminate.
Qed.

(** Five digits and an exponent that are right to half a unit of the last digit. *)
Lemma digits_near f s m e : standard f -> finite f (S754_finite s m e) -> let v := IZR (Zpos m) * powerRZ 2 e in
  exists n k, fmt_e (S754_finite s m e) = (if s then lit "-" else []) ++ sci n k /\ (10000 <= n < 100000 /\ -324 <= k <= 317)%Z /\
    Rabs (IZR n * powerRZ 10 (k - 4) - v) <= / 20000 * v.
Proof.
  intros St F v. destruct (fmt_size f s m e St F) as [L U]. fold v in L, U. destruct (exponent_start_ok (Zpos m) e L) as (S0 & S1). fold v in S1.
  destruct (exponent_ok 640 (Zpos m) e (exponent_start (Zpos m) e)) as ((K1 & K2) & K3).
  { fold v. split; [exact S1|]. eapply Rlt_le_trans; [exact U|]. apply ten_le. lia. }
  fold v in K1, K2. unfold fmt_e. set (k := decimal_exponent 640 (Zpos m) e (exponent_start (Zpos m) e)) in *.
  destruct (ratio (Zpos m) e (4 - k)) as [p q] eqn:E. destruct (ratio_val _ _ _ _ _ E) as (Hq & V). fold v in V.
  pose proof (nearest_even_ok p q Hq) as NE. set (n := nearest_even p q) in *. set (y := v * powerRZ 10 (4 - k)) in *.
  pose proof (ten_pos (4 - k)) as T4. pose proof (ten_cancel (k - 4)) as TC. replace (- (k - 4))%Z with (4 - k)%Z in TC by lia.
  assert (Hk : (k < 317)%Z).
  { destruct (Z_lt_le_dec k 317); auto. exfalso. pose proof (ten_le 316 k ltac:(lia)). lra. }
  assert (Y : 10000 <= y < 100000).
  { assert (A : powerRZ 10 k * powerRZ 10 (4 - k) = 10000). { rewrite <- ten_add. replace (k + (4 - k))%Z with 4%Z by lia. cbn [powerRZ]. rewrite pow_IZR. apply f_equal. reflexivity. }
    assert (B : powerRZ 10 (k + 1) * powerRZ 10 (4 - k) = 100000). { rewrite <- ten_add. replace (k + 1 + (4 - k))%Z with 5%Z by lia. cbn [powerRZ]. rewrite pow_IZR. apply f_equal. reflexivity. }
    unfold y. split; [rewrite <- A; apply Rmult_le_compat_r; lra|rewrite <- B; apply Rmult_lt_compat_r; lra]. }
  assert (Q : 0 < IZR q) by (now apply IZR_lt).
  assert (Hn : Rabs (IZR n - y) <= / 2).
  { apply Z.abs_le in NE. destruct NE as [N1 N2]. apply IZR_le in N1, N2. rewrite opp_IZR in N1. rewrite mult_IZR, minus_IZR, mult_IZR in N1, N2. rewrite V in N1, N2.
    fold y in N1, N2. apply Rabs_le. split; nra. }
  assert (N : (10000 <= n <= 100000)%Z).
  { apply Rabs_le_inv in Hn. split.
    - assert (9999 < n)%Z; [|lia]. apply lt_IZR. lra.
    - assert (n < 100001)%Z; [|lia]. apply lt_IZR. lra. }
  assert (R : Rabs (IZR n * powerRZ 10 (k - 4) - v) <= / 20000 * v).
  { pose proof (ten_pos (k - 4)) as T. assert (E1 : v = y * powerRZ 10 (k - 4)) by (unfold y; rewrite (Rmult_assoc v), TC, Rmult_1_r; reflexivity).
    replace (IZR n * powerRZ 10 (k - 4) - v) with ((IZR n - y) * powerRZ 10 (k - 4)) by (rewrite Rmult_minus_distr_r, <- E1; reflexivity).
    rewrite Rabs_mult, (Rabs_pos_eq (powerRZ 10 (k - 4))) by lra. rewrite E1 at 1. rewrite <- Rmult_assoc. apply Rmult_le_compat_r; lra. }
  destruct (Z.eqb_spec n 100000) as [En|En].
  - exists 10000%Z, (k + 1)%Z. split; [reflexivity|]. split; [lia|]. replace (k + 1 - 4)%Z with (1 + (k - 4))%Z by lia. rewrite ten_add.
    replace (10000 * (powerRZ 10 1 * powerRZ 10 (k - 4))) with (IZR n * powerRZ 10 (k - 4)); [exact R|]. rewrite En. rewrite powerRZ_1. ring.
  - exists n, k. split; [reflexivity|]. split; [lia|exact R].
Qed.
Lemma fmt_e_ok f x : standard f -> finite f x -> one_word (fmt_e x) /\ exists r, read_number (fmt_e x) = Some r /\ Rabs (r - val x) <= / 20000 * Rabs (val x).
Proof.
  intros St F. assert (SG : forall (s : bool) n k, (0 <= n < 100000)%Z -> (Z.abs k < 1000)%Z ->
    one_word ((if s then lit "-" else []) ++ sci n k) /\
    read_number ((if s then lit "-" else []) ++ sci n k) = Some (if s then - (IZR n * powerRZ 10 (k - 4)) else IZR n * powerRZ 10 (k - 4))).
  { intros s n k Hn Hk. destruct (sci_ok n k Hn Hk) as (A & B & c & r & E & Nc). destruct s.
    - split; [apply plain_app; [apply plain_lit; reflexivity|exact B]|].
      change (read_number (lit "-" ++ sci n k)) with (option_map (fun nk => - (IZR (fst nk) * powerRZ 10 (snd nk - 4))) (read_plain (sci n k))). now rewrite A.
    - cbn [app]. split; auto. unfold read_number. rewrite E in *. destruct (Ascii.eqb_spec c "-"%char); [contradiction|]. now rewrite A. }
  destruct x as [s|s| |s m e]; try (now destruct F).
  - destruct (SG s 0%Z 0%Z) as (A & B); [lia|lia|]. cbn [fmt_e]. split; [exact A|]. eexists. split; [exact B|]. unfold val. cbn [SF2R]. rewrite Rabs_R0.
    rewrite Rabs_right; destruct s; lra.
  - destruct (digits_near f s m e St F) as (n & k & -> & (Hn & Hk) & R). destruct (SG s n k) as (A & B); [lia|lia|]. split; [exact A|]. eexists. split; [exact B|].
    destruct (val_mag s m e) as (M & E). rewrite M. rewrite E. destruct s; [|exact R].
    replace (- (IZR n * powerRZ 10 (k - 4)) - - (IZR (Zpos m) * powerRZ 2 e)) with (- (IZR n * powerRZ 10 (k - 4) - IZR (Zpos m) * powerRZ 2 e)) by ring. now rewrite Rabs_Ropp.
Qed.
Lemma float_text f g : standard f -> wf g -> (forall x y v, pixel g x y = Some v -> finite f v) ->
  exists t hdr rows tw th, print_float g = Ok t /\ lines t = hdr :: rows ++ [[]; []] /\
  words hdr = [word "image"; tw; word "x"; th] /\ read_decimal tw = Some (s32 (u32 (g_width g))) /\ read_decimal th = Some (s32 (u32 (g_height g))) /\
  zlen rows = g_height g /\ forall y row, znth rows y = Some row -> exists toks, words row = word "[" :: toks ++ [word "]"] /\ zlen toks = g_width g /\
    forall x tok, znth toks x = Some tok -> exists v r, pixel g x y = Some v /\ read_number tok = Some r /\ Rabs (r - val v) <= / 20000 * Rabs (val v).
Proof.
  intros St Hg Hp. destruct (image_text fmt_e g Hg) as (t & hdr & rows & tw & th & E & L & W & Dw & Dh & Lr & R); [intros; eapply fmt_e_ok; eauto|].
  exists t, hdr, rows, tw, th. do 6 (split; [assumption|]). intros y row Er. destruct (R y row Er) as (toks & W1 & L1 & P). exists toks.
  do 2 (split; [assumption|]). intros x tok Et. destruct (P x tok Et) as (v & Pv & ->). destruct (fmt_e_ok f v St (Hp x y v Pv)) as (_ & r & A & B). eauto.
Qed.

(** ** Corollaries *)
Local Open Scope Z_scope.
Lemma int_text_small g : wf g -> g_width g < 2147483648 -> g_height g < 2147483648 ->
  exists t hdr rows tw th, print_int g = Ok t /\ lines t = hdr :: rows ++ [[]; []] /\
  words hdr = [word "image"; tw; word "x"; th] /\ read_decimal tw = Some (g_width g) /\ read_decimal th = Some (g_height g) /\
  zlen rows = g_height g /\ forall y row, znth rows y = Some row -> exists toks, words row = word "[" :: toks ++ [word "]"] /\ zlen toks = g_width g /\
    forall x tok, znth toks x = Some tok -> exists v, pixel g x y = Some v /\ read_base 16 tok = Some (v mod 4294967296) /\ 2 <= zlen tok.
Proof. intros Hg W H. pose proof Hg as (W0 & H0 & _). pose proof (int_text g Hg) as R. rewrite !s32_u32 in R by lia. exact R. Qed.
Lemma float_text_small f : standard f -> forall g, wf g -> g_width g < 2147483648 -> g_height g < 2147483648 ->
  (forall x y v, pixel g x y = Some v -> finite f v) ->
  exists t hdr rows tw th, print_float g = Ok t /\ lines t = hdr :: rows ++ [[]; []] /\
  words hdr = [word "image"; tw; word "x"; th] /\ read_decimal tw = Some (g_width g) /\ read_decimal th = Some (g_height g) /\
  zlen rows = g_height g /\ forall y row, znth rows y = Some row -> exists toks, words row = word "[" :: toks ++ [word "]"] /\ zlen toks = g_width g /\
    forall x tok, znth toks x = Some tok -> exists v r, pixel g x y = Some v /\ read_number tok = Some r /\ (Rabs (r - val v) <= / 20000 * Rabs (val v))%R.
Proof. intros St g Hg W H Hp. pose proof Hg as (W0 & H0 & _). pose proof (float_text f g St Hg Hp) as R. rewrite !s32_u32 in R by lia. exact R. Qed.
Lemma kernel1_any {E} (fmt : E -> text) (P : E -> text -> Prop) k l : coefs k l -> ko_width k = zlen l -> (forall v, In v l -> one_word (fmt v) /\ P v (fmt v)) ->
  exists t line toks, print_kernel1 fmt k = Ok t /\ lines t = [line; []] /\ words line = word "Kernel1D[" :: toks ++ [word "]"] /\
    zlen toks = zlen l /\ forall i tok, znth toks i = Some tok -> exists v, znth l i = Some v /\ P v tok.
Proof.
  intros C W H. destruct (kernel1_text fmt k l C W) as (t & line & E1 & E2 & E3); [intros; now apply H|]. exists t, line, (map fmt l). do 3 (split; [assumption|]).
  split; [unfold zlen; now rewrite map_length|]. intros i tok. rewrite znth_map. destruct (znth l i) as [v|] eqn:Ev; [|discriminate]. intros [= <-].
  exists v. split; auto. apply H. now apply znth_In in Ev.
Qed.
Lemma kernel2_any {E} (fmt : E -> text) (P : E -> text -> Prop) k l : coefs k l -> zlen l = ko_width k * ko_width k -> 0 <= ko_width k < 65536 -> 0 <= ko_offset k < 2147483648 ->
  (forall v, In v l -> one_word (fmt v) /\ P v (fmt v)) ->
  exists t hdr rows to tw, print_kernel2 fmt k = Ok t /\ lines t = hdr :: rows ++ [[]] /\
    words hdr = [word "Kernel2D{"; word "offset=" ++ to ++ word ","; word "width=" ++ tw; word "}"] /\
    read_decimal to = Some (ko_offset k) /\ read_decimal tw = Some (ko_width k) /\
    zlen rows = ko_width k /\ forall y row, znth rows y = Some row -> zlen (words row) = ko_width k /\
      forall x tok, znth (words row) x = Some tok -> exists v, znth l (y * ko_width k + x) = Some v /\ P v tok.
Proof.
  intros C Ln W Ho H. destruct (kernel2_text fmt k l C Ln W) as (t & hdr & rows & to & tw & E1 & E2 & E3 & E4 & E5 & E6 & E7); [intros; now apply H|].
  rewrite s32_u32 in E4 by lia. exists t, hdr, rows, to, tw. do 6 (split; [assumption|]). intros y row Er. destruct (E7 y row Er) as (A & B). split; auto.
  intros x tok Et. destruct (B x tok Et) as (v & Ev & ->). exists v. split; auto. apply H. now apply znth_In in Ev.
Qed.
Lemma kernel1_int k l : ga_size (ko_data k) = zlen l -> kcoefs k = map Some l -> ko_width k = zlen l ->
  (forall v, In v l -> -2147483648 <= v < 2147483648) ->
  exists t line toks, print_kernel1 fmt_d k = Ok t /\ lines t = [line; []] /\ words line = word "Kernel1D[" :: toks ++ [word "]"] /\
    zlen toks = zlen l /\ forall i tok, znth toks i = Some tok -> exists v, znth l i = Some v /\ read_decimal tok = Some v.
Proof.
  intros S C W H. apply (kernel1_any fmt_d (fun v tok => read_decimal tok = Some v)); auto; [now split|]. intros v Iv. destruct (fmt_d_ok v) as (A & B).
  rewrite s32_u32 in A by (now apply H). auto.
Qed.
Lemma kernel2_int k l : ga_size (ko_data k) = zlen l -> kcoefs k = map Some l -> zlen l = ko_width k * ko_width k ->
  0 <= ko_width k < 65536 -> 0 <= ko_offset k < 2147483648 -> (forall v, In v l -> -2147483648 <= v < 2147483648) ->
  exists t hdr rows to tw, print_kernel2 fmt_d k = Ok t /\ lines t = hdr :: rows ++ [[]] /\
    words hdr = [word "Kernel2D{"; word "offset=" ++ to ++ word ","; word "width=" ++ tw; word "}"] /\
    read_decimal to = Some (ko_offset k) /\ read_decimal tw = Some (ko_width k) /\
    zlen rows = ko_width k /\ forall y row, znth rows y = Some row -> zlen (words row) = ko_width k /\
      forall x tok, znth (words row) x = Some tok -> exists v, znth l (y * ko_width k + x) = Some v /\ read_decimal tok = Some v.
Proof.
  intros S C Ln W Ho H. apply (kernel2_any fmt_d (fun v tok => read_decimal tok = Some v)); auto; [now split|]. intros v Iv. destruct (fmt_d_ok v) as (A & B).
  rewrite s32_u32 in A by (now apply H). auto.
Qed.
Lemma kernel1_float f : standard f -> forall k l, ga_size (ko_data k) = zlen l -> kcoefs k = map Some l -> ko_width k = zlen l ->
  (forall v, In v l -> finite f v) ->
  exists t line toks, print_kernel1 fmt_e k = Ok t /\ lines t = [line; []] /\ words line = word "Kernel1D[" :: toks ++ [word "]"] /\
    zlen toks = zlen l /\ forall i tok, znth toks i = Some tok -> exists v r, znth l i = Some v /\ read_number tok = Some r /\ (Rabs (r - val v) <= / 20000 * Rabs (val v))%R.
Proof.
  intros St k l S C W H. destruct (kernel1_any fmt_e (fun v tok => exists r, read_number tok = Some r /\ (Rabs (r - val v) <= / 20000 * Rabs (val v))%R) k l) as (t & line & toks & E1 & E2 & E3 & E4 & E5); auto.
  - now split.
  - intros v Iv. exact (fmt_e_ok f v St (H v Iv)).
  - exists t, line, toks. do 4 (split; [assumption|]). intros i tok Et. destruct (E5 i tok Et) as (v & Ev & r & A). eauto.
Qed.
Lemma kernel2_float f : standard f -> forall k l, ga_size (ko_data k) = zlen l -> kcoefs k = map Some l -> zlen l = ko_width k * ko_width k ->
  0 <= ko_width k < 65536 -> 0 <= ko_offset k < 2147483648 -> (forall v, In v l -> finite f v) ->
  exists t hdr rows to tw, print_kernel2 fmt_e k = Ok t /\ lines t = hdr :: rows ++ [[]] /\
    words hdr = [word "Kernel2D{"; word "offset=" ++ to ++ word ","; word "width=" ++ tw; word "}"] /\
    read_decimal to = Some (ko_offset k) /\ read_decimal tw = Some (ko_width k) /\
    zlen rows = ko_width k /\ forall y row, znth rows y = Some row -> zlen (words row) = ko_width k /\
      forall x tok, znth (words row) x = Some tok -> exists v r, znth l (y * ko_width k + x) = Some v /\ read_number tok = Some r /\ (Rabs (r - val v) <= / 20000 * Rabs (val v))%R.
Proof.
  intros St k l S C Ln W Ho H. destruct (kernel2_any fmt_e (fun v tok => exists r, read_number tok = Some r /\ (Rabs (r - val v) <= / 20000 * Rabs (val v))%R) k l)
    as (t & hdr & rows & to & tw & E1 & E2 & E3 & E4 & E5 & E6 & E7); auto.
  - now split.
  - intros v Iv. exact (fmt_e_ok f v St (H v Iv)).
  - exists t, hdr, rows, to, tw. do 6 (split; [assumption|]). intros y row Er. destruct (E7 y row Er) as (A & B). split; auto.
    intros x tok Et. destruct (B x tok Et) as (v & Ev & r & D). eauto.
Qed.

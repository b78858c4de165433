(** One round of the tracer (search, move, turn) as a run of the boundary walk. *)
From Verif Require Import Base BaseFacts M_Contour S_Contour L_Crack L_Cycle.
From Coq Require Import Lia.

(** Neighbour of [p] in the tracer's direction [d]. *)
Definition nb (r : crule) (p : point) (d : Z) : point :=
  let (x, y) := p in
  match r with
  | Eight => match d with
             | 0 => (x + 1, y) | 1 => (x + 1, y + 1) | 2 => (x, y + 1) | 3 => (x - 1, y + 1)
             | 4 => (x - 1, y) | 5 => (x - 1, y - 1) | 6 => (x, y - 1) | _ => (x + 1, y - 1)
             end
  | Four => match d with 0 => (x + 1, y) | 1 => (x, y + 1) | 2 => (x - 1, y) | _ => (x, y - 1) end
  end.
Definition enc (r : crule) (o : dir) : Z :=
  match r with
  | Four => match o with R => 0 | D => 1 | L => 2 | U => 3 end
  | Eight => match o with R => 0 | D => 2 | L => 4 | U => 6 end
  end.
Definition odir (c : crack) : dir := match c with Ck _ _ o => o end.
Definition nextdir (r : crule) (d : Z) : Z :=
  match r with Eight => ((d + 4) mod 8 + 2) mod 8 | Four => ((d + 2) mod 4 + 1) mod 4 end.

Section Rule.
Variable r : crule.
Variable B : Z -> Z -> bool.
Notation isB := (isB B). Notation isW := (isW B). Notation next := (next r B). Notation valid := (valid r B).
Notation is_crack := (is_crack B). Notation corner := (corner B). Notation period := (period r B).
Notation orbit := (orbit r B). Notation iter := (iter r B). Notation wpt := (wpt B).

Definition bl (p : point) : bool := B (fst p) (snd p).

Definition leaves (c : crack) : bool := negb ((fst (cpix (next c)) =? fst (cpix c)) && (snd (cpix (next c)) =? snd (cpix c))).
Lemma leaves_false c : leaves c = false <-> cpix (next c) = cpix c.
Proof.
  unfold leaves. rewrite negb_false_iff, andb_true_iff, !Z.eqb_eq. destruct (cpix (next c)), (cpix c); cbn.
  split; [intros [-> ->]; auto|now intros [= -> ->]].
Qed.

(** Direction in which the tracer leaves. *)
Definition dirof (c : crack) : Z :=
  match r with
  | Four => if is_crack c then (enc Four (odir c) + 1) mod 4 else enc Four (odir c)
  | Eight => (if bl (nb Eight (cpix c) ((enc Eight (odir c) + 1) mod 8)) then enc Eight (odir c) + 1 else enc Eight (odir c) + 2) mod 8
  end.

(** The tracer is at pixel [p] with search direction [s], which stands for state [c] of the walk; [f]: the side of [c]
    itself is not looked at again. *)
Definition pre (f : bool) (p : point) (s : Z) (c : crack) : Prop :=
  valid c = true /\ p = cpix c /\ s = (enc r (odir c) + (if f then 1 else 0)) mod rule_n r /\ (f = true -> is_crack c = true).

(** The neighbours from direction [s] on are background up to number [k], which is foreground. *)
Definition first_black (p : point) (s : Z) (k : nat) : Prop :=
  Z.of_nat k <= rule_n r /\
  (forall i, (i < k)%nat -> bl (nb r p ((s + Z.of_nat i) mod rule_n r)) = false) /\
  (Z.of_nat k < rule_n r -> bl (nb r p ((s + Z.of_nat k) mod rule_n r)) = true).
(** Neighbours looked at and marked. *)
Definition seen (p : point) (s : Z) (k : nat) : list point :=
  map (fun i => nb r p ((s + Z.of_nat i) mod rule_n r)) (seq 0 k).

End Rule.

Section Rule2.
Variable r : crule.
Variable B : Z -> Z -> bool.
Notation isB := (isB B). Notation isW := (isW B). Notation next := (next r B). Notation valid := (valid r B).
Notation is_crack := (is_crack B). Notation corner := (corner B). Notation period := (period r B).
Notation orbit := (orbit r B). Notation iter := (iter r B). Notation wpt := (wpt B).
Notation bl := (bl B). Notation leaves := (leaves r B). Notation dirof := (dirof r B). Notation pre := (pre r B).
Notation first_black := (first_black r B). Notation seen := (seen r).

Ltac nrm := cbn [fst snd cpix cout odir next4 next8] in *; rewrite ?Z.add_simpl_r, ?Z.sub_add in *.
Ltac brk :=
  repeat (nrm; match goal with
  | H : _ && _ = true |- _ => apply andb_prop in H as [? ?]
  | H : _ || _ = true |- _ => apply orb_prop in H as [?|?]
  | H : negb _ = true |- _ => apply negb_true_iff in H
  | H : B ?a ?b = true, H' : B ?a ?b = false |- _ => congruence
  | H : B ?a ?b = _ |- context [B ?a ?b] => rewrite H
  end; cbn [andb orb negb]); nrm.

Lemma dirof_inj c c' : valid c = true -> valid c' = true -> leaves c = true -> leaves c' = true ->
  cpix c = cpix c' -> dirof c = dirof c' -> c = c'.
Proof.
  destruct c as [x y o], c' as [x' y' o']. cbn [cpix]. intros V V' Lv Lv' [= <- <-]. revert V V' Lv Lv'.
  unfold L_Crack.valid, L_Step.leaves, L_Step.dirof, L_Crack.next, L_Step.bl. destruct r, o, o'; cbn [enc odir nb cpix fst snd];
    try (intros; reflexivity); unfold L_Crack.is_crack, L_Crack.corner; cbn [cpix cout fst snd]; intros V V' Lv Lv'; brk;
    repeat match goal with |- context [if B ?a ?b then _ else _] => destruct (B a b) eqn:?; brk end; try easy.
Qed.

Ltac cmod := repeat match goal with
  | |- context [?a mod ?b] => let v := eval vm_compute in (a mod b) in match v with 0 => idtac | Z.pos _ => idtac end; progress change (a mod b) with v
  | H : context [?a mod ?b] |- _ => let v := eval vm_compute in (a mod b) in match v with 0 => idtac | Z.pos _ => idtac end; progress change (a mod b) with v in H
  end; cbn [nb adj_bg] in *.
Lemma nb_adj p d : 0 <= d < rule_n r -> adj_bg r (nb r p d) (nb r p ((d + 1) mod rule_n r)).
Proof.
  intros Hd. destruct p as [x y]. destruct r; cbn [rule_n] in *.
  - assert (d = 0 \/ d = 1 \/ d = 2 \/ d = 3) as [->|[->|[->| ->]]] by lia; cmod; unfold adj8; cbn [fst snd]; lia.
  - assert (d = 0 \/ d = 1 \/ d = 2 \/ d = 3 \/ d = 4 \/ d = 5 \/ d = 6 \/ d = 7) as C by lia.
    repeat (destruct C as [->|C]; [cmod; unfold adj4; cbn [fst snd]; lia|]). subst. cmod; unfold adj4; cbn [fst snd]; lia.
Qed.
Lemma rule_n_pos : 0 < rule_n r.
Proof. destruct r; cbn; lia. Qed.
Lemma nb_out c : nb r (cpix c) (enc r (odir c)) = cout c.
Proof. destruct r, c as [x y []]; reflexivity. Qed.
Lemma enc_range o : 0 <= enc r o < rule_n r.
Proof. destruct r, o; cbn; lia. Qed.

Lemma seen_sound f p s c k : pre f p s c -> first_black p s k -> forall q, In q (seen p s k) -> conn (adj_bg r) isW (wpt c) q.
Proof.
  intros (V & -> & -> & F) (K1 & K2 & _) q Hq. unfold L_Step.seen in Hq. apply in_map_iff in Hq as (i & <- & Hi). apply in_seq in Hi.
  assert (i < k)%nat as Hk by lia. clear Hi. pose proof rule_n_pos as N0. pose proof (enc_range (odir c)) as E0.
  set (s := (enc r (odir c) + (if f then 1 else 0)) mod rule_n r) in *.
  assert (0 <= s < rule_n r) as Hs by (apply Z.mod_pos_bound; lia).
  induction i as [|i IH].
  - specialize (K2 O Hk). rewrite Z.add_0_r, (Z.mod_small s) in * by lia. change (L_Step.bl B ?p = false) with (L_Crack.isW B p) in K2.
    destruct f.
    + specialize (F eq_refl). rewrite wpt_crack by auto. rewrite <- nb_out in *. apply conn_one; auto.
      * apply nb_adj. auto.
      * rewrite nb_out. now apply crack_iff in F.
    + subst s. rewrite Z.add_0_r, Z.mod_small in * by lia. rewrite nb_out in *.
      destruct (is_crack c) eqn:E; [rewrite wpt_crack by auto; now apply conn_refl|].
      exfalso. apply (valid_B r) in V. assert (is_crack c = true) by (apply crack_iff; auto). congruence.
  - assert (i < k)%nat as Hi by lia. specialize (IH Hi). eapply conn_step; [exact IH| |exact (K2 _ Hk)].
    replace (s + Z.of_nat (S i)) with (s + Z.of_nat i + 1) by lia.
    rewrite <- (Z.add_mod_idemp_l (s + Z.of_nat i) 1) by lia. apply nb_adj. apply Z.mod_pos_bound; lia.
Qed.

(** Nothing found: the pixel is isolated and the walk goes once around it. *)
Lemma four_cases (P : nat -> Prop) : P 0%nat -> P 1%nat -> P 2%nat -> P 3%nat -> forall i, (i < 4)%nat -> P i.
Proof. intros P0 P1 P2 P3 i Hi. do 4 (destruct i as [|i]; [auto|]). lia. Qed.
Lemma round_none f p s c : pre f p s c -> first_black p s (Z.to_nat (rule_n r)) ->
  (forall i, (i < 4)%nat -> leaves (iter i c) = false) /\ iter 4 c = c /\
  (forall i, (i < 4)%nat -> In (cout (iter i c)) (seen p s (Z.to_nat (rule_n r)))).
Proof.
  intros (V & -> & -> & F) (K1 & K2 & _). revert V F K2. unfold L_Step.leaves, L_Crack.valid.
  destruct r; cbn [rule_n]; intros V F K2.
  - change (Z.to_nat 4) with 4%nat in *.
    pose proof (K2 0%nat ltac:(lia)) as K20. pose proof (K2 1%nat ltac:(lia)) as K21. pose proof (K2 2%nat ltac:(lia)) as K22.
    pose proof (K2 3%nat ltac:(lia)) as K23. clear K2. destruct c as [x y []], f;
    cbn [odir enc cpix Z.of_nat Pos.of_succ_nat Pos.succ Z.add] in *; cmod; unfold L_Step.bl in *; cbn [fst snd] in *.
    all: split; [apply four_cases|split; [|apply four_cases]]; unfold L_Crack.iter, L_Crack.next; brk;
    rewrite ?Z.eqb_refl; try reflexivity; cbn; tauto.
  - change (Z.to_nat 8) with 8%nat in *.
    pose proof (K2 0%nat ltac:(lia)) as K20. pose proof (K2 1%nat ltac:(lia)) as K21. pose proof (K2 2%nat ltac:(lia)) as K22.
    pose proof (K2 3%nat ltac:(lia)) as K23. pose proof (K2 4%nat ltac:(lia)) as K24. pose proof (K2 5%nat ltac:(lia)) as K25.
    pose proof (K2 6%nat ltac:(lia)) as K26. pose proof (K2 7%nat ltac:(lia)) as K27. clear K2. destruct c as [x y []], f;
    cbn [odir enc cpix Z.of_nat Pos.of_succ_nat Pos.succ Z.add] in *; cmod; unfold L_Step.bl in *; cbn [fst snd] in *.
    all: split; [apply four_cases|split; [|apply four_cases]]; unfold L_Crack.iter, L_Crack.next; brk;
    rewrite ?Z.eqb_refl; try reflexivity; cbn; tauto.
Qed.

(** Number of corners turned before leaving. *)
Definition turns (q : crule) (f : bool) (k : nat) : nat :=
  match q with Four => if f then k else pred k | Eight => if f then Nat.div2 k else Nat.div2 (pred k) end.
Lemma turns_lt q f k : Z.of_nat k < rule_n q -> (turns q f k < 4)%nat.
Proof. intros H. destruct q, f; cbn in *; try lia; do 8 (destruct k as [|k]; [cbn; lia|]); lia. Qed.

Lemma le_cases (P : nat -> Prop) j : (forall i, (i < j)%nat -> P i) <-> match j with
  | O => True | 1%nat => P 0%nat | 2%nat => P 0%nat /\ P 1%nat | 3%nat => P 0%nat /\ P 1%nat /\ P 2%nat
  | _ => forall i, (i < j)%nat -> P i end.
Proof.
  destruct j as [|[|[|[|j]]]]; try tauto.
  - split; [auto|intros _ i Hi; lia].
  - split; [intros Hj; apply Hj; lia|]. intros H0 i Hi. assert (i = 0)%nat as -> by lia. auto.
  - split; [intros Hj; split; apply Hj; lia|]. intros [H0 H1] i Hi. destruct i as [|[|i]]; auto; lia.
  - split; [intros Hj; split; [|split]; apply Hj; lia|]. intros (H0 & H1 & H2) i Hi. destruct i as [|[|[|i]]]; auto; lia.
Qed.

(** Compute the next side from what is known about the pixels around. *)
Ltac nx := repeat (match goal with |- context [L_Crack.next ?q B (Ck ?a ?b ?o)] =>
   let E := fresh "E" in
   eassert (L_Crack.next q B (Ck a b o) = _) as E by (unfold L_Crack.next; cbn [L_Crack.next4 L_Crack.next8];
     repeat match goal with H : B ?u ?v = _ |- context[B ?u ?v] => rewrite H end; reflexivity);
   rewrite !E; clear E end; rewrite ?Z.add_simpl_r, ?Z.sub_add).
Ltac facts := repeat (cbn [fst snd cpix cout odir andb orb negb] in *; rewrite ?Z.add_simpl_r, ?Z.sub_add in *; match goal with
  | H : _ && _ = true |- _ => apply andb_prop in H as [? ?]
  | H : _ || _ = true |- _ => apply orb_prop in H as [?|?]
  | H : negb _ = true |- _ => apply negb_true_iff in H
  | H : B ?a ?b = true, H' : B ?a ?b = false |- _ => congruence end).
Lemma round_found f p s c k : pre f p s c -> first_black p s k -> Z.of_nat k < rule_n r ->
  let d := (s + Z.of_nat k) mod rule_n r in
  let j := turns r f k in
  (forall i, (i < j)%nat -> leaves (iter i c) = false /\ In (cout (iter (S i) c)) (seen p s k)) /\
  leaves (iter j c) = true /\ dirof (iter j c) = d /\ nb r p d = cpix (next (iter j c)) /\
  (exists f' : bool, nextdir r d = (enc r (odir (next (iter j c))) + (if f' then 1 else 0)) mod rule_n r /\
      (f' = true -> is_crack (iter j c) = true /\ is_crack (next (iter j c)) = true /\ cout (next (iter j c)) = cout (iter j c))) /\
  (f = false -> is_crack c = true -> In (cout c) (seen p s k)).
Proof.
  intros (V & -> & -> & F) (K1 & K2 & K3) Hk. specialize (K3 Hk). clear K1. cbv zeta. rewrite le_cases. revert V F K2 K3 Hk.
  unfold L_Crack.valid, nextdir.
  destruct r; cbn [rule_n]; intros V F K2 K3 Hk.
  - destruct k as [|[|[|[|k]]]]; [| | | |exfalso; lia].
    all: try pose proof (K2 0%nat ltac:(lia)) as Kw0; try pose proof (K2 1%nat ltac:(lia)) as Kw1; try pose proof (K2 2%nat ltac:(lia)) as Kw2; clear K2 Hk.
    all: destruct c as [x y []], f; try specialize (F eq_refl);
      unfold L_Step.bl, L_Crack.is_crack, L_Crack.corner in V, F, K3; try unfold L_Step.bl in Kw0; try unfold L_Step.bl in Kw1; try unfold L_Step.bl in Kw2;
      cbn [odir enc cpix Z.of_nat Pos.of_succ_nat Pos.succ Z.add] in *; cmod; facts; try congruence.
    all: cbn [turns pred Nat.div2 L_Crack.iter]; unfold L_Step.leaves; nx.
    all: unfold L_Step.seen; cbn [map seq rule_n Z.of_nat Pos.of_succ_nat Pos.succ Z.add cpix cout odir fst snd enc]; cmod.
    all: split; [try split; try split; try split; rewrite ?Z.eqb_refl; auto; cbn [In]; tauto|].
    all: split; [rewrite negb_true_iff, andb_false_iff; lia|].
    all: split; [unfold L_Step.dirof, L_Step.bl, L_Crack.is_crack; cbn [cpix cout fst snd odir enc]; cmod; cbn [fst snd]; rewrite ?Z.add_simpl_r, ?Z.sub_add;
      repeat match goal with H : B ?u ?v = _ |- context[B ?u ?v] => rewrite H end; reflexivity|].
    all: split; [reflexivity|].
    all: split; [exists false; split; [reflexivity|discriminate]|].
    all: intros Hff Hcr; try discriminate; cbn [In]; auto; unfold L_Crack.is_crack in Hcr; facts.
  - destruct k as [|[|[|[|[|[|[|[|k]]]]]]]]; [| | | | | | | |exfalso; lia].
    all: try pose proof (K2 0%nat ltac:(lia)) as Kw0; try pose proof (K2 1%nat ltac:(lia)) as Kw1; try pose proof (K2 2%nat ltac:(lia)) as Kw2; try pose proof (K2 3%nat ltac:(lia)) as Kw3; try pose proof (K2 4%nat ltac:(lia)) as Kw4; try pose proof (K2 5%nat ltac:(lia)) as Kw5; try pose proof (K2 6%nat ltac:(lia)) as Kw6; clear K2 Hk.
    all: destruct c as [x y []], f; try specialize (F eq_refl);
      unfold L_Step.bl, L_Crack.is_crack, L_Crack.corner in V, F, K3; try unfold L_Step.bl in Kw0; try unfold L_Step.bl in Kw1; try unfold L_Step.bl in Kw2; try unfold L_Step.bl in Kw3; try unfold L_Step.bl in Kw4; try unfold L_Step.bl in Kw5; try unfold L_Step.bl in Kw6;
      cbn [odir enc cpix Z.of_nat Pos.of_succ_nat Pos.succ Z.add] in *; cmod; facts; try congruence.
    all: cbn [turns pred Nat.div2 L_Crack.iter]; unfold L_Step.leaves; nx.
    all: unfold L_Step.seen; cbn [map seq rule_n Z.of_nat Pos.of_succ_nat Pos.succ Z.add cpix cout odir fst snd enc]; cmod.
    all: split; [try split; try split; try split; rewrite ?Z.eqb_refl; auto; cbn [In]; tauto|].
    all: split; [rewrite negb_true_iff, andb_false_iff; lia|].
    all: split; [unfold L_Step.dirof, L_Step.bl, L_Crack.is_crack; cbn [cpix cout fst snd odir enc]; cmod; cbn [fst snd]; rewrite ?Z.add_simpl_r, ?Z.sub_add;
      repeat match goal with H : B ?u ?v = _ |- context[B ?u ?v] => rewrite H end; reflexivity|].
    all: split; [reflexivity|].
    all: split; [first [exists false; split; [reflexivity|discriminate] | exists true; split; [reflexivity|intros _];
      unfold L_Crack.is_crack; cbn [cpix cout fst snd]; rewrite ?Z.add_simpl_r, ?Z.sub_add;
      repeat match goal with H : B ?u ?v = _ |- context[B ?u ?v] => rewrite H end; auto]|].
    all: intros Hff Hcr; try discriminate; cbn [In]; auto; unfold L_Crack.is_crack in Hcr; facts.
Qed.
End Rule2.

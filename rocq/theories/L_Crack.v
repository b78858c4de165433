(** Boundaries between foreground and background as closed walks along pixel edges; winding numbers. *)
From Verif Require Import Base BaseFacts M_Contour S_Contour.
From Coq Require Import Lia FinFun.

Inductive dir := R | D | L | U.
(** A side of a pixel. *)
Inductive crack := Ck (x y : Z) (o : dir).

Definition dir_eq_dec (a b : dir) : {a = b} + {a <> b}. Proof. decide equality. Defined.
Definition crack_eq_dec (a b : crack) : {a = b} + {a <> b}.
Proof. decide equality; auto using Z.eq_dec, dir_eq_dec. Defined.

Definition cpix (c : crack) : point := match c with Ck x y _ => (x, y) end.
Definition cout (c : crack) : point :=
  match c with
  | Ck x y R => (x + 1, y) | Ck x y D => (x, y + 1) | Ck x y L => (x - 1, y) | Ck x y U => (x, y - 1)
  end.
(** Vertices of the side, in the order in which it is walked (clockwise around the pixel). *)
Definition startv (c : crack) : point :=
  match c with
  | Ck x y U => (x, y) | Ck x y R => (x + 1, y) | Ck x y D => (x + 1, y + 1) | Ck x y L => (x, y + 1)
  end.
Definition endv (c : crack) : point :=
  match c with
  | Ck x y U => (x + 1, y) | Ck x y R => (x + 1, y + 1) | Ck x y D => (x, y + 1) | Ck x y L => (x, y)
  end.

Lemma NoDup_app_snoc {A} (l : list A) a : NoDup l -> ~ In a l -> NoDup (l ++ [a]).
Proof.
  intros N I. induction N as [|b l Hb N IH]; cbn; constructor; auto using NoDup_nil.
  - rewrite in_app_iff. cbn in *. intuition congruence.
  - apply IH. cbn in I. tauto.
Qed.

(** ** Sums over lists *)
Fixpoint sumf {A} (F : A -> Z) (l : list A) : Z := match l with [] => 0 | a :: r => F a + sumf F r end.
Lemma sumf_ext {A} (F G : A -> Z) l : (forall a, In a l -> F a = G a) -> sumf F l = sumf G l.
Proof. induction l; cbn; intros H; auto. rewrite H, IHl; auto. Qed.
Lemma sumf_add {A} (F G : A -> Z) l : sumf (fun a => F a + G a) l = sumf F l + sumf G l.
Proof. induction l; cbn; lia. Qed.
Lemma sumf_sub {A} (F G : A -> Z) l : sumf (fun a => F a - G a) l = sumf F l - sumf G l.
Proof. induction l; cbn; lia. Qed.
Lemma sumf_0 {A} (l : list A) F : (forall a, In a l -> F a = 0) -> sumf F l = 0.
Proof. induction l; cbn; intros H; auto. rewrite H, IHl; auto. Qed.
Lemma sumf_app {A} (F : A -> Z) l1 l2 : sumf F (l1 ++ l2) = sumf F l1 + sumf F l2.
Proof. induction l1; cbn; lia. Qed.
Lemma sumf_filter {A} (F : A -> Z) f l : (forall a, In a l -> f a = false -> F a = 0) ->
  sumf F (filter f l) = sumf F l.
Proof.
  induction l as [|a l IH]; cbn; intros H; auto. destruct (f a) eqn:E; cbn; rewrite IH by auto; auto.
  rewrite (H a); auto.
Qed.

Definition ind (b : bool) : Z := if b then 1 else 0.
Definition cnt (c : crack) (l : list crack) : Z := sumf (fun a => if crack_eq_dec a c then 1 else 0) l.
Lemma cnt_notin c l : ~ In c l -> cnt c l = 0.
Proof. intros H. apply sumf_0. intros a Ha. destruct (crack_eq_dec a c); congruence. Qed.
Lemma cnt_in c l : NoDup l -> In c l -> cnt c l = 1.
Proof.
  intros N H. induction N as [|a l Ha N IH]; [easy|]. unfold cnt in *. cbn. destruct (crack_eq_dec a c) as [->|Ne].
  - fold (cnt c l). rewrite cnt_notin; auto.
  - destruct H as [->|H]; [congruence|]. rewrite IH; auto.
Qed.
Lemma cnt_iff c c' l : NoDup l -> (In c l <-> In c' l) -> cnt c l = cnt c' l.
Proof.
  intros N H. destruct (in_dec crack_eq_dec c l) as [I|I].
  - rewrite !cnt_in; tauto.
  - rewrite !cnt_notin; tauto.
Qed.

(** Signed number of horizontal sides in [l] at or above row [y] in column [x]. *)
Definition wind1 (x y : Z) (c : crack) : Z :=
  match c with
  | Ck cx cy U => if (cx =? x) && (cy <=? y) then 1 else 0
  | Ck cx cy D => if (cx =? x) && (cy + 1 <=? y) then -1 else 0
  | _ => 0
  end.
Definition wind (l : list crack) (x y : Z) : Z := sumf (wind1 x y) l.

Lemma wind_down l x y : wind l x (y + 1) = wind l x y + cnt (Ck x (y + 1) U) l - cnt (Ck x y D) l.
Proof.
  unfold wind, cnt. rewrite <- sumf_add, <- sumf_sub. apply sumf_ext. intros [cx cy o] _.
  destruct (crack_eq_dec _ _) as [E1|E1], (crack_eq_dec _ _) as [E2|E2]; try (injection E1 as -> -> ->);
    try (injection E2 as -> -> ->); try discriminate; cbn;
  try destruct o; cbn; repeat match goal with |- context [if ?b then _ else _] => destruct b eqn:? end; try lia;
  exfalso; first [apply E1; f_equal; lia | apply E2; f_equal; lia].
Qed.

(** [l] is closed: whatever a function gains along its sides is lost again. *)
Definition circular (l : list crack) : Prop := forall f : point -> Z, sumf (fun c => f (endv c) - f (startv c)) l = 0.

Lemma wind_right l x y : circular l -> wind l (x + 1) y = wind l x y + cnt (Ck (x + 1) y L) l - cnt (Ck x y R) l.
Proof.
  intros C. specialize (C (fun v => ind ((fst v =? x + 1) && (snd v <=? y)))). cbn beta in C.
  enough (wind l x y - wind l (x + 1) y + cnt (Ck (x + 1) y L) l - cnt (Ck x y R) l = 0) by lia.
  rewrite <- C. unfold wind, cnt. rewrite <- sumf_sub, <- sumf_add, <- sumf_sub. apply sumf_ext. intros [cx cy o] _. clear C.
  destruct (crack_eq_dec _ _) as [E1|E1], (crack_eq_dec _ _) as [E2|E2]; try (injection E1 as -> -> ->);
    try (injection E2 as -> -> ->); try discriminate;
  try destruct o; unfold ind; cbn; repeat match goal with |- context [if ?b then _ else _] => destruct b eqn:? end; try lia;
  exfalso; first [apply E1; f_equal; lia | apply E2; f_equal; lia].
Qed.

Section Rule.
Variable r : crule.
Variable B : Z -> Z -> bool.

Definition isB (p : point) : Prop := B (fst p) (snd p) = true.
Definition isW (p : point) : Prop := B (fst p) (snd p) = false.
Lemma B_dec p : isB p \/ isW p.
Proof. unfold isB, isW. destruct (B _ _); auto. Qed.

(** The side after [c], clockwise around the foreground.  Under the 4-rule a walk also stops at the inner corner
    [Ck x y o] where the neighbour in direction [o] is foreground. *)
Definition next8 (c : crack) : crack :=
  match c with
  | Ck x y U => if B (x + 1) (y - 1) then Ck (x + 1) (y - 1) L else if B (x + 1) y then Ck (x + 1) y U else Ck x y R
  | Ck x y R => if B (x + 1) (y + 1) then Ck (x + 1) (y + 1) U else if B x (y + 1) then Ck x (y + 1) R else Ck x y D
  | Ck x y D => if B (x - 1) (y + 1) then Ck (x - 1) (y + 1) R else if B (x - 1) y then Ck (x - 1) y D else Ck x y L
  | Ck x y L => if B (x - 1) (y - 1) then Ck (x - 1) (y - 1) D else if B x (y - 1) then Ck x (y - 1) L else Ck x y U
  end.
Definition next4 (c : crack) : crack :=
  match c with
  | Ck x y U => if B x (y - 1) then Ck x (y - 1) L else if B (x + 1) y then Ck (x + 1) y U else Ck x y R
  | Ck x y R => if B (x + 1) y then Ck (x + 1) y U else if B x (y + 1) then Ck x (y + 1) R else Ck x y D
  | Ck x y D => if B x (y + 1) then Ck x (y + 1) R else if B (x - 1) y then Ck (x - 1) y D else Ck x y L
  | Ck x y L => if B (x - 1) y then Ck (x - 1) y D else if B x (y - 1) then Ck x (y - 1) L else Ck x y U
  end.
Definition next (c : crack) : crack := match r with Four => next4 c | Eight => next8 c end.

Definition is_crack (c : crack) : bool := B (fst (cpix c)) (snd (cpix c)) && negb (B (fst (cout c)) (snd (cout c))).
(** Inner corners (4-rule only): the walk came from a side of the neighbour in the direction opposite to the walk. *)
Definition corner (c : crack) : bool :=
  B (fst (cpix c)) (snd (cpix c)) && B (fst (cout c)) (snd (cout c)) &&
  match c with
  | Ck x y U => B (x - 1) y && negb (B (x - 1) (y - 1))
  | Ck x y R => B x (y - 1) && negb (B (x + 1) (y - 1))
  | Ck x y D => B (x + 1) y && negb (B (x + 1) (y + 1))
  | Ck x y L => B x (y + 1) && negb (B (x - 1) (y + 1))
  end.
Definition valid (c : crack) : bool := match r with Four => is_crack c || corner c | Eight => is_crack c end.
Definition prev8 (c : crack) : crack :=
  match c with
  | Ck x y U => if B (x - 1) (y - 1) then Ck (x - 1) (y - 1) R else if B (x - 1) y then Ck (x - 1) y U else Ck x y L
  | Ck x y R => if B (x + 1) (y - 1) then Ck (x + 1) (y - 1) D else if B x (y - 1) then Ck x (y - 1) R else Ck x y U
  | Ck x y D => if B (x + 1) (y + 1) then Ck (x + 1) (y + 1) L else if B (x + 1) y then Ck (x + 1) y D else Ck x y R
  | Ck x y L => if B (x - 1) (y + 1) then Ck (x - 1) (y + 1) U else if B x (y + 1) then Ck x (y + 1) L else Ck x y D
  end.
Definition prev4 (c : crack) : crack :=
  match c with
  | Ck x y U => if B x (y - 1) then Ck (x - 1) y U else
                if B (x - 1) y then (if B (x - 1) (y - 1) then Ck (x - 1) y R else Ck (x - 1) y U) else Ck x y L
  | Ck x y R => if B (x + 1) y then Ck x (y - 1) R else
                if B x (y - 1) then (if B (x + 1) (y - 1) then Ck x (y - 1) D else Ck x (y - 1) R) else Ck x y U
  | Ck x y D => if B x (y + 1) then Ck (x + 1) y D else
                if B (x + 1) y then (if B (x + 1) (y + 1) then Ck (x + 1) y L else Ck (x + 1) y D) else Ck x y R
  | Ck x y L => if B (x - 1) y then Ck x (y + 1) L else
                if B x (y + 1) then (if B (x - 1) (y + 1) then Ck x (y + 1) U else Ck x (y + 1) L) else Ck x y D
  end.
Definition prev (c : crack) : crack := match r with Four => prev4 c | Eight => prev8 c end.

Ltac nrm := cbn [fst snd cpix cout startv endv prev4 prev8 next4 next8] in *; rewrite ?Z.add_simpl_r, ?Z.sub_add in *.
Ltac brk :=
  repeat (nrm; match goal with
  | H : _ && _ = true |- _ => apply andb_prop in H as [? ?]
  | H : _ || _ = true |- _ => apply orb_prop in H as [?|?]
  | H : negb _ = true |- _ => apply negb_true_iff in H
  | H : B ?a ?b = _ |- context [B ?a ?b] => rewrite H
  | H : B ?a ?b = true, H' : B ?a ?b = false |- _ => congruence
  end; cbn [andb orb negb]).
Ltac brk_all := brk; repeat (match goal with
  | |- context [if B ?a ?b then Ck _ _ _ else _] => destruct (B a b) eqn:?
  | |- context [B ?a ?b] => destruct (B a b) eqn:? end; brk); auto; try congruence; try easy.

Lemma valid_next c : valid c = true -> valid (next c) = true.
Proof.
  unfold valid, next. destruct r, c as [x y []]; unfold is_crack, corner; cbn; intros H; brk_all.
Qed.
Lemma prev_next c : valid c = true -> prev (next c) = c.
Proof.
  unfold valid, next, prev. destruct r, c as [x y []]; unfold is_crack, corner; cbn; intros H; brk_all.
Qed.
Definition vend (c : crack) : point := if is_crack c then endv c else startv c.
Lemma start_next c : valid c = true -> startv (next c) = vend c.
Proof.
  unfold valid, next, vend. destruct r, c as [x y []]; unfold is_crack, corner; cbn; intros H; brk_all; cbn; f_equal; lia.
Qed.
Lemma next_inj c c' : valid c = true -> valid c' = true -> next c = next c' -> c = c'.
Proof. intros V V' E. rewrite <- (prev_next c), <- (prev_next c') by auto. now rewrite E. Qed.
Lemma valid_B c : valid c = true -> isB (cpix c).
Proof.
  unfold valid, is_crack, corner, isB. intros H. destruct r; [apply orb_prop in H as [H|H]|]; repeat (apply andb_prop in H as [H ?]); auto.
Qed.

(** Iteration. *)
Fixpoint iter (n : nat) (c : crack) : crack := match n with O => c | S m => iter m (next c) end.
Lemma iter_S n c : iter (S n) c = next (iter n c).
Proof. revert c. induction n; intros c; [reflexivity|]. change (iter (S (S n)) c) with (iter (S n) (next c)). rewrite IHn. reflexivity. Qed.
Lemma iter_add n m c : iter (n + m) c = iter n (iter m c).
Proof. induction n; [reflexivity|]. change (S n + m)%nat with (S (n + m)). now rewrite !iter_S, IHn. Qed.
Lemma valid_iter n c : valid c = true -> valid (iter n c) = true.
Proof. intros V. induction n; auto. rewrite iter_S. now apply valid_next. Qed.
Lemma iter_cancel i n c : valid c = true -> iter (i + n) c = iter i c -> iter n c = c.
Proof.
  intros V. induction i as [|i IH]; [auto|]. change (S i + n)%nat with (S (i + n)). rewrite !iter_S. intros E.
  apply IH. apply next_inj; auto using valid_iter.
Qed.

Definition orbit (n : nat) (c : crack) : list crack := map (fun i => iter i c) (seq 0 n).
Lemma in_orbit n c a : In a (orbit n c) <-> exists i, (i < n)%nat /\ a = iter i c.
Proof.
  unfold orbit. rewrite in_map_iff. split.
  - intros (i & <- & Hi). apply in_seq in Hi. exists i. split; auto; lia.
  - intros (i & Hi & ->). exists i. split; auto. apply in_seq. lia.
Qed.
Definition period (n : nat) (c : crack) : Prop :=
  (0 < n)%nat /\ iter n c = c /\ forall m, (0 < m < n)%nat -> iter m c <> c.

Lemma orbit_nodup n c : valid c = true -> period n c -> NoDup (orbit n c).
Proof.
  intros V (P & E & M). unfold orbit. apply NoDup_map_inv with (f := fun a => a). rewrite map_id.
  assert (forall k l, (k + l <= n)%nat -> NoDup (map (fun i => iter i c) (seq k l))) as G.
  { intros k l. revert k. induction l as [|l IH]; intros k Hk; cbn; constructor.
    - rewrite in_map_iff. intros (j & Ej & Hj). apply in_seq in Hj.
      replace j with (k + (j - k))%nat in Ej by lia. apply iter_cancel in Ej; auto. apply (M (j - k)%nat); auto; lia.
    - apply IH. lia. }
  apply G. lia.
Qed.

Lemma orbit_next n c a : period n c -> In a (orbit n c) -> In (next a) (orbit n c).
Proof.
  intros (P & E & M) H. apply in_orbit in H as (i & Hi & ->). apply in_orbit. rewrite <- iter_S.
  destruct (Nat.eq_dec (S i) n) as [->|N].
  - exists O. split; auto.
  - exists (S i). split; auto; lia.
Qed.
Lemma orbit_prev n c a : valid c = true -> period n c -> valid a = true -> In (next a) (orbit n c) -> In a (orbit n c).
Proof.
  intros Vc (P & E & M) V H. apply in_orbit in H as (i & Hi & Ei). apply in_orbit. destruct i as [|i].
  - exists (n - 1)%nat. split; [lia|]. apply next_inj; auto using valid_iter. rewrite Ei. cbn. rewrite <- iter_S.
    replace (S (n - 1)) with n by lia. auto.
  - exists i. split; [lia|]. apply next_inj; auto using valid_iter. now rewrite Ei, iter_S.
Qed.
Lemma orbit_valid n c a : valid c = true -> In a (orbit n c) -> valid a = true.
Proof. intros V H. apply in_orbit in H as (i & _ & ->). now apply valid_iter. Qed.
Lemma orbit_self n c : period n c -> In c (orbit n c).
Proof. intros (P & _). apply in_orbit. exists O. auto. Qed.
Lemma orbit_iter n c i : period n c -> In (iter i c) (orbit n c).
Proof.
  intros P. induction i; [now apply orbit_self|]. rewrite iter_S. now apply orbit_next.
Qed.

(** Orbits of finite pictures are closed. *)
Section Finite.
Variables W H : Z.
Hypothesis HB : forall x y, B x y = true -> 1 <= x <= W /\ 1 <= y <= H.

Definition zs (n : Z) : list Z := map (fun i => Z.of_nat i + 1) (seq 0 (Z.to_nat n)).
Lemma zs_in n x : 1 <= x <= n -> In x (zs n).
Proof. intros Hx. unfold zs. apply in_map_iff. exists (Z.to_nat (x - 1)). split; [lia|]. apply in_seq. lia. Qed.
Definition all_cracks : list crack :=
  flat_map (fun x => flat_map (fun y => map (Ck x y) [R; D; L; U]) (zs H)) (zs W).
Lemma flat_map_len {A C} (f : A -> list C) k l : (forall a, In a l -> length (f a) = k) -> length (flat_map f l) = (length l * k)%nat.
Proof. induction l as [|a l IH]; cbn; intros Hf; auto. rewrite app_length, Hf, IH; auto. Qed.
Lemma all_cracks_len : 0 <= W -> 0 <= H -> Z.of_nat (length all_cracks) = 4 * W * H.
Proof.
  intros Hw Hh. unfold all_cracks. rewrite flat_map_len with (k := (length (zs H) * 4)%nat).
  - unfold zs. rewrite !map_length, !seq_length. nia.
  - intros x _. apply flat_map_len. intros; reflexivity.
Qed.
Lemma valid_in c : valid c = true -> In c all_cracks.
Proof.
  intros V. apply valid_B in V. destruct c as [x y o]. unfold isB in V; cbn in V. apply HB in V.
  unfold all_cracks. apply in_flat_map. exists x. split; [apply zs_in; lia|]. apply in_flat_map. exists y.
  split; [apply zs_in; lia|]. destruct o; cbn; tauto.
Qed.

Lemma least_nat (P : nat -> Prop) : (forall n, P n \/ ~ P n) -> forall n, P n -> exists m, P m /\ (m <= n)%nat /\ forall k, (k < m)%nat -> ~ P k.
Proof.
  intros Dec n. induction n as [n IH] using lt_wf_ind. intros Pn.
  assert ((exists k, (k < n)%nat /\ P k) \/ forall k, (k < n)%nat -> ~ P k) as [(k & Hk & Pk)|N].
  { clear IH Pn. induction n as [|n [(k & Hk & Pk)|N]]; [right; lia|left; exists k; split; auto|].
    destruct (Dec n); [left; exists n; split; auto|]. right. intros k Hk. destruct (Nat.eq_dec k n) as [->|]; auto. apply N; lia. }
  - destruct (IH k Hk Pk) as (m & Pm & Hm & Hn). exists m. repeat split; auto. lia.
  - exists n. auto.
Qed.

Lemma dup_index (f : nat -> crack) k : NoDup (map f (seq 0 k)) \/ exists i j, (i < j < k)%nat /\ f i = f j.
Proof.
  induction k as [|k [IH|(i & j & Hij & E)]]; [left; constructor| |right; exists i, j; split; auto; lia].
  rewrite seq_S, map_app. cbn. destruct (in_dec crack_eq_dec (f k) (map f (seq 0 k))) as [I|I].
  - right. apply in_map_iff in I as (i & Ei & Hi). apply in_seq in Hi. exists i, k. split; auto; lia.
  - left. apply NoDup_app_snoc; auto.
Qed.
Lemma period_exists c : 0 <= W -> 0 <= H -> valid c = true ->
  exists n, period n c /\ Z.of_nat n <= 4 * W * H.
Proof.
  intros Hw Hh V. pose proof (all_cracks_len Hw Hh) as Lm. set (m := length all_cracks) in *.
  assert (exists n, (0 < n <= m)%nat /\ iter n c = c) as (n & Hn & En).
  { assert (~ NoDup (orbit (S m) c)) as N.
    { intros N. assert (length (orbit (S m) c) <= m)%nat as Le.
      { apply NoDup_incl_length; auto. intros a Ha. apply valid_in. now apply orbit_valid in Ha. }
      unfold orbit in Le. rewrite map_length, seq_length in Le. lia. }
    destruct (dup_index (fun i => iter i c) (S m)) as [Y|(i & j & Hij & Ej)]; [contradiction|].
    exists (j - i)%nat. split; [lia|]. apply (iter_cancel i); auto. replace (i + (j - i))%nat with j by lia. auto. }
  destruct (least_nat (fun k => (0 < k)%nat /\ iter k c = c)) with (n := n) as (k & (K1 & K2) & K3 & K4).
  { intros k. destruct (Nat.eq_dec k 0); [right; lia|]. destruct (crack_eq_dec (iter k c) c); [left; split; auto; lia|right; tauto]. }
  { split; auto; lia. }
  exists k. split; [|lia]. split; auto. split; auto. intros j Hj Ej. apply (K4 j); [lia|]. split; auto; lia.
Qed.
End Finite.

(** ** The closed walk through [c] *)
Section Orbit.
Variables (n : nat) (c : crack).
Hypothesis Vc : valid c = true.
Hypothesis Pn : period n c.

(** Its sides. *)
Definition sides : list crack := filter is_crack (orbit n c).
Lemma in_sides a : In a sides <-> In a (orbit n c) /\ is_crack a = true.
Proof. apply filter_In. Qed.
Lemma sides_nodup : NoDup sides.
Proof. apply NoDup_filter, orbit_nodup; auto. Qed.
Lemma sides_circular : circular sides.
Proof.
  intros f. unfold sides. transitivity (sumf (fun a => f (vend a) - f (startv a)) (filter is_crack (orbit n c))).
  { apply sumf_ext. intros a Ha. apply filter_In in Ha as [_ Ha]. unfold vend. now rewrite Ha. }
  rewrite sumf_filter. 2:{ intros a _ Ha. unfold vend. rewrite Ha. lia. }
  destruct Pn as (_ & E & _). clear Pn.
  assert (forall k i, sumf (fun a => f (vend a) - f (startv a)) (map (fun i => iter i c) (seq i k)) =
            f (startv (iter (i + k) c)) - f (startv (iter i c))) as G.
  { induction k as [|k IH]; intros i; cbn [seq map sumf]; [rewrite Nat.add_0_r; lia|].
    rewrite IH. rewrite <- start_next by now apply valid_iter. rewrite <- iter_S.
    replace (i + S k)%nat with (S i + k)%nat by lia. lia. }
  unfold orbit. rewrite G. cbn [Nat.add]. rewrite E. cbn [iter]. lia.
Qed.
Lemma side_next a : is_crack a = true -> is_crack (next a) = true -> In a sides <-> In (next a) sides.
Proof.
  intros Ha Hn. rewrite !in_sides.
  assert (valid a = true) by (unfold valid; destruct r; rewrite Ha; auto).
  split; intros [I _]; split; auto.
  - now apply orbit_next.
  - apply (orbit_prev n c); auto.
Qed.

Definition wn (p : point) : Z := wind sides (fst p) (snd p).
Lemma cnt0 a : is_crack a = false -> cnt a sides = 0.
Proof. intros H. apply cnt_notin. rewrite in_sides. intros [_ I]. congruence. Qed.

(** Across a vertical or horizontal line. *)
Lemma wn_down x y : wn (x, y + 1) = wn (x, y) + cnt (Ck x (y + 1) U) sides - cnt (Ck x y D) sides.
Proof. apply wind_down. Qed.
Lemma wn_right x y : wn (x + 1, y) = wn (x, y) + cnt (Ck (x + 1) y L) sides - cnt (Ck x y R) sides.
Proof. apply wind_right, sides_circular. Qed.

Lemma wn_same4 p q : adj4 p q -> B (fst p) (snd p) = B (fst q) (snd q) -> wn p = wn q.
Proof.
  destruct p as [x y], q as [x' y']; unfold adj4; cbn [fst snd]; intros A E.
  assert ((x' = x + 1 /\ y' = y) \/ (x = x' + 1 /\ y' = y) \/ (x' = x /\ y' = y + 1) \/ (x' = x /\ y = y' + 1)) as C by lia.
  destruct C as [[-> ->]|[[-> ->]|[[-> ->]|[-> ->]]]].
  - rewrite wn_right, !cnt0; [lia| |]; unfold is_crack; nrm; rewrite E; apply andb_negb_r.
  - rewrite wn_right, !cnt0; [lia| |]; unfold is_crack; nrm; rewrite E; apply andb_negb_r.
  - rewrite wn_down, !cnt0; [lia| |]; unfold is_crack; nrm; rewrite E; apply andb_negb_r.
  - rewrite wn_down, !cnt0; [lia| |]; unfold is_crack; nrm; rewrite E; apply andb_negb_r.
Qed.

(** The foreground pixel of a side counts one more than the background pixel, exactly if the walk uses the side. *)
Lemma wn_cross a : is_crack a = true -> wn (cpix a) = wn (cout a) + cnt a sides.
Proof.
  intros Ha. destruct a as [x y []]; cbn [cpix cout].
  - rewrite wn_right. rewrite (cnt0 (Ck (x + 1) y L)); [lia|]. unfold is_crack in *; brk; auto.
  - rewrite wn_down. rewrite (cnt0 (Ck x (y + 1) U)); [lia|]. unfold is_crack in *; brk; auto.
  - pose proof (wn_right (x - 1) y) as E. rewrite Z.sub_add in E. rewrite E. rewrite (cnt0 (Ck (x - 1) y R)); [lia|].
    unfold is_crack in *; brk; auto.
  - pose proof (wn_down x (y - 1)) as E. rewrite Z.sub_add in E. rewrite E. rewrite (cnt0 (Ck x (y - 1) D)); [lia|].
    unfold is_crack in *; brk; auto.
Qed.
Lemma wn_cross_in a : In a sides -> wn (cpix a) = wn (cout a) + 1.
Proof.
  intros I. rewrite wn_cross by now apply in_sides in I. rewrite cnt_in; auto using sides_nodup.
Qed.
Lemma wn_cross_iff a : is_crack a = true -> (In a sides <-> wn (cpix a) <> wn (cout a)).
Proof.
  intros Ha. split; intros I.
  - apply wn_cross_in in I. lia.
  - rewrite wn_cross in I by auto. destruct (in_dec crack_eq_dec a sides); auto. rewrite cnt_notin in I by auto. lia.
Qed.


(** Winding numbers are constant on connected sets of foreground and of background pixels. *)
Ltac step4 := apply wn_same4; [unfold adj4; cbn [fst snd]; lia|cbn [fst snd]; congruence].
Lemma wn_diag8 x y x' : r = Eight -> x' = x + 1 \/ x' = x - 1 -> B x y = true -> B x' (y + 1) = true -> wn (x, y) = wn (x', y + 1).
Proof.
  intros Er [->| ->] H1 H2.
  - destruct (B (x + 1) y) eqn:E.
    + transitivity (wn (x + 1, y)); step4.
    + pose proof (wn_cross (Ck x y R)) as C1. pose proof (wn_cross (Ck (x + 1) (y + 1) U)) as C2.
      unfold is_crack in C1, C2. nrm. rewrite H1, E in C1. rewrite H2, E in C2. cbn [andb negb] in *.
      rewrite C1, C2 by auto. f_equal. apply cnt_iff; [apply sides_nodup|].
      replace (Ck (x + 1) (y + 1) U) with (next (Ck x y R)) by (unfold next; rewrite Er; cbn; now rewrite H2).
      apply side_next; unfold next; rewrite ?Er; unfold is_crack; cbn [cpix cout]; cbn [next8]; rewrite ?H2; nrm; rewrite ?H1, ?E, ?H2; auto.
  - destruct (B (x - 1) y) eqn:E.
    + transitivity (wn (x - 1, y)); step4.
    + pose proof (wn_cross (Ck x y L)) as C1. pose proof (wn_cross (Ck (x - 1) (y + 1) U)) as C2.
      unfold is_crack in C1, C2. nrm. rewrite H1, E in C1. rewrite H2, E in C2. cbn [andb negb] in *.
      rewrite C1, C2 by auto. f_equal. apply cnt_iff; [apply sides_nodup|].
      assert (Ck x y L = next (Ck (x - 1) (y + 1) U)) as Ex by (unfold next; rewrite Er; cbn [next8]; nrm; now rewrite H1).
      rewrite Ex. symmetry. apply side_next; rewrite <- ?Ex; unfold is_crack; nrm; rewrite ?H1, ?E, ?H2; auto.
Qed.
Lemma wn_diag4 x y x' : r = Four -> x' = x + 1 \/ x' = x - 1 -> B x y = false -> B x' (y + 1) = false -> wn (x, y) = wn (x', y + 1).
Proof.
  intros Er [->| ->] H1 H2.
  - destruct (B (x + 1) y) eqn:E.
    2:{ transitivity (wn (x + 1, y)); step4. }
    pose proof (wn_cross (Ck (x + 1) y L)) as C1. pose proof (wn_cross (Ck (x + 1) y D)) as C2.
    unfold is_crack in C1, C2. nrm. rewrite H1, E in C1. rewrite H2, E in C2. cbn [andb negb] in *.
    specialize (C1 eq_refl). specialize (C2 eq_refl).
    enough (cnt (Ck (x + 1) y L) sides = cnt (Ck (x + 1) y D) sides) by lia.
    assert (Ck (x + 1) y L = next (Ck (x + 1) y D)) as Ex by (unfold next; rewrite Er; cbn [next4]; nrm; now rewrite H1, H2).
    apply cnt_iff; [apply sides_nodup|]. rewrite Ex. symmetry. apply side_next; rewrite <- ?Ex; unfold is_crack; nrm; rewrite ?H1, ?E, ?H2; auto.
  - destruct (B (x - 1) y) eqn:E.
    2:{ transitivity (wn (x - 1, y)); step4. }
    pose proof (wn_cross (Ck (x - 1) y R)) as C1. pose proof (wn_cross (Ck (x - 1) y D)) as C2.
    unfold is_crack in C1, C2. nrm. rewrite H1, E in C1. rewrite H2, E in C2. cbn [andb negb] in *.
    specialize (C1 eq_refl). specialize (C2 eq_refl).
    enough (cnt (Ck (x - 1) y R) sides = cnt (Ck (x - 1) y D) sides) by lia.
    assert (Ck (x - 1) y D = next (Ck (x - 1) y R)) as Ex by (unfold next; rewrite Er; cbn [next4]; nrm; now rewrite H1, H2).
    apply cnt_iff; [apply sides_nodup|]. rewrite Ex. apply side_next; rewrite <- ?Ex; unfold is_crack; nrm; rewrite ?H1, ?E, ?H2; auto.
Qed.

Lemma adj8_cases p q : adj8 p q -> adj4 p q \/
  (exists x y x', (x' = x + 1 \/ x' = x - 1) /\ ((p = (x, y) /\ q = (x', y + 1)) \/ (q = (x, y) /\ p = (x', y + 1)))).
Proof.
  destruct p as [x y], q as [x' y']; unfold adj8, adj4; cbn. intros A.
  assert (Z.abs (x - x') + Z.abs (y - y') = 1 \/ (y' = y + 1 /\ (x' = x + 1 \/ x' = x - 1)) \/ (y = y' + 1 /\ (x = x' + 1 \/ x = x' - 1))) as C by lia.
  destruct C as [C|[[-> C]|[-> C]]]; auto; right.
  - exists x, y, x'. auto.
  - exists x', y', x. auto.
Qed.
Lemma wn_black p q : adj r p q -> isB p -> isB q -> wn p = wn q.
Proof.
  unfold isB. intros A Hp Hq. destruct r eqn:Er; cbn in A.
  - apply wn_same4; congruence.
  - apply adj8_cases in A as [A|(x & y & x' & C & [[-> ->]|[-> ->]])].
    + apply wn_same4; congruence.
    + now apply wn_diag8.
    + symmetry. now apply wn_diag8.
Qed.
Lemma wn_white p q : adj_bg r p q -> isW p -> isW q -> wn p = wn q.
Proof.
  unfold isW. intros A Hp Hq. destruct r eqn:Er; cbn in A.
  - apply adj8_cases in A as [A|(x & y & x' & C & [[-> ->]|[-> ->]])].
    + apply wn_same4; congruence.
    + now apply wn_diag4.
    + symmetry. now apply wn_diag4.
  - apply wn_same4; congruence.
Qed.
Lemma conn_right {a S p q} : conn a S p q -> S q.
Proof. now destruct 1. Qed.
Lemma conn_left {a S p q} : conn a S p q -> S p.
Proof. induction 1; auto. Qed.
Lemma wn_conn_black p q : conn (adj r) isB p q -> wn p = wn q.
Proof. induction 1 as [|q q' C IH A Hq]; auto. rewrite IH. apply wn_black; auto. eapply conn_right; eauto. Qed.
Lemma wn_conn_white p q : conn (adj_bg r) isW p q -> wn p = wn q.
Proof. induction 1 as [|q q' C IH A Hq]; auto. rewrite IH. apply wn_white; auto. eapply conn_right; eauto. Qed.
End Orbit.
End Rule.

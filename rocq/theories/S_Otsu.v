(** Specification of Otsu's method: split a histogram into the bins up to [i] and the bins after [i]. *)
From Coq Require Import QArith.
From Verif Require Import Base S_Blur M_GrowArray M_Image S_Image S_Stats.
Open Scope Z_scope.

(** Sum of bin number times count, the first bin having number [k]. *)
Fixpoint moment (k : Z) (l : list Z) : Z :=
  match l with [] => 0 | a :: r => k * a + moment (k + 1) r end.

(** The two classes, their sizes and their mean bins. *)
Definition below (h : list Z) (i : Z) : list Z := firstn (Z.to_nat (i + 1)) h.
Definition above (h : list Z) (i : Z) : list Z := skipn (Z.to_nat (i + 1)) h.
Definition low_mean (h : list Z) (i : Z) : Q := (inject_Z (moment 0 (below h i)) / inject_Z (zsum (below h i)))%Q.
Definition high_mean (h : list Z) (i : Z) : Q := (inject_Z (moment (i + 1) (above h i)) / inject_Z (zsum (above h i)))%Q.

(** Between-class variance of a split, up to a constant factor; 0 if one class is empty. *)
Definition separation (h : list Z) (i : Z) : Q :=
  if (zsum (below h i) =? 0) || (zsum (above h i) =? 0) then 0%Q
  else (inject_Z (zsum (below h i)) * inject_Z (zsum (above h i)) *
        (low_mean h i - high_mean h i) * (low_mean h i - high_mean h i))%Q.

(** The smallest split with the largest separation. *)
Definition best_split (h : list Z) (t : Z) : Prop :=
  0 <= t < zlen h /\
  (forall i, 0 <= i < zlen h -> (separation h i <= separation h t)%Q) /\
  (forall i, 0 <= i < t -> (separation h i < separation h t)%Q).

(** [l] are the contents of a histogram with non-negative counts that fit in 32 bits together. *)
Definition counts (l : list Z) : Prop := Forall (fun c => 0 <= c) l /\ zsum l < 4294967296 /\ zlen l < 4294967296.

(** Nearest integer, halves upward. *)
Definition nearest (q : Q) (z : Z) : Prop := (inject_Z z - (1 # 2) <= q /\ q < inject_Z z + (1 # 2))%Q.

(** The histogram object [h] holds the counts [l]. *)
Definition holds_counts (h : growarr Z) (l : list Z) : Prop :=
  ga_size h = zlen l /\ forall i v, znth l i = Some v -> ga_at h i = Ok v.

(** The histogram of pixel values [mn..mx], as counts. *)
Definition value_counts (g : gray Z) (mn mx : Z) : list Z :=
  map (fun i => zcount (mn + i) (all_pixels g)) (zrange (mx - mn + 1)).

(** What a mean filter should compute. *)
From Verif Require Import Base M_Image S_Image.

(** The values among [px i, px (i+1), ..., px (i+n-1)] that exist. *)
Fixpoint present (px : Z -> option Z) (i : Z) (n : nat) : list Z :=
  match n with
  | O => []
  | S m => match px i with Some v => v :: present px (i + 1) m | None => present px (i + 1) m end
  end.

Definition zsum (l : list Z) : Z := fold_right Z.add 0 l.

(** Mean of a list: half the length is added, the division truncates. *)
Definition round_mean (l : list Z) : Z := Z.quot (zsum l + zlen l / 2) (zlen l).

(** Mean of the pixels of the image at distance at most [r] in the same row, in the same column. *)
Definition mean_row (g : gray Z) (r x y : Z) : Z :=
  round_mean (present (fun i => pixel g i y) (x - r) (Z.to_nat (2 * r + 1))).
Definition mean_col (g : gray Z) (r x y : Z) : Z :=
  round_mean (present (fun i => pixel g x i) (y - r) (Z.to_nat (2 * r + 1))).

(** Mean along the column of the means along the rows. *)
Definition mean_box (g : gray Z) (r x y : Z) : Z :=
  round_mean (present (fun i => if (0 <=? i) && (i <? g_height g) then Some (mean_row g r x i) else None)
                      (y - r) (Z.to_nat (2 * r + 1))).

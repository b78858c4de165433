(** What a normalized convolution should compute. *)
From Verif Require Import Base M_Image S_Image M_Border S_Border M_Convolve M_Normalized S_Convolve.

(** Total of coefficient times sample and total of the coefficients, over the samples that exist. *)
Fixpoint covered {E S R} (A : arith E S R) (t w : S) (ks : list S) (px : Z -> option E) (i : Z) : option (S * S) :=
  match ks with
  | [] => Some (t, w)
  | c :: r =>
      match px i with
      | None => covered A t w r px (i + 1)
      | Some p =>
          match a_prod A c p with
          | Ok m =>
              match a_add A t m, a_add A w c with
              | Ok t', Ok w' => covered A t' w' r px (i + 1)
              | _, _ => None
              end
          | _ => None
          end
      end
  end.

(** Their quotient, as a pixel. *)
Definition averaged {E S} (N : narith E S) (ks : list S) (px : Z -> option E) : option E :=
  match covered (na_arith N) (a_zero (na_arith N)) (a_zero (na_arith N)) ks px 0 with
  | None => None
  | Some (t, w) => match na_norm N t w with Ok r => Some r | _ => None end
  end.

Definition nvalue_h {E S} (N : narith E S) (K : kernel S) (g : gray E) (x y : Z) : option E :=
  averaged N (k_data K) (fun i => pixel g (x - k_offset K + i) y).
Definition nvalue_v {E S} (N : narith E S) (K : kernel S) (g : gray E) (x y : Z) : option E :=
  averaged N (k_data K) (fun i => pixel g x (y - k_offset K + i)).

(** Laws of an instance.  A comparison with one that succeeds must mean that dividing by that sum changes nothing. *)
Definition narith_ok {E S} (N : narith E S) : Prop :=
  forall t w, na_float N = true -> na_one N w = true -> na_norm N t w = a_out (na_arith N) t.


(** The same for the totals that arise from the pixels of one image only. *)
Definition from_image {E} (g : gray E) (px : Z -> option E) : Prop :=
  forall j v, px j = Some v -> exists x y, pixel g x y = Some v.
Definition unit_ok {E S} (N : narith E S) (K : kernel S) (g : gray E) : Prop :=
  forall px t w, from_image g px -> weighted (na_arith N) (a_zero (na_arith N)) (k_data K) px 0 = Some t ->
  na_float N = true -> na_one N w = true -> na_norm N t w = a_out (na_arith N) t.

(** All samples and their sums over integers; [px i = None] means there is no sample. *)
Fixpoint zcovered (ks : list Z) (px : Z -> option Z) (i : Z) : Z * Z :=
  match ks with
  | [] => (0, 0)
  | c :: r => let '(t, w) := zcovered r px (i + 1) in
              match px i with Some p => (c * p + t, c + w) | None => (t, w) end
  end.

(** Horizontal then vertical: the vertical filter sees the horizontally filtered rows. *)
Definition nvalue_2 {E S} (N : narith E S) (K : kernel S) (g : gray E) (x y : Z) : option E :=
  averaged N (k_data K) (fun i =>
    let y' := y - k_offset K + i in
    if (0 <=? y') && (y' <? g_height g) then nvalue_h N K g x y' else None).

(** Total divided by weight, half a weight added first, truncated. *)
Definition rounded (tw : Z * Z) : Z := Z.quot (fst tw + Z.quot (snd tw) 2) (snd tw).

(** Both passes over integers: rounded means of the rows, then the rounded mean of the column of those. *)
Definition two_pass (ks : list Z) (off : Z) (g : gray Z) (x y : Z) : Z :=
  rounded (zcovered ks (fun i =>
    let y' := y - off + i in
    if (0 <=? y') && (y' <? g_height g)
    then Some (rounded (zcovered ks (fun j => pixel g (x - off + j) y') 0)) else None) 0).

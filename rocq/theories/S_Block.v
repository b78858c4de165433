(** Specification of thresholding by blocks. *)
From Coq Require Import QArith Qround Floats.SpecFloat.
From Verif Require Import Base M_Image M_GrowArray M_Float M_Otsu M_Config M_Block S_Image S_Blur S_Stats S_Otsu.
Open Scope Z_scope.

(** ** Blocks along one axis: [n] pixels, blocks of at least [req] pixels *)

Definition block_count (n req : Z) : Z := n / req.
Definition block_len (n req : Z) : Z := n / block_count n req.
Definition block_lo (n req b : Z) : Z := b * block_len n req.
Definition block_hi (n req b : Z) : Z := if b =? block_count n req - 1 then n else (b + 1) * block_len n req.

(** The block of a pixel. *)
Definition block_of (n req x : Z) : Z := Z.min (x / block_len n req) (block_count n req - 1).

(** lo, lo+1, ..., hi-1. *)
Definition zseq (lo hi : Z) : list Z := map (fun i => lo + i) (zrange (hi - lo)).

(** The block itself, or together with the blocks next to it. *)
Definition around (local : bool) (n b : Z) : list Z :=
  if local then zseq (Z.max 0 (b - 1)) (Z.min n (b + 2)) else [b].

(** ** Blocks of an image *)

Definition cols {E} (g : gray E) (req : Z) : Z := block_count (g_width g) req.
Definition rows {E} (g : gray E) (req : Z) : Z := block_count (g_height g) req.

(** The pixels of a block in reading order. *)
Definition block_pixels {E} (g : gray E) (req : Z) (b : Z * Z) : list E :=
  flat_map (fun y => flat_map (fun x => opt_list (pixel g x y)) (zseq (block_lo (g_width g) req (fst b)) (block_hi (g_width g) req (fst b))))
    (zseq (block_lo (g_height g) req (snd b)) (block_hi (g_height g) req (snd b))).

(** The block of a pixel, and the blocks whose statistics are used for it. *)
Definition home {E} (g : gray E) (req x y : Z) : Z * Z := (block_of (g_width g) req x, block_of (g_height g) req y).
Definition near_blocks {E} (g : gray E) (req : Z) (local : bool) (b : Z * Z) : list (Z * Z) :=
  flat_map (fun y => map (fun x => (x, y)) (around local (cols g req) (fst b))) (around local (rows g req) (snd b)).

(** All pixels that may influence the result in block [b]. *)
Definition near_pixels {E} (g : gray E) (req : Z) (local : bool) (b : Z * Z) : list E :=
  flat_map (block_pixels g req) (near_blocks g req local b).

(** [b] is a block of the image. *)
Definition is_block {E} (g : gray E) (req : Z) (b : Z * Z) : Prop := 0 <= fst b < cols g req /\ 0 <= snd b < rows g req.

(** All blocks in reading order, for an image of [w] x [h] pixels. *)
Definition all_blocks (w h req : Z) : list (Z * Z) :=
  flat_map (fun y => map (fun x => (x, y)) (zrange (block_count w req))) (zrange (block_count h req)).

(** What [process] needs: images of the same size, and a block that is not empty and not larger than the image. *)
Definition fits {E D} (O : dops D) (c : clen D) (g : gray E) (o : gray Z) (req : Z) : Prop :=
  wf g /\ wf o /\ g_width o = g_width g /\ g_height o = g_height g /\
  clen_computeI O c (d_of O (Z.min (g_width g) (g_height g))) = Ok req /\
  1 <= req <= g_width g /\ 1 <= req <= g_height g.

(** The images have the same size and agree on the blocks whose statistics are used for block [b]. *)
Definition agree_near {E} (g g' : gray E) (req : Z) (local : bool) (b : Z * Z) : Prop :=
  g_width g = g_width g' /\ g_height g = g_height g' /\
  forall x y, In (home g req x y) (near_blocks g req local b) -> pixel g x y = pixel g' x y.

(** ** Statistics kept between calls *)

(** What the constructor and earlier calls leave in [stats]. *)
Definition ready {E T} (F : bfilter E T) (st : inter T) : Prop := i_wf st /\ i_sub st = false /\ i_bands st = bf_bands F.

(** ** The three thresholds, for arbitrary arithmetic *)

Definition mean_stat {E S} (M : bmean E S) (g : gray E) (req : Z) (b : Z * Z) : outcome E :=
  let* s := mfold (fun v s => bm_add M s v) (block_pixels g req b) (bm_zero M) in
  bm_stat M (zlen (block_pixels g req b)) s.
Definition mean_threshold {E S} (M : bmean E S) (g : gray E) (req : Z) (local : bool) (b : Z * Z) : outcome E :=
  let* s := mfold (fun b s => let* v := mean_stat M g req b in bm_add M s v) (near_blocks g req local b) (bm_zero M) in
  bm_mean M (zlen (near_blocks g req local b)) s.

(** 1 if the pixel is on the wanted side. *)
Definition side (down le : bool) : Z := if down then if le then 1 else 0 else if le then 0 else 1.

Definition mean_value {E S} (M : bmean E S) (g : gray E) (req : Z) (local down : bool) (x y : Z) : outcome Z :=
  match pixel g x y with
  | Some v => let* m := mean_threshold M g req local (home g req x y) in Ok (side down (bm_le M v m))
  | None => Undef
  end.

(** Counts of the values 0..255. *)
Definition byte_counts (l : list Z) : list Z := map (fun i => zcount i l) (zrange 256).

(** The integer of an outcome, to state what an image holds. *)
Definition value {A} (o : outcome A) : option A := match o with Ok v => Some v | _ => None end.

(** Smallest and largest pixel of a block and of a region, as the comparisons find them; the pair is (smallest, largest). *)
Definition mm_step {E A} (M : bminmax E A) (mm : E * E) (v : E) : E * E :=
  if mm_lt M v (fst mm) then (v, snd mm) else if mm_lt M (snd mm) v then (fst mm, v) else mm.
Definition mm_stat {E A} (M : bminmax E A) (g : gray E) (req : Z) (b : Z * Z) : E * E :=
  match block_pixels g req b with
  | v :: _ => fold_left (mm_step M) (block_pixels g req b) (v, v)
  | [] => (mm_max M, mm_min M)
  end.
Definition mm_join {E A} (M : bminmax E A) (mm s : E * E) : E * E :=
  (if mm_lt M (fst s) (fst mm) then fst s else fst mm, if mm_lt M (snd mm) (snd s) then snd s else snd mm).
Definition mm_range {E A} (M : bminmax E A) (g : gray E) (req : Z) (local : bool) (b : Z * Z) : E * E :=
  fold_left (mm_join M) (map (mm_stat M g req) (near_blocks g req local b)) (mm_max M, mm_min M).

Definition mm_value {E A} (M : bminmax E A) (g : gray E) (req : Z) (local down : bool) (x y : Z) : outcome Z :=
  match pixel g x y with
  | Some v =>
      let '(mn, mx) := mm_range M g req local (home g req x y) in
      let* t := mm_texture M in
      let* flat := mm_flat M t mx mn in
      if flat then Ok 1 else let* a := mm_average M mx mn in Ok (side down (mm_le M v a))
  | None => Undef
  end.

(** The Otsu threshold of the histogram of all pixels of the region; [c] converts pixels to 0..255. *)
Definition otsu_threshold {E D} (O : dops D) (c : E -> Z) (two : bool) (tuning scale : D) (g : gray E) (req : Z) (local down : bool)
    (b : Z * Z) : outcome (D * D) :=
  otsu_compute O two tuning down scale (ga_of_list (int_mem U32) (byte_counts (map c (near_pixels g req local b))))
    (zlen (near_pixels g req local b)).
Definition otsu_value {E D} (O : dops D) (c : E -> Z) (two : bool) (tuning scale : D) (g : gray E) (req : Z) (local down : bool)
    (x y : Z) : outcome Z :=
  match pixel g x y with
  | Some v =>
      let* vt := otsu_threshold O c two tuning scale g req local down (home g req x y) in
      Ok (side down (d_le O (d_of O (c v)) (snd vt)))
  | None => Undef
  end.

(** ** Unsigned integer images and exact arithmetic *)

(** Scaled mean, rounded to the nearest integer. *)
Definition scaled_mean (scale : Q) (l : list Z) : Z :=
  Qfloor (scale * inject_Z (zsum l) / inject_Z (zlen l) + (1 # 2)).
(** The threshold of block [b]: the mean of the means, rounded down. *)
Definition mean_level (scale : Q) (g : gray Z) (req : Z) (local : bool) (b : Z * Z) : Z :=
  zsum (map (fun c => scaled_mean scale (block_pixels g req c)) (near_blocks g req local b)) / zlen (near_blocks g req local b).

Definition lowest (l : list Z) : Z := match l with [] => 0 | a :: r => fold_left Z.min r a end.
Definition highest (l : list Z) : Z := match l with [] => 0 | a :: r => fold_left Z.max r a end.
(** 1 in flat regions; otherwise the pixel is compared with the scaled middle of the range of values. *)
Definition range_value (spread scale : Q) (down : bool) (l : list Z) (v : Z) : Z :=
  if highest l - lowest l <=? Qfloor spread then 1
  else side down (v <=? Qfloor (scale * inject_Z ((highest l + lowest l) / 2))).

(** All pixels are values of the type. *)
Definition typed (t : ity) (g : gray Z) : Prop := forall x y v, pixel g x y = Some v -> ity_min t <= v <= ity_max t.

(** ** Floating point images: the operations in the order in which they are rounded *)
Definition float_mean (f : fty) (scale : spec_float) (l : list spec_float) : spec_float :=
  fdiv f (fmul f scale (fold_left (fadd f) l (S754_zero false))) (float_of_Z f (zlen l)).
Definition float_level (f : fty) (scale : spec_float) (g : gray spec_float) (req : Z) (local : bool) (b : Z * Z) : spec_float :=
  fdiv f (fold_left (fun s c => fadd f s (float_mean f scale (block_pixels g req c))) (near_blocks g req local b) (S754_zero false))
    (float_of_Z f (zlen (near_blocks g req local b))).

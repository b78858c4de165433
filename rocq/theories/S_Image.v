(** Specification vocabulary for images, in unbounded arithmetic. *)
From Verif Require Import Base M_Image.

(** (x,y) is a pixel of the image. *)
Definition inside {A} (g : gray A) (x y : Z) : Prop := 0 <= x < g_width g /\ 0 <= y < g_height g.

(** Position of pixel (x,y) in the buffer. *)
Definition pos {A} (g : gray A) (x y : Z) : Z := g_offset g + y * g_stride g + x.

(** The image as a partial function of its coordinates. *)
Definition pixel {A} (g : gray A) (x y : Z) : option A :=
  if (0 <=? x) && (x <? g_width g) && (0 <=? y) && (y <? g_height g) then znth (g_data g) (pos g x y) else None.

(** Buffer position [j] belongs to no pixel of [g]. *)
Definition outside_window {A} (g : gray A) (j : Z) : Prop := forall x y, inside g x y -> pos g x y <> j.

(** [g'] differs from [g] at most in the contents of the buffer. *)
Definition same_layout {A B} (g : gray A) (g' : gray B) : Prop :=
  g_width g' = g_width g /\ g_height g' = g_height g /\ g_offset g' = g_offset g /\
  g_stride g' = g_stride g /\ g_sub g' = g_sub g /\ zlen (g_data g') = zlen (g_data g).

(** Images whose rows lie one after the other inside a buffer that 32-bit indices can address. *)
Definition wf {A} (g : gray A) : Prop :=
  0 <= g_width g < 4294967296 /\ 0 <= g_height g < 4294967296 /\
  0 <= g_offset g /\ g_width g <= g_stride g < 4294967296 /\
  zlen (g_data g) < 4294967296 /\
  (0 < g_width g -> 0 < g_height g ->
     g_offset g + (g_height g - 1) * g_stride g + g_width g <= zlen (g_data g)) /\
  (g_sub g = false -> g_offset g = 0 /\ g_stride g = g_width g).

(** Everything a user can obtain from the constructors, reshape, copy, assignment, writes and makeSubimage,
    as long as the requested sizes fit in 32 bits. *)
Inductive reachable {A} (zero : A) : gray A -> Prop :=
| R_new w h : 0 <= w < 4294967296 -> 0 <= h < 4294967296 -> w * h < 4294967296 ->
    reachable zero (gray_new zero w h)
| R_rows l g : zlen l < 4294967296 -> (forall r, In r l -> zlen r * zlen l < 4294967296) ->
    gray_of_rows zero l = Ok g -> reachable zero g
| R_reshape g w h g' : reachable zero g ->
    0 <= w < 4294967296 -> 0 <= h < 4294967296 -> w * h < 4294967296 ->
    gray_reshape zero g w h = Ok g' -> reachable zero g'
| R_sub g x0 y0 x1 y1 g' : reachable zero g ->
    0 <= x0 < 4294967296 -> 0 <= y0 < 4294967296 -> 0 <= x1 < 4294967296 -> 0 <= y1 < 4294967296 ->
    gray_subimage g x0 y0 x1 y1 = Ok g' -> reachable zero g'
| R_set g x y v g' : reachable zero g ->
    0 <= x < 4294967296 -> 0 <= y < 4294967296 ->
    gray_set g x y v = Ok g' -> reachable zero g'
| R_copy dst src g' : reachable zero dst -> reachable zero src ->
    gray_copy zero dst src = Ok g' -> reachable zero g'
| R_assign dst src g' : reachable zero dst -> reachable zero src ->
    gray_assign zero dst src = Ok g' -> reachable zero g'.

(** ** Interleaved images *)
Definition i_inside {A} (g : inter A) (x y b : Z) : Prop :=
  0 <= x < i_width g /\ 0 <= y < i_height g /\ 0 <= b < i_bands g.

Definition i_pos {A} (g : inter A) (x y b : Z) : Z := i_offset g + y * i_stride g + x * i_bands g + b.

Definition i_pixel {A} (g : inter A) (x y b : Z) : option A :=
  if (0 <=? x) && (x <? i_width g) && (0 <=? y) && (y <? i_height g) && (0 <=? b) && (b <? i_bands g)
  then znth (i_data g) (i_pos g x y b) else None.

Definition i_outside_window {A} (g : inter A) (j : Z) : Prop :=
  forall x y b, i_inside g x y b -> i_pos g x y b <> j.

Definition i_wf {A} (g : inter A) : Prop :=
  0 <= i_width g < 4294967296 /\ 0 <= i_height g < 4294967296 /\ 0 <= i_bands g < 4294967296 /\
  0 <= i_offset g /\ i_width g * i_bands g <= i_stride g < 4294967296 /\
  zlen (i_data g) < 4294967296 /\
  (0 < i_width g -> 0 < i_height g -> 0 < i_bands g ->
     i_offset g + (i_height g - 1) * i_stride g + i_width g * i_bands g <= zlen (i_data g)) /\
  (i_sub g = false -> i_offset g = 0 /\ i_stride g = i_width g * i_bands g).

(** Interleaved images a user can obtain from the constructor, reshape, setNumberOfBands-style reshaping, writes and
    makeSubimage, as long as the requested sizes fit in 32 bits. *)
Inductive i_reachable {A} (zero : A) : inter A -> Prop :=
| IR_new w h b : 0 <= w < 4294967296 -> 0 <= h < 4294967296 -> 0 <= b < 4294967296 ->
    w * b < 4294967296 -> w * h * b < 4294967296 -> i_reachable zero (inter_new zero w h b)
| IR_reshape g w h b g' : i_reachable zero g ->
    0 <= w < 4294967296 -> 0 <= h < 4294967296 -> 0 <= b < 4294967296 ->
    w * b < 4294967296 -> w * h * b < 4294967296 ->
    inter_reshape3 zero g w h b = Ok g' -> i_reachable zero g'
| IR_bands g b g' : i_reachable zero g -> 0 <= b < 4294967296 -> i_width g * b < 4294967296 ->
    i_width g * i_height g * b < 4294967296 -> inter_set_bands zero g b = Ok g' -> i_reachable zero g'
| IR_set g x y b v g' : i_reachable zero g -> 0 <= x -> 0 <= y -> 0 <= b < i_bands g ->
    inter_set g x y b v = Ok g' -> i_reachable zero g'
| IR_sub g x0 y0 x1 y1 g' : i_reachable zero g -> 0 <= x0 -> 0 <= y0 ->
    inter_subimage g x0 y0 x1 y1 = Ok g' -> i_reachable zero g'.

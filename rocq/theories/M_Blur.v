(** Model of the mean filter (boofcpp/src/boofcv/image_blur.h). *)
From Verif Require Import Base M_Image M_Convolve M_Normalized.

(** Arithmetic of the sliding window in [sum_type].  [m_out w s]: the total [s] of [w] pixels converted to a pixel. *)
Record marith (E S : Type) := mkMarith {
  m_zero : S;
  m_add : S -> E -> outcome S;
  m_sub : S -> E -> outcome S;
  m_out : Z -> S -> outcome E
}.
Arguments mkMarith {E S} _ _ _ _.
Arguments m_zero {E S} _.
Arguments m_add {E S} _ _ _.
Arguments m_sub {E S} _ _ _.
Arguments m_out {E S} _ _ _.

(** Integer pixels: image_blur.h:22-23, 35-37, 44-46.  The divisor is a uint32_t stored in a [sum_type]. *)
Definition int_marith (t : ity) : marith Z Z :=
  mkMarith 0
    (fun s p => arith_result (sum_type t) (s + p))
    (fun s p => arith_result (sum_type t) (s - p))
    (fun w s =>
       let divisor := cast (sum_type t) w in
       let* half := int_div (sum_type t) divisor 2 in
       let* n := arith_result (sum_type t) (s + half) in
       let* q := int_div (sum_type t) n divisor in
       Ok (cast t q)).

(** image_blur.h:16-84 [inner_horizontal] (both versions). *)
Definition mean_inner_h {E S} (M : marith E S) (radius : Z) (g out : gray E) (d : list E) : outcome (list E) :=
  let kw := u32 (radius * 2 + 1) in
  for_range 0 (g_height g) (fun y d =>
    let indexIn := u32 (g_offset g + g_stride g * y) in
    let indexOut := u32 (g_offset out + g_stride out * y + radius) in
    let indexEnd := u32 (indexIn + kw) in
    let* total := for_range indexIn indexEnd (fun i s => let* p := bget (g_data g) i in m_add M s p) (m_zero M) in
    let* r := m_out M kw total in
    let* d := bset d indexOut r in
    let indexIn := Z.max indexIn indexEnd in
    let front := u32 (indexIn - kw) in
    let* td := for_range 0 (u32 (g_width g - kw)) (fun i td =>
      let* p := bget (g_data g) (front + i) in
      let* s := m_sub M (fst td) p in
      let* p := bget (g_data g) (indexIn + i) in
      let* s := m_add M s p in
      let* r := m_out M kw s in
      let* d := bset (snd td) (indexOut + 1 + i) r in
      Ok (s, d)) (total, d) in
    Ok (snd td)) d.

(** image_blur.h:105-107, 148-150: [for( ; i < hi; i += step ) body] on uint32_t, at most [fuel] turns. *)
Fixpoint for_step {S} (fuel : nat) (i hi step : Z) (body : Z -> S -> outcome S) (s : S) : outcome S :=
  if i <? hi then
    match fuel with
    | O => OutOfFuel
    | S f => let* s := body i s in for_step f (u32 (i + step)) hi step body s
    end
  else Ok s.

(** image_blur.h:87-171 [inner_vertical] (both versions).  [totals] is an uninitialised local array; every element is
    written by the first loop before the second loop reads it.  An array of length zero is undefined.  The inner loop of
    lines 105-107 has reached [indexEnd] after [kw] steps at the latest, so [kw] is enough fuel. *)
Definition mean_inner_v {E S} (M : marith E S) (radius : Z) (g out : gray E) (d : list E) : outcome (list E) :=
  let kw := u32 (radius * 2 + 1) in
  let backStep := u32 (kw * g_stride g) in
  if g_width g =? 0 then Undef else
  let totals := repeat (m_zero M) (Z.to_nat (g_width g)) in
  let* td := for_range 0 (g_width g) (fun x td =>
    let indexIn := u32 (g_offset g + x) in
    let indexOut := u32 (g_offset out + g_stride out * radius + x) in
    let indexEnd := u32 (indexIn + g_stride g * kw) in
    let* total := for_step (Z.to_nat kw) indexIn indexEnd (g_stride g)
                    (fun i s => let* p := bget (g_data g) i in m_add M s p) (m_zero M) in
    let* totals := bset (fst td) x total in
    let* r := m_out M kw total in
    let* d := bset (snd td) indexOut r in
    Ok (totals, d)) (totals, d) in
  let* td := for_range (u32 (radius + 1)) (u32 (g_height out - radius)) (fun y td =>
    let indexIn := u32 (g_offset g + (y + radius) * g_stride g) in
    let indexOut := u32 (g_offset out + y * g_stride out) in
    let front := u32 (indexIn - backStep) in
    for_range 0 (g_width g) (fun x td =>
      let* s := bget (fst td) x in
      let* p := bget (g_data g) (front + x) in
      let* s := m_sub M s p in
      let* p := bget (g_data g) (indexIn + x) in
      let* s := m_add M s p in
      let* totals := bset (fst td) x s in
      let* r := m_out M kw s in
      let* d := bset (snd td) (indexOut + x) r in
      Ok (totals, d)) td) td in
  Ok (snd td).

(** convolve_kernels.h:227-247, 112-121 [FactoryKernel::mean1D]: [c] is the coefficient after [normalize], one for
    integers and the quotient of one and the sum for floating point (see M_Kernels.v). *)
Definition mean_kernel {S} (c : S) (w : Z) : kernel S := mkKernel w (w / 2) (repeat c (Z.to_nat w)).

(** image_blur.h:173-187 [horizontal]. *)
Definition mean_h {E S T} (N : narith E S) (M : marith E T) (c : S) (radius : Z) (g out : gray E) : outcome (gray E) :=
  let* _ := checkSameShape g out in
  let K := mean_kernel c (u32 (radius * 2 + 1)) in
  if g_width g <? k_width K then normalized_h N K g out
  else
    let* d := just_h N K g out (g_data out) in
    let* d := mean_inner_h M radius g out d in
    Ok (with_data out d).

(** image_blur.h:189-203 [vertical].  The comparison is with the width. *)
Definition mean_v {E S T} (N : narith E S) (M : marith E T) (c : S) (radius : Z) (g out : gray E) : outcome (gray E) :=
  let* _ := checkSameShape g out in
  let K := mean_kernel c (u32 (radius * 2 + 1)) in
  if g_width g <? k_width K then normalized_v N K g out
  else
    let* d := just_v N K g out (g_data out) in
    let* d := mean_inner_v M radius g out d in
    Ok (with_data out d).

(** image_blur.h:217-228 [BlurImageOps::mean]: output and storage.  Input, output and storage are different images. *)
Definition blur_mean {E S T} (N : narith E S) (M : marith E T) (zero : E) (c : S) (radius : Z)
    (g out storage : gray E) : outcome (gray E * gray E) :=
  if radius <=? 0 then Throw else
  let* o := gray_reshape zero out (g_width g) (g_height g) in
  let* w := gray_reshape zero storage (g_width g) (g_height g) in
  let* w' := mean_h N M c radius g w in
  let* o' := mean_v N M c radius w' o in
  Ok (o', w').

(** image_blur.h:240-251 [BlurImageOps::gaussian], given the kernel made by convolve_kernels.h:309-365. *)
Definition blur_gaussian {E S} (N : narith E S) (zero : E) (K : kernel S) (g out storage : gray E)
  : outcome (gray E * gray E) :=
  let* o := gray_reshape zero out (g_width g) (g_height g) in
  let* w := gray_reshape zero storage (g_width g) (g_height g) in
  let* w' := normalized_h N K g w in
  let* o' := normalized_v N K w' o in
  Ok (o', w').

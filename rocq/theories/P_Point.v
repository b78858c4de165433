(** Properties of Point2D with integer coordinates: C78, C79. *)
From Verif Require Import BaseFacts M_Image M_Convolve M_Stats M_Point S_Point L_Point.

(** C78.  Every type with a [TypeInfo] (there is none for uint32_t): the exact value, or undefined behaviour if that
    value does not fit in the signed type of the coordinates. *)
Theorem C78_total : forall t p q, t <> U32 ->
  distanceSq_point t p q = if sq_dist p q <=? ity_max (signed_type t) then Ok (sq_dist p q) else Undef.
Proof. exact distance_total. Qed.
Print Assumptions C78_total.

Theorem C78_u8 : forall p q, point_of U8 p -> point_of U8 q -> distanceSq_point U8 p q = Ok (sq_dist p q).
Proof. exact distance_u8. Qed.
Print Assumptions C78_u8.

Theorem C78_image : forall w h p q, 0 <= w <= 32767 -> 0 <= h <= 32767 ->
  0 <= fst p <= w -> 0 <= snd p <= h -> 0 <= fst q <= w -> 0 <= snd q <= h ->
  distanceSq_point S32 p q = Ok (sq_dist p q).
Proof. exact distance_image. Qed.
Print Assumptions C78_image.

Example C78_ex : point_of U8 (255, 0) /\ point_of U8 (0, 255) /\ distanceSq_point U8 (255, 0) (0, 255) = Ok 130050 /\
  distanceSq_point S32 (0, 32767) (32767, 0) = Ok 2147352578 /\ distanceSq_point S32 (-2147483648, 0) (1, 0) = Undef.
Proof. vm_compute. intuition congruence. Qed.

(** C79.  The result type of distances of uint16_t points can hold the value, yet the computation overflows. *)
Theorem C79_result_fits_refuted : exists p q, point_of U16 p /\ point_of U16 q /\
  0 <= sq_dist p q <= ity_max (sum_type U16) /\ distanceSq_point U16 p q = Undef.
Proof. exists (0, 0), (65535, 0). vm_compute. intuition congruence. Qed.
Print Assumptions C79_result_fits_refuted.

(** Specification vocabulary for statistics that do not depend on where the pixels are. *)
From Verif Require Import Base M_Image S_Image M_GrowArray S_Stats.
Open Scope Z_scope.

(** All pixels are values of the type, and no sum of pixels leaves the type of sums. *)
Definition summable (t : ity) (M : Z) (g : gray Z) : Prop :=
  0 <= M /\ (forall x y v, pixel g x y = Some v -> ity_min t <= v <= ity_max t /\ Z.abs v <= M) /\
  g_width g * g_height g * M <= ity_max (sum_type t).

(** A bin of a histogram. *)
Definition bin_of (h : growarr Z) (i : Z) : Z := match ga_at h i with Ok v => v | _ => 0 end.

(** A histogram that can hold the values from [mn]. *)
Definition bins_for (g : gray Z) (mn : Z) (h : growarr Z) : Prop :=
  ga_size h <= zlen (ga_data h) /\ 0 <= ga_size h < 2147483648 /\ forall x y v, pixel g x y = Some v -> 0 <= v - mn < ga_size h.

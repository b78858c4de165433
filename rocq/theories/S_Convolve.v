(** What a convolution should compute. *)
From Verif Require Import Base M_Image S_Image M_Border S_Border M_Convolve.

(** Sum of coefficient times sample, left to right, starting from [s].  [px i] is the sample under coefficient [i].
    [None]: a sample does not exist or the arithmetic is undefined (overflow). *)
Fixpoint weighted {E S R} (A : arith E S R) (s : S) (ks : list S) (px : Z -> option E) (i : Z) : option S :=
  match ks with
  | [] => Some s
  | c :: r =>
      match px i with
      | None => None
      | Some p =>
          match a_prod A c p with
          | Ok m => match a_add A s m with Ok s' => weighted A s' r px (i + 1) | _ => None end
          | _ => None
          end
      end
  end.

(** Weighted sum, converted to an output pixel. *)
Definition filtered {E S R} (A : arith E S R) (ks : list S) (px : Z -> option E) : option R :=
  match weighted A (a_zero A) ks px 0 with
  | None => None
  | Some s => match a_out A s with Ok r => Some r | _ => None end
  end.

(** Coefficient [i] of a horizontal kernel sits over column x-offset+i, of a vertical one over row y-offset+i; a 2D
    kernel is stored row by row. *)
Definition value_h {E S R} (A : arith E S R) (K : kernel S) (b : border E) (g : gray E) (x y : Z) : option R :=
  filtered A (k_data K) (fun i => extended b g (x - k_offset K + i) y).
Definition value_v {E S R} (A : arith E S R) (K : kernel S) (b : border E) (g : gray E) (x y : Z) : option R :=
  filtered A (k_data K) (fun i => extended b g x (y - k_offset K + i)).
Definition value_2 {E S R} (A : arith E S R) (K : kernel S) (b : border E) (g : gray E) (x y : Z) : option R :=
  filtered A (k_data K)
    (fun i => extended b g (x - k_offset K + i mod k_width K) (y - k_offset K + i / k_width K)).

(** Kernels as the constructors make them. *)
Definition kernel1_ok {S} (K : kernel S) : Prop :=
  0 <= k_offset K < k_width K /\ k_width K <= 1073741824 /\ zlen (k_data K) = k_width K.
Definition kernel2_ok {S} (K : kernel S) : Prop :=
  0 <= k_offset K < k_width K /\ k_width K < 65536 /\ zlen (k_data K) = k_width K * k_width K.

(** Along a side of length [n] the kernel never reaches further out than the border supports. *)
Definition fits {E S} (b : border E) (n : Z) (K : kernel S) : Prop :=
  match b with
  | BValue _ | BExtend => True
  | BReflect => k_offset K < n /\ k_width K - k_offset K <= n
  | BWrap => k_offset K <= n /\ k_width K - k_offset K - 1 <= n
  end.

(** The output image holds [F x y] at every pixel, has the size of [g], and differs from [o] in nothing else. *)
Definition holds {E R} (g : gray E) (o out : gray R) (F : Z -> Z -> option R) : Prop :=
  g_width out = g_width g /\ g_height out = g_height g /\ same_layout o out /\
  (forall x y, inside g x y -> pixel out x y = F x y) /\
  (forall j, outside_window o j -> znth (g_data out) j = znth (g_data o) j).

(** Exact integer sum of coefficient times sample. *)
Fixpoint zdot (ks : list Z) (f : Z -> Z) (i : Z) : Z :=
  match ks with [] => 0 | c :: r => c * f i + zdot r f (i + 1) end.

(** Sum of absolute values. *)
Fixpoint zabs_sum (ks : list Z) : Z := match ks with [] => 0 | c :: r => Z.abs c + zabs_sum r end.

(** Kernels as a width, an offset and a row of coefficients. *)
From Verif Require Import Base M_GrowArray S_GrowArray M_Convolve M_KernelObj.

(** The coefficients; [None] stands for one with unspecified value. *)
Definition kcoefs {E} (k : kobj E) : list (option E) := ga_seq (ko_data k).

(** Number of coefficients of a kernel of width [w]. *)
Definition kcount (two : bool) (w : Z) : Z := if two then w * w else w.

(** Widths for which the number of coefficients fits into 32 bits. *)
Definition kwidth_ok (two : bool) (w : Z) : Prop := 0 <= w < if two then 65536 else 4294967296.

(** The ways to construct a kernel of one or two dimensions. *)
Inductive kinit (E : Type) :=
| KI_new (two : bool) (w off : Z)
| KI_width (two : bool) (w : Z)
| KI_list (off : Z) (l : list E)
| KI_lists (off : Z) (l : list (list E)).
Arguments KI_new {E} two w off. Arguments KI_width {E} two w. Arguments KI_list {E} off l. Arguments KI_lists {E} off l.

Definition kstart {E} (m : memtype E) (i : kinit E) : outcome (kobj E) :=
  match i with
  | KI_new two w off => ko_new m two w off
  | KI_width two w => ko_new_width m two w
  | KI_list off l => ko_list m off l
  | KI_lists off l => ko_lists m off l
  end.

Definition kinit_ok {E} (i : kinit E) : Prop :=
  match i with
  | KI_new two w off => kwidth_ok two w /\ 0 <= off < 4294967296
  | KI_width two w => kwidth_ok two w
  | KI_list off l => kwidth_ok false (zlen l) /\ 0 <= off < 4294967296
  | KI_lists off l => kwidth_ok true (zlen l) /\ 0 <= off < 4294967296
  end.

(** When construction has to fail, and otherwise the kernel: dimension, width, offset, coefficients. *)
Definition kinit_fails {E} (i : kinit E) : Prop :=
  match i with
  | KI_new _ w off => w <= off
  | KI_width _ w => w = 0
  | KI_list off l => zlen l <= off
  | KI_lists _ l => exists r, In r l /\ zlen r <> zlen l
  end.
Definition kinit_two {E} (i : kinit E) : bool :=
  match i with KI_new two _ _ | KI_width two _ => two | KI_list _ _ => false | KI_lists _ _ => true end.
Definition kinit_width {E} (i : kinit E) : Z :=
  match i with KI_new _ w _ | KI_width _ w => w | KI_list _ l => zlen l | KI_lists _ l => zlen l end.
Definition kinit_offset {E} (i : kinit E) : Z :=
  match i with KI_new _ _ off | KI_list off _ | KI_lists off _ => off | KI_width _ w => w / 2 end.
Definition kinit_coefs {E} (zero : E) (i : kinit E) : list E :=
  match i with
  | KI_new two w _ | KI_width two w => repeat zero (Z.to_nat (kcount two w))
  | KI_list _ l => l
  | KI_lists _ l => concat l
  end.

(** Calls on a kernel. *)
Inductive kop (E : Type) :=
| KReshape (w off : Z)
| KPut (i : Z) (v : E)
| KPut2 (x y : Z) (v : E)
| KAssign (other : kobj E)
| KFill (rng : Z -> E).
Arguments KReshape {E} w off. Arguments KPut {E} i v. Arguments KPut2 {E} x y v. Arguments KAssign {E} other.
Arguments KFill {E} rng.

Definition kexec {E} (m : memtype E) (k : kobj E) (o : kop E) : outcome (kobj E) :=
  match o with
  | KReshape w off => ko_reshape m k w off
  | KPut i v => ko_put k i v
  | KPut2 x y v => ko_put2 k x y v
  | KAssign other => ko_assign m k other
  | KFill rng => ko_fill_uniform k rng
  end.

(** A kernel with as many coefficients as its width demands. *)
Definition kcomplete {E} (k : kobj E) : Prop :=
  kwidth_ok (ko_two k) (ko_width k) /\ zlen (kcoefs k) = kcount (ko_two k) (ko_width k) /\ ga_size (ko_data k) = zlen (kcoefs k).

(** Calls the class offers, with arguments the C++ types allow; the kernel assigned from is complete. *)
Definition kop_ok {E} (two : bool) (o : kop E) : Prop :=
  match o with
  | KReshape w off => kwidth_ok two w /\ 0 <= off < 4294967296
  | KPut i _ => two = false /\ 0 <= i < 4294967296
  | KPut2 x y _ => two = true /\ 0 <= x < 4294967296 /\ 0 <= y < 4294967296
  | KAssign other => ko_two other = two /\ kcomplete other /\ ga_op_ok (Op_assign (ko_data other))
  | KFill _ => True
  end.

(** A history of calls; a call that throws leaves the kernel as it was. *)
Fixpoint krun {E} (m : memtype E) (k : kobj E) (l : list (kop E)) : outcome (kobj E) :=
  match l with
  | [] => Ok k
  | o :: r => match kexec m k o with
              | Ok k' => krun m k' r
              | Throw => krun m k r
              | Undef => Undef
              | OutOfFuel => OutOfFuel
              end
  end.

Definition kthrows {E} (k : kobj E) (o : kop E) : Prop :=
  match o with
  | KPut i _ => ko_width k <= i
  | KPut2 x y _ => ko_width k <= x \/ ko_width k <= y
  | _ => False
  end.

(** What a call has to do. *)
Definition kstep {E} (k : kobj E) (o : kop E) (k' : kobj E) : Prop :=
  ko_two k' = ko_two k /\
  match o with
  | KReshape w off =>
      ko_width k' = w /\ ko_offset k' = off /\ zlen (kcoefs k') = kcount (ko_two k) w /\
      forall i, i < zlen (kcoefs k) -> i < kcount (ko_two k) w -> znth (kcoefs k') i = znth (kcoefs k) i
  | KPut i v =>
      ko_width k' = ko_width k /\ ko_offset k' = ko_offset k /\ zlen (kcoefs k') = zlen (kcoefs k) /\
      forall j, znth (kcoefs k') j = if j =? i then Some (Some v) else znth (kcoefs k) j
  | KPut2 x y v =>
      ko_width k' = ko_width k /\ ko_offset k' = ko_offset k /\ zlen (kcoefs k') = zlen (kcoefs k) /\
      forall j, znth (kcoefs k') j = if j =? y * ko_width k + x then Some (Some v) else znth (kcoefs k) j
  | KAssign other =>
      ko_width k' = ko_width other /\ ko_offset k' = ko_offset other /\ kcoefs k' = kcoefs other
  | KFill rng =>
      ko_width k' = ko_width k /\ ko_offset k' = ko_offset k /\ zlen (kcoefs k') = zlen (kcoefs k) /\
      forall j, 0 <= j < zlen (kcoefs k) -> znth (kcoefs k') j = Some (Some (rng j))
  end.

(** The kernel object [k] holds the kernel [K] of the theorems about convolution. *)
Definition is_kernel {E} (k : kobj E) (K : kernel E) : Prop :=
  ko_width k = k_width K /\ ko_offset k = k_offset K /\ kcoefs k = map Some (k_data K).

(** Coefficients known to be [l]. *)
Definition kholds (k : kobj Z) (l : list Z) : Prop := ga_size (ko_data k) = zlen l /\ kcoefs k = map Some l.

(** Specification vocabulary for objects that wrap memory of the caller: a window into the memory, and what a history of
    calls does to it. *)
From Verif Require Import Base M_Image S_Image M_GrowArray S_GrowArray.

(** The window of w x h elements that starts at [offset], with [stride] elements from row to row, lies in a memory of
    [n] elements and its rows do not overlap. *)
Definition window_fits (n w h offset stride : Z) : Prop :=
  0 <= w /\ 0 <= h < 4294967296 /\ 0 <= offset /\ w <= stride < 4294967296 /\ n < 4294967296 /\
  (0 < w -> 0 < h -> offset + (h - 1) * stride + w <= n).

(** Calls on a single band image. *)
Inductive view_op (A : Type) :=
| V_put (x y : Z) (v : A)
| V_reshape (w h : Z)
| V_copy (src : gray A).
Arguments V_put {A} x y v. Arguments V_reshape {A} w h. Arguments V_copy {A} src.

(** The call in the model. *)
Definition view_exec {A} (zero : A) (g : gray A) (o : view_op A) : outcome (gray A) :=
  match o with
  | V_put x y v => gray_set g x y v
  | V_reshape w h => gray_reshape zero g w h
  | V_copy src => gray_copy zero g src
  end.

(** A history of calls; one that throws leaves the image as it was. *)
Fixpoint view_run {A} (zero : A) (g : gray A) (l : list (view_op A)) : outcome (gray A) :=
  match l with
  | [] => Ok g
  | o :: r => match view_exec zero g o with
              | Ok g' => view_run zero g' r
              | Throw => view_run zero g r
              | Undef => Undef
              | OutOfFuel => OutOfFuel
              end
  end.

(** Arguments the C++ types allow; an image copied from is one a user can have. *)
Definition view_op_ok {A} (o : view_op A) : Prop :=
  match o with
  | V_put x y _ => 0 <= x < 4294967296 /\ 0 <= y < 4294967296
  | V_reshape w h => 0 <= w < 4294967296 /\ 0 <= h < 4294967296
  | V_copy src => wf src
  end.

(** The calls a window of w x h elements has to refuse. *)
Definition view_refuses {A} (w h : Z) (o : view_op A) : Prop :=
  match o with
  | V_put x y _ => ~ (x < w /\ y < h)
  | V_reshape w' h' => ~ (w' = w /\ h' = h)
  | V_copy src => ~ (g_width src = w /\ g_height src = h)
  end.

(** The contents of the window after a call that had the contents [p]. *)
Definition view_step {A} (w h : Z) (p : Z -> Z -> option A) (o : view_op A) (x y : Z) : option A :=
  match o with
  | V_put a b v => if (a <? w) && (b <? h) && (x =? a) && (y =? b) then Some v else p x y
  | V_reshape _ _ => p x y
  | V_copy src => if (g_width src =? w) && (g_height src =? h) then pixel src x y else p x y
  end.

(** Calls on an interleaved image of one byte elements. *)
Inductive iview_op :=
| I_put (x y b v : Z)
| I_reshape (w h : Z)
| I_reshape3 (w h b : Z)
| I_bands (b : Z)
| I_setTo (src : inter Z).

(** The call in the model. *)
Definition iview_exec (t : ity) (g : inter Z) (o : iview_op) : outcome (inter Z) :=
  match o with
  | I_put x y b v => inter_set g x y b v
  | I_reshape w h => inter_reshape 0 g w h
  | I_reshape3 w h b => inter_reshape3 0 g w h b
  | I_bands b => inter_set_bands 0 g b
  | I_setTo src => inter_setTo t g src
  end.

(** A history of calls; one that throws leaves the image as it was. *)
Fixpoint iview_run (t : ity) (g : inter Z) (l : list iview_op) : outcome (inter Z) :=
  match l with
  | [] => Ok g
  | o :: r => match iview_exec t g o with
              | Ok g' => iview_run t g' r
              | Throw => iview_run t g r
              | Undef => Undef
              | OutOfFuel => OutOfFuel
              end
  end.

(** Arguments the C++ types allow, and bands that exist. *)
Definition iview_op_ok (n : Z) (o : iview_op) : Prop :=
  match o with
  | I_put x y b _ => 0 <= x < 4294967296 /\ 0 <= y < 4294967296 /\ 0 <= b < n
  | I_reshape w h => 0 <= w < 4294967296 /\ 0 <= h < 4294967296
  | I_reshape3 w h b => 0 <= w < 4294967296 /\ 0 <= h < 4294967296 /\ 0 <= b < 4294967296
  | I_bands b => 0 <= b < 4294967296
  | I_setTo src => i_wf src
  end.

(** The calls a window of w x h pixels with n bands has to refuse. *)
Definition iview_refuses (w h n : Z) (o : iview_op) : Prop :=
  match o with
  | I_put x y _ _ => ~ (x < w /\ y < h)
  | I_reshape w' h' => ~ (w' = w /\ h' = h)
  | I_reshape3 w' h' b => ~ (w' = w /\ h' = h /\ b = n)
  | I_bands b => b <> n
  | I_setTo src => ~ (i_width src = w /\ i_height src = h /\ i_bands src = n)
  end.

(** The contents of the window after a call that had the contents [p]. *)
Definition iview_step (w h n : Z) (p : Z -> Z -> Z -> option Z) (o : iview_op) (x y b : Z) : option Z :=
  match o with
  | I_put a c k v => if (a <? w) && (c <? h) && (x =? a) && (y =? c) && (b =? k) then Some v else p x y b
  | I_setTo src => if (i_width src =? w) && (i_height src =? h) && (i_bands src =? n) then i_pixel src x y b else p x y b
  | _ => p x y b
  end.

(** The calls on an array of [n] elements of foreign memory that have to be refused. *)
Definition foreign_refuses {A} (n : Z) (o : ga_op A) : Prop :=
  match o with
  | Op_put i _ => n <= i
  | Op_fill _ | Op_default _ => False
  | _ => True
  end.

(** The memory after a call that had the contents [p]; [m] is used for the pattern memset leaves. *)
Definition foreign_step {A} (m : memtype A) (n : Z) (p : Z -> option (option A)) (o : ga_op A) (j : Z) : option (option A) :=
  match o with
  | Op_put i v => if (i <? n) && (j =? i) then Some (Some v) else p j
  | Op_fill v => if (0 <=? j) && (j <? n) then Some (Some (mt_set m v)) else p j
  | _ => p j
  end.

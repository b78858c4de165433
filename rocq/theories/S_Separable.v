(** A square kernel that is the product of two lines. *)
From Verif Require Import Base M_Border M_Convolve.

(** Row [j] holds the line [kh] times element [j] of [kv]. *)
Definition product_kernel (kh kv : kernel Z) : kernel Z :=
  mkKernel (k_width kh) (k_offset kh) (concat (map (fun c => map (Z.mul c) (k_data kh)) (k_data kv))).

(** Borders that treat rows and columns apart. *)
Definition border_by_lines (b : border Z) : Prop := match b with BValue v => v = 0 | _ => True end.

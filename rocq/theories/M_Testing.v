(** Model of the helpers for tests and inspection (testing_utils.h, print_structures.h:9-23).  No proofs. *)
From Coq Require Import Floats.SpecFloat.
From Verif Require Import Base M_Image M_Float M_Otsu M_Kernel.

(** [std::abs(a - b)] of integers of type [t] (testing_utils.h:34, 52, 78, print_structures.h:15): computed in the promoted
    type; overflow of the difference or of [abs] is undefined. *)
Definition int_distance (t : ity) (a b : Z) : outcome Z :=
  let* d := arith_result (signed_type t) (a - b) in arith_result (signed_type t) (Z.abs d).

(** [std::abs(a - b) <= tol] for integers (testing_utils.h:34, 52, 78). *)
Definition int_close (t : ity) (tol a b : Z) : outcome bool := let* d := int_distance t a b in Ok (d <=? tol).

(** [std::abs(a - b) > tol] for integers (print_structures.h:15). *)
Definition int_apart (t : ity) (tol a b : Z) : outcome bool := let* d := int_distance t a b in Ok (tol <? d).

(** The same for floating point numbers: [O] is [single] or [double]. *)
Definition float_close (O : dops spec_float) (tol a b : spec_float) : outcome bool := Ok (d_le O (SFabs (d_sub O a b)) tol).
(** print_structures.h:15 for floating point numbers. *)
Definition float_apart (O : dops spec_float) (tol a b : spec_float) : outcome bool := Ok (d_lt O tol (SFabs (d_sub O a b))).

(** A check that failed has returned from the function (ASSERT_EQ, ASSERT_TRUE): the loops do nothing more.  The state is
    whether all checks so far succeeded. *)
Definition assert_that (ok : bool) (c : outcome bool) : outcome bool := if ok then c else Ok false.

(** [ASSERT_TRUE( close(a.at(x,y), b.at(x,y)) )] (testing_utils.h:34, 52-59, 78-84; the messages are left out). *)
Definition check_pixel {E} (close : E -> E -> outcome bool) (a b : gray E) (x y : Z) : outcome bool :=
  let* u := gray_get a x y in let* v := gray_get b x y in close u v.

(** testing_utils.h:26-37 [check_equals]; the result tells whether the test goes on. *)
Definition check_equals {E} (close : E -> E -> outcome bool) (a b : gray E) : outcome bool :=
  if negb (g_width a =? g_width b) then Ok false
  else if negb (g_height a =? g_height b) then Ok false
  else for_range 0 (g_height a) (fun y ok =>
         for_range 0 (g_width a) (fun x ok => assert_that ok (check_pixel close a b x y)) ok) true.

(** testing_utils.h:48: the condition; [int] is compared with [uint32_t], the differences wrap. *)
Definition in_border (w h x0 x1 y0 y1 x y : Z) : bool :=
  (u32 x <? x0) || (u32 y <? y0) || (u32 (w - x1) <=? u32 x) || (u32 (h - y1) <=? u32 y).

(** testing_utils.h:74. *)
Definition in_inner (w h x0 x1 y0 y1 x y : Z) : bool :=
  (x0 <=? u32 x) && (y0 <=? u32 y) && (u32 x <? u32 (w - x1)) && (u32 y <? u32 (h - y1)).

(** testing_utils.h:39-62 [check_equals_border], 64-89 [check_equals_inner]: they differ in the condition [sel].  The
    counters are of type [int] and compared as [uint32_t]; for images below 2^31. *)
Definition check_selected {E} (sel : Z -> Z -> bool) (close : E -> E -> outcome bool) (a b : gray E) : outcome bool :=
  if negb (g_width a =? g_width b) then Ok false
  else if negb (g_height a =? g_height b) then Ok false
  else for_range 0 (g_height a) (fun y ok =>
         for_range 0 (g_width a) (fun x ok =>
           if sel x y then assert_that ok (check_pixel close a b x y) else Ok ok) ok) true.

(** testing_utils.h:39-62. *)
Definition check_equals_border {E} (close : E -> E -> outcome bool) (a b : gray E) (x0 x1 y0 y1 : Z) : outcome bool :=
  check_selected (in_border (g_width a) (g_height a) x0 x1 y0 y1) close a b.

(** testing_utils.h:64-89. *)
Definition check_equals_inner {E} (close : E -> E -> outcome bool) (a b : gray E) (x0 x1 y0 y1 : Z) : outcome bool :=
  check_selected (in_inner (g_width a) (g_height a) x0 x1 y0 y1) close a b.

(** print_structures.h:9-23 [print_difference]: the marks of each line, [true] for X. *)
Definition print_difference {E} (apart : E -> E -> outcome bool) (a b : gray E) : outcome (list (list bool)) :=
  let* _ := checkSameShape a b in
  for_range 0 (g_height a) (fun y lines =>
    let* line := for_range 0 (g_width a) (fun x line =>
      let* m := check_pixel apart a b x y in Ok (line ++ [m])) [] in
    Ok (lines ++ [line])) [].

(** testing_utils.h:13-24 [create_subimage]: a sub-image of an image that is six rows higher and four columns wider.  (The
    buffer of the larger image is never freed.) *)
Definition create_subimage {E} (zero : E) (g : gray E) : outcome (gray E) :=
  let larger := gray_new zero (u32 (g_width g + 4)) (u32 (g_height g + 6)) in
  let* sub := gray_subimage larger 2 3 (u32 (2 + g_width g)) (u32 (3 + g_height g)) in
  gray_copy zero sub g.

(** print_structures.h: the text written by [print] and [print_kernel]. *)
From Coq Require Import Ascii String Floats.SpecFloat.
From Verif Require Import Base M_Image M_GrowArray M_KernelObj.
Open Scope Z_scope.

(** What printf has written (print_structures.h:25-96). *)
Definition text : Type := list ascii.
Definition lit (s : string) : text := list_ascii_of_string s.
(** The character \n of print_structures.h:27, 34, 36, 41, 48, 50, 60, 70, 76, 82, 89, 95. *)
Definition nl : ascii := ascii_of_nat 10.

(** printf: a digit, and the digits of a number that is not negative, without leading zeros (print_structures.h:27, 32, 58, 80). *)
Definition digit (n : Z) : ascii := ascii_of_nat (Z.to_nat (if n <? 10 then 48 + n else 87 + n)).
Fixpoint digits_in (fuel : nat) (b n : Z) (acc : text) : text :=
  match fuel with
  | O => acc
  | S k => let acc := digit (n mod b) :: acc in if n / b =? 0 then acc else digits_in k b (n / b) acc
  end.

(** printf with %d (print_structures.h:27, 41, 58, 76, 80, 89); an unsigned argument is taken for a signed one. *)
Definition fmt_d (v : Z) : text :=
  let v := s32 (u32 v) in if v <? 0 then lit "-" ++ digits_in 10 10 (- v) [] else digits_in 10 10 v [].

(** printf with %02x (print_structures.h:32); a negative argument is taken for an unsigned one (strictly undefined, but done by
    all implementations of printf).  Pixels of 64 bits are not modelled. *)
Definition fmt_02x (v : Z) : text :=
  let t := digits_in 8 16 (u32 v) [] in if zlen t <? 2 then lit "0" ++ t else t.

(** printf with %.4e (print_structures.h:46, 68, 93): [m * 2^e * 10^j] as a quotient; *)
Definition ratio (m e j : Z) : Z * Z := (m * 2 ^ Z.max e 0 * 10 ^ Z.max j 0, 2 ^ Z.max (- e) 0 * 10 ^ Z.max (- j) 0).
(** the decimal exponent: the first [k] with [m * 2^e < 10^(k+1)] (print_structures.h:46, 68, 93); *)
Fixpoint decimal_exponent (fuel : nat) (m e k : Z) : Z :=
  match fuel with
  | O => k
  | S n => let '(p, q) := ratio m e (- (k + 1)) in if p <? q then k else decimal_exponent n m e (k + 1)
  end.
(** where the search begins: a lower bound that is usually close (print_structures.h:46, 68, 93; only for speed); *)
Definition exponent_start (m e : Z) : Z :=
  let k := Z.max (-324) ((Z.log2 m + e) * 30103 / 100000 - 1) in
  let '(p, q) := ratio m e (- k) in if p <? q then -324 else k.
(** the nearest integer to a quotient, ties to even (print_structures.h:46, 68, 93; the exact value is rounded, as in glibc). *)
Definition nearest_even (p q : Z) : Z :=
  let d := p / q in let r := p mod q in
  if 2 * r <? q then d else if q <? 2 * r then d + 1 else if Z.even d then d else d + 1.
(** printf with %.4e: five digits [n] and the exponent [k] (print_structures.h:46, 68, 93). *)
Definition sci (n k : Z) : text :=
  let frac := n mod 10000 in
  digit (n / 10000) :: lit "." ++ [digit (frac / 1000); digit (frac / 100 mod 10); digit (frac / 10 mod 10); digit (frac mod 10)] ++
  lit "e" ++ lit (if k <? 0 then "-" else "+") ++ (let t := digits_in 3 10 (Z.abs k) [] in if zlen t <? 2 then lit "0" ++ t else t).
(** printf with %.4e of a float or double (print_structures.h:46, 68, 93). *)
Definition fmt_e (x : spec_float) : text :=
  match x with
  | S754_nan => lit "nan"
  | S754_infinity s => (if s then lit "-" else []) ++ lit "inf"
  | S754_zero s => (if s then lit "-" else []) ++ sci 0 0
  | S754_finite s m e =>
      let k := decimal_exponent 640 (Zpos m) e (exponent_start (Zpos m) e) in
      let '(p, q) := ratio (Zpos m) e (4 - k) in
      let n := nearest_even p q in
      (if s then lit "-" else []) ++ if n =? 100000 then sci 10000 (k + 1) else sci n k
  end.

(** print_structures.h:25-37, 39-51 [print] for any conversion of a pixel. *)
Definition print_image {E} (fmt : E -> text) (g : gray E) : outcome text :=
  let* t := for_range 0 (g_height g) (fun y t =>
    let* t := for_range 0 (g_width g) (fun x t => let* v := gray_get g x y in Ok (t ++ fmt v ++ lit " ")) (t ++ lit "[ ") in
    Ok (t ++ lit "]" ++ [nl])) (lit "image " ++ fmt_d (g_width g) ++ lit " x " ++ fmt_d (g_height g) ++ [nl]) in
  Ok (t ++ [nl]).
(** print_structures.h:25-37 *)
Definition print_int (g : gray Z) : outcome text := print_image fmt_02x g.
(** print_structures.h:39-51 *)
Definition print_float (g : gray spec_float) : outcome text := print_image fmt_e g.

(** print_structures.h:53-61, 63-71 [print_kernel] of a Kernel1D; [a[y]] is not checked. *)
Definition print_kernel1 {E} (fmt : E -> text) (k : kobj E) : outcome text :=
  let* t := for_range 0 (ko_width k) (fun y t => let* v := ko_idx k y in Ok (t ++ lit " " ++ fmt v)) (lit "Kernel1D[") in
  Ok (t ++ lit " ]" ++ [nl]).

(** print_structures.h:73-84, 86-97 [print_kernel] of a Kernel2D; [a.data[..]] is not checked. *)
Definition print_kernel2 {E} (fmt : E -> text) (k : kobj E) : outcome text :=
  for_range 0 (ko_width k) (fun y t =>
    let* t := for_range 0 (ko_width k) (fun x t =>
      let* v := ga_idx (ko_data k) (u32 (y * ko_width k + x)) in Ok (t ++ lit " " ++ fmt v)) (t ++ lit " ") in
    Ok (t ++ [nl])) (lit "Kernel2D{ offset=" ++ fmt_d (ko_offset k) ++ lit ", width=" ++ fmt_d (ko_width k) ++ lit " }" ++ [nl]).

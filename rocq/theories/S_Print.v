(** Reading text: lines, words and numbers. *)
From Coq Require Import Ascii String Reals.
From Verif Require Import Base.
Open Scope Z_scope.

Fixpoint split_at (c : ascii) (t : list ascii) : list (list ascii) :=
  match t with
  | [] => [[]]
  | a :: r => if Ascii.eqb a c then [] :: split_at c r
              else match split_at c r with [] => [[a]] | w :: ws => (a :: w) :: ws end
  end.
Definition lines (t : list ascii) : list (list ascii) := split_at "010"%char t.
Definition words (t : list ascii) : list (list ascii) :=
  filter (fun w => match w with [] => false | _ => true end) (split_at " "%char t).
Definition word (s : string) : list ascii := list_ascii_of_string s.

(** A text without blanks and line ends. *)
Definition one_word (t : list ascii) : Prop := t <> [] /\ ~ In " "%char t /\ ~ In "010"%char t.

(** The value of a digit 0..9, a..f; of a row of digits; of a decimal number with sign. *)
Definition digit_value (c : ascii) : option Z :=
  let n := Z.of_nat (nat_of_ascii c) in
  if (48 <=? n) && (n <=? 57) then Some (n - 48) else if (97 <=? n) && (n <=? 102) then Some (n - 87) else None.
Fixpoint read_from (b acc : Z) (t : list ascii) : option Z :=
  match t with
  | [] => Some acc
  | c :: r => match digit_value c with Some d => if d <? b then read_from b (acc * b + d) r else None | None => None end
  end.
Definition read_base (b : Z) (t : list ascii) : option Z := match t with [] => None | _ => read_from b 0 t end.
Definition read_signed (read : list ascii -> option Z) (t : list ascii) : option Z :=
  match t with
  | c :: r => if Ascii.eqb c "-"%char then option_map Z.opp (read r) else if Ascii.eqb c "+"%char then read r else read t
  | [] => None
  end.
Definition read_decimal : list ascii -> option Z := read_signed (read_base 10).

(** [d.dddde+xx]: digits [n] and exponent [k], for the number n * 10^(k-4). *)
Definition read_plain (t : list ascii) : option (Z * Z) :=
  match t with
  | c0 :: p :: c1 :: c2 :: c3 :: c4 :: e :: k =>
      if Ascii.eqb p "."%char && Ascii.eqb e "e"%char then
        match read_base 10 [c0; c1; c2; c3; c4], read_decimal k with Some n, Some k => Some (n, k) | _, _ => None end
      else None
  | _ => None
  end.
Definition read_number (t : list ascii) : option R :=
  let val nk := (IZR (fst nk) * powerRZ 10 (snd nk - 4))%R in
  match t with
  | c :: r => if Ascii.eqb c "-"%char then option_map (fun nk => (- val nk)%R) (read_plain r) else option_map val (read_plain t)
  | [] => None
  end.

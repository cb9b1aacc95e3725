(** Numbers as text: [operator<<(std::ostream&, double)] with the stream's default format (Main.cpp:52-59),
    [std::stod] (stov.hpp:46-49) and [std::istream >> double] as used by the property tree (Main.cpp:204-264).
    These functions belong to the C++ library (libstdc++ and glibc, "C" locale, round to nearest); they are modelled after
    their documentation.  Elsewhere (M_Csv, M_App) they are parameters. *)
From Coq Require Import ZArith String Ascii.
From Verif Require Export M_NumB M_App.
From Flocq Require Import Core BinarySingleNaN.
Local Open Scope Z_scope.

(** ** Digits *)
Definition is_digit (c : ascii) : bool := (48 <=? Ascii.nat_of_ascii c)%nat && (Ascii.nat_of_ascii c <=? 57)%nat.
Definition digit_value (c : ascii) : Z := Z.of_nat (Ascii.nat_of_ascii c) - 48.
Definition digit_char (z : Z) : ascii := Ascii.ascii_of_nat (Z.to_nat z + 48).
Fixpoint take_digits (s : text) : text * text :=
  match s with
  | c :: s' => if is_digit c then let '(ds, r) := take_digits s' in (c :: ds, r) else ([], s)
  | [] => ([], [])
  end.
(** The number a row of digits stands for. *)
Definition digits_value (base : Z) (value : ascii -> Z) (ds : text) : Z := foldl (fun n c => base * n + value c) 0 ds.

(** ** The double nearest to a fraction *)
(** [num / den], rounded to nearest even (infinity if it is too large). *)
Definition nearest_double (neg : bool) (num den : positive) : B64 :=
  SF2B _ (proj1 (Bdiv_correct_aux 53 1024 _ _ mode_NE neg num 0 false den 0)).
(** The fraction [m 10^e], as numerator and denominator. *)
Definition decimal_fraction (m : positive) (e : Z) : positive * positive :=
  (m * Z.to_pos (10 ^ Z.max e 0), Z.to_pos (10 ^ Z.max (- e) 0))%positive.
(** The fraction [m 2^e]. *)
Definition binary_fraction (m : positive) (e : Z) : positive * positive :=
  (m * Z.to_pos (2 ^ Z.max e 0), Z.to_pos (2 ^ Z.max (- e) 0))%positive.

(** ** Reading *)
(** [e] or [E], perhaps a sign, digits: the exponent; if that is not what follows, nothing is consumed. *)
Definition read_exponent (upper lower : ascii) (s : text) : Z * text :=
  match s with
  | c :: s' =>
      if Ascii.eqb c upper || Ascii.eqb c lower then
        let '(neg, s'') := read_sign s' in
        let '(ds, r) := take_digits s'' in
        match ds with [] => (0, s) | _ => (if neg then - digits_value 10 digit_value ds else digits_value 10 digit_value ds, r) end
      else (0, s)
  | [] => (0, [])
  end.
(** Digits with at most one point among or around them, perhaps an exponent: [(m, e, r)] for [m 10^e], followed by [r]. *)
Definition read_decimal (s : text) : option (Z * Z * text) :=
  let '(whole, s1) := take_digits s in
  let '(frac, s2) := match s1 with "." :: s' => take_digits s' | _ => ([], s1) end%char in
  match whole ++ frac with
  | [] => None
  | ds => let '(e, r) := read_exponent "E"%char "e"%char s2 in
          Some (digits_value 10 digit_value ds, e - Z.of_nat (length frac), r)
  end.

(** Hexadecimal numbers, [0x] hexadecimal digits with a point, perhaps [p] and a binary exponent. *)
Definition is_hex (c : ascii) : bool :=
  let n := Ascii.nat_of_ascii c in is_digit c || ((65 <=? n)%nat && (n <=? 70)%nat) || ((97 <=? n)%nat && (n <=? 102)%nat).
Definition hex_value (c : ascii) : Z :=
  let n := Ascii.nat_of_ascii c in
  Z.of_nat (if is_digit c then n - 48 else if (n <=? 70)%nat then n - 55 else n - 87)%nat.
Fixpoint take_hex (s : text) : text * text :=
  match s with
  | c :: s' => if is_hex c then let '(ds, r) := take_hex s' in (c :: ds, r) else ([], s)
  | [] => ([], [])
  end.
Definition read_hex (s : text) : option (Z * Z) :=
  match s with
  | "0" :: x :: s' =>
      if Ascii.eqb x "x" || Ascii.eqb x "X" then
        let '(whole, s1) := take_hex s' in
        let '(frac, s2) := match s1 with "." :: s'' => take_hex s'' | _ => ([], s1) end in
        match whole ++ frac with
        | [] => None
        | ds => Some (digits_value 16 hex_value ds, (read_exponent "P" "p" s2).1 - 4 * Z.of_nat (length frac))
        end
      else None
  | _ => None
  end%char.

(** The first letters of [s] are [w] (lower case), whatever the case in [s]. *)
Definition lower (c : ascii) : ascii :=
  let n := Ascii.nat_of_ascii c in if (65 <=? n)%nat && (n <=? 90)%nat then Ascii.ascii_of_nat (n + 32) else c.
Definition begins (w s : text) : bool := bool_decide (map lower (firstn (length w) s) = w).

(** [errno == ERANGE] after [strtod] for [num / den]: too large, or too small for a normal number (after rounding) and inexact. *)
Definition overflows (num den : positive) : bool :=
  match nearest_double false num den with B754_infinity _ => true | _ => false end.
Definition underflows (num den : positive) : bool :=
  (Zpos num * 2 ^ 1076 <? Zpos den * (2 ^ 54 - 1)) && negb ((Zpos num * 2 ^ 1074) mod Zpos den =? 0).
Definition zero_of (neg : bool) : B64 := B754_zero neg.
(** The exceptions [std::out_of_range] are [None]. *)
Definition checked (neg : bool) (f : positive * positive) : option B64 :=
  if overflows f.1 f.2 || underflows f.1 f.2 then None else Some (nearest_double neg f.1 f.2).
(** [std::stod]: white space, perhaps a sign, a number; what follows is ignored. *)
Definition stod (s : text) : option B64 :=
  let '(neg, s) := read_sign (skip_space s) in
  match read_hex s with
  | Some (Zpos m, e) => checked neg (binary_fraction m e)
  | Some _ => Some (zero_of neg)
  | None =>
      match read_decimal s with
      | Some (Zpos m, e, _) => checked neg (decimal_fraction m e)
      | Some _ => Some (zero_of neg)
      | None =>
          if begins (lit "inf") s then Some (B754_infinity neg)
          else if begins (lit "nan") s then Some B754_nan
          else None
      end
  end.
(** [stream_translator::get_value<double>]: white space, perhaps a sign, a decimal number, white space, the end.  A number
    that is too large is refused. *)
Definition get_double (s : text) : option B64 :=
  let '(neg, s) := read_sign (skip_space s) in
  match read_decimal s with
  | Some (m, e, r) =>
      match skip_space r, m with
      | _ :: _, _ => None
      | [], Zpos m => let f := decimal_fraction m e in
                      if overflows f.1 f.2 then None else Some (nearest_double neg f.1 f.2)
      | [], _ => Some (zero_of neg)
      end
  | None => None
  end.

(** ** Writing *)
(** [floor (log10 n)] for [n >= 1]. *)
Fixpoint log10_fuel (fuel : nat) (n : Z) : Z :=
  match fuel with O => 0 | S fuel => if n <? 10 then 0 else 1 + log10_fuel fuel (n / 10) end.
Definition log10 (n : Z) : Z := log10_fuel (Z.to_nat (Z.log2 n + 1)) n.
(** The [X] with [10^X <= num/den < 10^(X+1)]. *)
Definition decimal_exponent (num den : Z) : Z :=
  if den <=? num then log10 (num / den) else - (1 + log10 ((den - 1) / num)).
(** [num / den] rounded to an integer, ties to even. *)
Definition round_div (num den : Z) : Z :=
  let q := num / den in let r := num mod den in
  match 2 * r ?= den with Lt => q | Gt => q + 1 | Eq => if Z.even q then q else q + 1 end.
(** Six significant digits [D] and the exponent [X]: [num/den] is about [D 10^(X-5)]. *)
Definition six_digits (num den : Z) : Z * Z :=
  let X := decimal_exponent num den in
  let D := round_div (num * 10 ^ Z.max (5 - X) 0) (den * 10 ^ Z.max (X - 5) 0) in
  if D =? 10 ^ 6 then (10 ^ 5, X + 1) else (D, X).

(** The last [k] decimal digits of [z]. *)
Fixpoint width (k : nat) (z : Z) : text :=
  match k with O => [] | S k => width k (z / 10) ++ [digit_char (z mod 10)] end.
(** Trailing zeros removed. *)
Fixpoint strip0 (s : text) : text :=
  match s with
  | [] => []
  | c :: s => match strip0 s with [] => if Ascii.eqb c "0" then [] else [c] | r => c :: r end
  end.
Definition with_point (whole frac : text) : text :=
  whole ++ match strip0 frac with [] => [] | f => "."%char :: f end.
(** [%g] with precision 6: fixed notation for [-4 <= X < 6], otherwise scientific. *)
Definition print_digits (D X : Z) : text :=
  if (-4 <=? X) && (X <? 6) then
    if 0 <=? X then with_point (firstn (Z.to_nat (X + 1)) (width 6 D)) (skipn (Z.to_nat (X + 1)) (width 6 D))
    else with_point ["0"%char] (replicate (Z.to_nat (- X - 1)) "0"%char ++ width 6 D)
  else
    with_point (firstn 1 (width 6 D)) (skipn 1 (width 6 D)) ++ "e"%char ::
    (if X <? 0 then "-"%char else "+"%char) :: width (if Z.abs X <? 100 then 2 else 3) (Z.abs X).
Definition print_double (x : B64) : text :=
  match x with
  | B754_zero s => (if s then ["-"%char] else []) ++ ["0"%char]
  | B754_infinity s => (if s then ["-"%char] else []) ++ lit "inf"
  | B754_nan => lit "nan"      (* its sign is not modelled *)
  | B754_finite s m e _ =>
      let '(num, den) := binary_fraction m e in
      let '(D, X) := six_digits (Zpos num) (Zpos den) in
      (if s then ["-"%char] else []) ++ print_digits D X
  end.

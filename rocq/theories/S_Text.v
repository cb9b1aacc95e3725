(** Numbers as text: what a decimal numeral is and which number it stands for. *)
From Coq Require Import ZArith Reals String Ascii.
From Verif Require Export M_Text S_Csv S_Float.
From Flocq Require Import Core BinarySingleNaN.
Open Scope R_scope.

Definition ten (e : Z) : R := powerRZ 10 e.
(** The exponent part of a numeral: nothing, or [e] or [E], perhaps a sign, and digits. *)
Definition exponent_part (s : text) (e : Z) : Prop :=
  s = [] /\ e = 0%Z \/
  exists c sign ds, s = c :: sign ++ ds /\ (c = "e"%char \/ c = "E"%char) /\ ds <> [] /\ Forall digit ds /\
    ((sign = [] \/ sign = ["+"%char]) /\ e = decimal ds \/ sign = ["-"%char] /\ e = (- decimal ds)%Z).
(** Digits, perhaps with a point before, among or behind them, perhaps an exponent. *)
Definition unsigned_numeral (s : text) (v : R) : Prop :=
  exists whole point frac ex e, s = whole ++ point ++ frac ++ ex /\ Forall digit whole /\ Forall digit frac /\ whole ++ frac <> [] /\
    (point = ["."%char] \/ point = [] /\ frac = []) /\ exponent_part ex e /\
    v = IZR (decimal (whole ++ frac)) * ten (e - Z.of_nat (length frac)).
(** The same with a sign; [neg]: it is a minus sign. *)
Definition numeral (s : text) (neg : bool) (v : R) : Prop :=
  exists sign s' v', s = sign ++ s' /\ unsigned_numeral s' v' /\
    ((sign = [] \/ sign = ["+"%char]) /\ neg = false /\ v = v' \/ sign = ["-"%char] /\ neg = true /\ v = - v').
(** Text that does not continue a numeral. *)
Definition ends_numeral (rest : text) : Prop :=
  forall c r, rest = c :: r -> ~ digit c /\ c <> "."%char /\ c <> "e"%char /\ c <> "E"%char /\ c <> "x"%char /\ c <> "X"%char.
(** Numbers that can be written with at most six significant digits. *)
Definition six_digit (v : R) : Prop := exists D X : Z, (Z.abs D < 10 ^ 6)%Z /\ v = IZR D * ten X.

(** The double nearest to a real number, ties to even. *)
Definition to_double (v : R) : R := round radix2 (FLT_exp (-1074) 53) ZnearestE v.
(** Values for which reading fails: too large for a double, or below the normal numbers (even after rounding to 53 bits) and
    not exactly a double. *)
Definition tiny_bound : R := bpow radix2 (-1022) - bpow radix2 (-1076).
Definition out_of_range (v : R) : Prop :=
  bpow radix2 1024 <= Rabs (to_double v) \/ Rabs v < tiny_bound /\ to_double v <> v.
(** Doubles that are not tiny: not a number, infinite, 0, or of magnitude at least 2^-1021 (about 4.45e-308). *)
Definition not_tiny (x : B64) : Prop := is_finite x = true -> B2R x = 0 \/ bpow radix2 (-1021) <= Rabs (B2R x).
(** [y] is [x] up to a few units in the sixth digit. *)
Definition about (x y : B64) : Prop :=
  Bsign x = Bsign y /\ is_finite x = is_finite y /\ Rabs (B2R y - B2R x) <= (5 / 10 ^ 6 + / 2 ^ 52) * Rabs (B2R x) /\
  (is_finite x = false \/ B2R x = 0 -> y = x).
(** The same for particles. *)
Definition about_particle {d : dim} (p q : particle B64num d) : Prop :=
  pT q = pT p /\ about (pP p) (pP q) /\ about (pN p) (pN q) /\
  forall k, (k < dimn d)%nat -> about (tget d (pX p) k) (tget d (pX q) k) /\ about (tget d (pU p) k) (tget d (pU q) k).

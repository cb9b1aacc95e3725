(** Specification vocabulary for the theorems about [double]. *)
From Coq Require Import ZArith Reals.
From Verif Require Export M_NumB S_Real.
From Flocq Require Import Core BinarySingleNaN.

(** No component is NaN. *)
Definition numbers {d : dim} (v : vec B64num d) : Prop := forall k, (k < dimn d)%nat -> is_nan (tget d v k : B64) = false.
(** The vector of real numbers that a vector of doubles stands for. *)
Definition exactly_at {d : dim} (v : vec B64num d) : vec Rnum d := tmk d (fun k => B2R (tget d v k : B64)).
(** The true distance of two points given in doubles. *)
Definition true_distance {d : dim} (x y : vec B64num d) : R := edist (exactly_at x) (exactly_at y).

(** Specification vocabulary: particles spread over the cells of a lattice, exactly or nearly (C48). *)
From Coq Require Import ZArith Reals.
From Verif Require Export S_Float S_Reach.
From Flocq Require Import Core BinarySingleNaN.
Open Scope R_scope.

(** The number of the cell that contains [x]; cells have width [l] and one of them begins at [a]. *)
Definition cell_number (a l x : R) : Z := Zfloor ((x - a) / l).

Section Cells.
  Context {cfg : config} {wm : wallmotion Rnum (cDim cfg)}.
  Notation d := (cDim cfg).
  (** Two enabled particles are never in the same cell of side [l]; a corner of one cell is at [a]. *)
  Definition one_per_cell (a : nat -> R) (l : R) (s : computer cfg wm) : Prop :=
    forall i j p q, cParts s !! i = Some p -> enabled p -> cParts s !! j = Some q -> enabled q -> i <> j ->
      exists k, (k < dimn d)%nat /\ cell_number (a k) l (coord (pX p) k) <> cell_number (a k) l (coord (pX q) k).
  (** Two enabled particles are never nearer than [r]. *)
  Definition apart_by (r : R) (s : computer cfg wm) : Prop :=
    forall i j p q, cParts s !! i = Some p -> enabled p -> cParts s !! j = Some q -> enabled q -> i <> j -> r <= edist (pX p) (pX q).
End Cells.

Section Near.
  Context {cfg : config} {wm : wallmotion B64num (cDim cfg)}.
  Notation d := (cDim cfg).
  (** In [double]: every enabled particle is within [delta] (along each axis) of a point of the lattice [a + l Z^D], no two of the same point. *)
  Definition near_lattice (a : nat -> R) (l delta : R) (s : computer cfg wm) : Prop :=
    exists z : nat -> nat -> Z,
      (forall i p k, cParts s !! i = Some p -> enabled p -> (k < dimn d)%nat ->
         Rabs (B2R (tget d (pX p) k : B64) - (a k + l * IZR (z i k))) <= delta) /\
      (forall i j p q, cParts s !! i = Some p -> enabled p -> cParts s !! j = Some q -> enabled q ->
         (forall k, (k < dimn d)%nat -> z i k = z j k) -> i = j).
End Near.

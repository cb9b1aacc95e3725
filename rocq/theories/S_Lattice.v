(** Specification vocabulary: the square / cubic lattice. *)
From Verif Require Export S_Real.
Open Scope R_scope.

(** Euclidean length of an integer vector. *)
Definition znorm (z : list Z) : R := R_sqrt.sqrt (rsum (map (fun k => IZR k * IZR k) z)).

Section Lattice.
  Context {d : dim}.
  (** [L] lists, without repetition, vectors of [Z^D], among them all non-zero ones shorter than [r]. *)
  Record lattice_within (r : R) (L : list (list Z)) : Prop := {
    lw_nodup : NoDup L;
    lw_dim : forall z, z ∈ L -> length z = dimn d;
    lw_all : forall z, length z = dimn d -> znorm z <> 0 -> znorm z < r -> z ∈ L
  }.
  (** [l * z] as a vector *)
  Definition lattice_vec (l : R) (z : list Z) : vec Rnum d := tmk d (fun k => l * IZR (nth k z 0%Z)).
End Lattice.
Arguments lattice_within : clear implicits.
Arguments lattice_vec : clear implicits.

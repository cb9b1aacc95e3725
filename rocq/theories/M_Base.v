(** Small control-flow helpers shared by the model. *)
From Verif Require Export M_Num.

(** Loop with early failure: [None] is undefined behaviour. *)
Fixpoint foldM {A S} (f : S -> A -> option S) (s : S) (l : list A) : option S :=
  match l with
  | [] => Some s
  | a :: l => match f s a with Some s' => foldM f s' l | None => None end
  end.

(** A loop whose iterations are declared independent ([OMP_PARALLEL_FOR],
    Computer.hpp:39-51).  Iteration [i] first computes a value from the shared state
    ([None] = undefined behaviour), then writes it.  Inside a single iteration all reads
    precede the writes (or the write is to a location private to the iteration). *)
Record ploop (S V : Type) := mkLoop {
  l_compute : S -> nat -> option V;
  l_write : nat -> V -> S -> S;
}.
Arguments l_compute {S V}. Arguments l_write {S V}. Arguments mkLoop {S V}.

(** One iteration. *)
Definition l_body {S V} (L : ploop S V) (s : S) (i : nat) : option S :=
  match l_compute L s i with Some v => Some (l_write L i v s) | None => None end.

(** Sequential execution [for (i = 0; i < n; i++)]. *)
Definition run_loop {S V} (L : ploop S V) (n : nat) (s : S) : option S :=
  foldM (l_body L) s (seq 0 n).

(** Exceptions: Grid.hpp:317 and Computer.hpp:1427. *)
Inductive exn := TooManyParticles | CgNotConverged.

(** Result of a state-changing operation; an exception leaves a (partially
    updated) state behind. *)
Inductive outcome (S : Type) :=
  | Done (s : S)
  | Throw (e : exn) (s : S)
  | Undef.
Arguments Done {S}. Arguments Throw {S}. Arguments Undef {S}.

Definition obind {S} (o : outcome S) (f : S -> outcome S) : outcome S :=
  match o with Done s => f s | Throw e s => Throw e s | Undef => Undef end.
Definition of_opt {S} (o : option S) : outcome S :=
  match o with Some s => Done s | None => Undef end.
Notation "o >>o f" := (obind o f) (at level 61, left associativity).

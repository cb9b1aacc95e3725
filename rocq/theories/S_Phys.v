(** Specification: totals over the fluid, for statements about momentum, energy and torque.  A frame is a list of particles. *)
From Verif Require Export S_Scheme.
Open Scope R_scope.

Section Phys.
  Context {cfg : config} (env : environment Rnum cfg).
  Notation d := (cDim cfg).
  Notation V := (vec Rnum d).
  Notation part := (particle Rnum d).
  Implicit Types (ps : list part) (p q : part) (i j : nat).

  (** Sum of [f p] over the fluid particles; their number; kinetic energy (per mass of a particle). *)
  Definition amount ps (f : nat -> part -> R) : R :=
    sum_n (length ps) (fun i => match ps !! i with Some p => if decide (pT p = Newton) then f i p else 0 | None => 0 end).
  Definition total ps (f : part -> V) : V :=
    vsum_n (length ps) (fun i => match ps !! i with Some p => if decide (pT p = Newton) then f p else vzero | None => vzero end).
  Definition number ps : R := amount ps (fun _ _ => 1).
  Definition kinetic_energy ps : R := amount ps (fun _ p => inner (pU p) (pU p) / 2).

  (** Nothing but fluid (and particles out of use). *)
  Definition only_fluid ps : Prop := forall i p, ps !! i = Some p -> pT p = Newton \/ pT p = Disabled.
  (** No wall within the interaction radius of the fluid. *)
  Definition free_fluid ps : Prop :=
    forall i j p q, ps !! i = Some p -> pT p = Newton -> near_to (eRe env) ps i j -> ps !! j = Some q -> pT q = Newton \/ pT q = Dummy.

  (** No two particles in use at the same place. *)
  Definition all_apart ps : Prop :=
    forall i j p q, i <> j -> ps !! i = Some p -> ps !! j = Some q -> enabled p -> enabled q -> pX p <> pX q.
  (** The signs the constants of a usable environment have. *)
  Definition usual_constants : Prop := 0 <= eNu env /\ 0 < eN0 env /\ 0 < eLambda env /\ 0 < eRe env.

  (** Sum of the coefficients of viscosity between particle [i] and its neighbours: the reciprocal of the time in which its
      velocity would adapt to theirs. *)
  Definition viscous_load ps i p : R :=
    nsum env ps i (fun j q => if decide (pT q = Dummy) then 0 else viscous_coefficient env (edist (pX p) (pX q))).

  (** The component (a, b) of the torque of the force [f] at [x], about the origin. *)
  Definition torque (x f : V) (a b : nat) : R := coord x a * coord f b - coord x b * coord f a.
End Phys.

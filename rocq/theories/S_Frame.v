(** Specification vocabulary on frames (plain lists of particles): particles apart, unknowns of the pressure equation that
    are connected with the free surface, lattices. *)
From Verif Require Export S_Scheme S_Lattice.
Open Scope R_scope.

Section Frame.
  Context {cfg : config} (env : environment Rnum cfg).
  Notation d := (cDim cfg).
  Notation part := (particle Rnum d).
  Implicit Types (ps : list part) (p q : part) (i j : nat).

  (** No two particles in use are at the same place. *)
  Definition frame_apart ps : Prop :=
    forall i j p q, i <> j -> ps !! i = Some p -> ps !! j = Some q -> enabled p -> enabled q -> pX p <> pX q.
  (** Particle [i] is at the free surface: it has a virtual surface particle, or a fluid or wall particle without an unknown
      pressure (a surface particle) within the radius. *)
  Definition on_surface ps i p : Prop :=
    surface_particle env ps i p <> None \/
    exists j q, near_to (eRe env) ps i j /\ ps !! j = Some q /\ fluid_or_wall q /\ ~ has_pressure env q.
  (** Particle [i] has an unknown pressure and is at the surface, or has another such particle within the radius, from which the
      surface is reached. *)
  Inductive reaches_surface ps : nat -> Prop :=
  | rs_here i p : ps !! i = Some p -> has_pressure env p -> on_surface ps i p -> reaches_surface ps i
  | rs_next i p j q : ps !! i = Some p -> has_pressure env p -> near_to (eRe env) ps i j -> ps !! j = Some q -> has_pressure env q ->
      reaches_surface ps j -> reaches_surface ps i.

  (** The particles in use within the radius of particle [i] form the lattice [x_i + l Z^D]: every one sits on a lattice point
      other than [x_i], no two on the same, and every lattice point within the radius is taken. *)
  Definition lattice_around (l : R) ps i p : Prop :=
    exists site : nat -> list Z,
      (forall j q, near_to (eRe env) ps i j -> ps !! j = Some q ->
         length (site j) = dimn d /\ znorm (site j) <> 0 /\ pX q = pX p +^ lattice_vec d l (site j)) /\
      (forall j k, near_to (eRe env) ps i j -> near_to (eRe env) ps i k -> site j = site k -> j = k) /\
      (forall z, length z = dimn d -> znorm z <> 0 -> l * znorm z < eRe env -> exists j, near_to (eRe env) ps i j /\ site j = z).
End Frame.

(** The environment and the wall positions of a step of length [dt] from [s]. *)
Section Step.
  Context {cfg : config} {wm : wallmotion Rnum (cDim cfg)}.
  Definition env_of_step (dt : R) (s : computer cfg wm) : environment Rnum cfg := set_next_t (set_dt (dt : Rnum) (cEnv s)).
  Definition walls_of_step (dt : R) (s : computer cfg wm) (i : nat) : vec Rnum (cDim cfg) :=
    let t := eT (env_of_step dt s) in wPos wm (wPre wm (cWall s) t dt) i t dt.
End Step.

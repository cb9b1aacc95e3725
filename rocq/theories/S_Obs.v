(** Specification vocabulary: what a caller can see of a computer, and states that differ only in particles
    out of use. *)
From Verif Require Export S_Reach S_Sim.

Section Obs.
  Context {N : num} {cfg : config} {wm : wallmotion N (cDim cfg)}.
  Notation d := (cDim cfg).
  Notation part := (particle N d).
  Notation computer := (computer cfg wm).

  (** The same particle, or - if [loose] - two particles both out of use. *)
  Definition twin (loose : bool) (p p' : part) : Prop :=
    p' = p \/ (loose = true /\ pT p = Disabled /\ pT p' = Disabled).

  (** The visible state agrees: the particles, the environment (time, step, constants), the solver's accuracy
      and the state of the wall callbacks.  Nothing is said about grid, neighbour lists, matrix and the other
      private arrays. *)
  Record alike (loose : bool) (s s' : computer) : Prop := {
    al_parts : Forall2 (twin loose) (cParts s) (cParts s');
    al_env : cEnv s' = cEnv s;
    al_eps : cEps s' = cEps s;
    al_wall : cWall s' = cWall s
  }.

  (** Both calls return, both throw the same exception or both are undefined, and the states left agree. *)
  Definition ends_alike (loose : bool) : outcome computer -> outcome computer -> Prop :=
    same_kind (alike loose) (fun _ => alike loose).

  (** Calls in which the caller chooses the time step. *)
  Definition chosen_steps (ops : list (api (N := N) cfg)) : Prop :=
    Forall (fun o => o <> ForwardTime cfg) ops.
  (** A new computer made from the environment, accuracy and wall state of [s], with the particles [ps]. *)
  Definition restarted (s : computer) (ps : list part) (s' : computer) : Prop :=
    exists s0, new_computer cfg wm (cEps s) (cEnv s) (cWall s) = Some s0 /\ s' = add_particles ps s0.
End Obs.

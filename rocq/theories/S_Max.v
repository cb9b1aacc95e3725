(** Specification vocabulary: exact solutions of the pressure equation, on frames (plain lists of particles). *)
From Verif Require Export S_Frame.
Open Scope R_scope.

Section Max.
  Context {cfg : config} (env : environment Rnum cfg).
  Notation d := (cDim cfg).
  Notation part := (particle Rnum d).
  Implicit Types (ps : list part) (p : part) (x c : nat -> R) (i : nat).

  (** What the pressure equation has on its right-hand side: how fast the fluid at particle [i] is compressed, by its motion
      ([rate]) and to make up for density errors ([c]). *)
  Definition compression c ps i p : R := eRho env / (eN0 env * eDt env) * (rate env ps i p + c i).
  (** [x] fulfils the pressure equation of every particle whose pressure is an unknown. *)
  Definition exact_pressures c ps x : Prop :=
    forall i p, ps !! i = Some p -> has_pressure env p -> residual env c ps x i p = 0.
  (** Frames on which the equation makes sense: constants positive, no two particles at the same place, every particle with an
      unknown pressure connected with the free surface. *)
  Record solvable_frame ps : Prop := {
    sf_n0 : 0 < eN0 env;
    sf_re : 0 < eRe env;
    sf_lambda : cHL cfg = false -> 0 < eLambda env;
    sf_apart : frame_apart ps;
    sf_surface : forall i p, ps !! i = Some p -> has_pressure env p -> reaches_surface env ps i
  }.
  (** [u]: the pressures that a compression of 1 everywhere would cause (a measure of how far the particle is from the surface). *)
  Definition unit_response ps (u : nat -> R) : Prop :=
    forall i p, ps !! i = Some p -> has_pressure env p -> pressure_laplacian env ps u i p = -1.
End Max.

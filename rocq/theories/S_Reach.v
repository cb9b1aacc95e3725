(** Specification vocabulary: reachable states. *)
From Verif Require Export M_Computer.

Section Reach.
  Context {N : num} {cfg : config} {wm : wallmotion N (cDim cfg)}.
  Notation d := (cDim cfg).
  Notation part := (particle N d).
  Notation computer := (computer cfg wm).

  (** States a user can get to: construct a computer for the environment [env0], then call the
      public functions in any order, any number of times, with any arguments.  A call that
      throws leaves a state that can be used further. *)
  Inductive reachable (env0 : environment N cfg) : computer -> Prop :=
    | reach_new eps w s : new_computer cfg wm eps env0 w = Some s -> reachable env0 s
    | reach_done o s s' : reachable env0 s -> api_step o s = Done s' -> reachable env0 s'
    | reach_throw o s s' e : reachable env0 s -> api_step o s = Throw e s' -> reachable env0 s'.

  (** The same, remembering the time steps taken so far (oldest first): those of all calls of
      ForwardTime(dt) and ForwardTime() that returned or threw. *)
  Inductive timeline (env0 : environment N cfg) : list N -> computer -> Prop :=
    | tl_new eps w s : new_computer cfg wm eps env0 w = Some s -> timeline env0 [] s
    | tl_add src dts s s' : timeline env0 dts s -> api_step (AddParticles cfg src) s = Done s' -> timeline env0 dts s'
    | tl_by dt dts s s' : timeline env0 dts s ->
        (api_step (ForwardTimeBy cfg dt) s = Done s' \/ exists e, api_step (ForwardTimeBy cfg dt) s = Throw e s') ->
        timeline env0 (dts ++ [dt]) s'
    | tl_auto dt dts s s' : timeline env0 dts s -> determine_dt s = Some dt ->
        (api_step (ForwardTime cfg) s = Done s' \/ exists e, api_step (ForwardTime cfg) s = Throw e s') ->
        timeline env0 (dts ++ [dt]) s'.

  (** All particles handed over in a history, in order. *)
  Fixpoint added (ops : list (api (N := N) cfg)) : list part :=
    match ops with
    | [] => []
    | AddParticles _ src :: ops => src ++ added ops
    | _ :: ops => added ops
    end.

  (** Number of blocks along the x and y axis agree, or there is no y axis (2-D). *)
  Definition square_ground (env : environment N cfg) : Prop :=
    d = D2 \/
    nceil ((tget d (eMaxX env) 0 -. tget d (eMinX env) 0) /. eNL env)
    = nceil ((tget d (eMaxX env) 1 -. tget d (eMinX env) 1) /. eNL env).

  (** A particle that takes part in the computation. *)
  Definition enabled (p : part) : Prop := pT p <> Disabled.
  Definition fluid_or_wall (p : part) : Prop := pT p <> Disabled /\ pT p <> Dummy.

  (** Environments that differ at most in the current time and step. *)
  Definition same_constants (e e' : environment N cfg) : Prop :=
    e' = mkEnv cfg (eT e') (eDt e') (eN0 e) (eLambda e) (eC e) (eMaxDt e) (eMaxDx e) (eL0 e) (eRe e)
           (eG e) (eRho e) (eNu e) (eSurf e) (eMinX e) (eMaxX e) (eNL e).
  (** The state in which the phases of a step of length [dt] start: the new time is already set
      (Computer.hpp:1700-1703). *)
  Definition start_step (dt : N) (s : computer) : computer :=
    with_env s (set_next_t (set_dt dt (cEnv s))).

  (** The intermediate states of a successful step, phase by phase. *)
  Record step_trace (dt : N) (s s1 s2 s3 s4 s5 s6 s7 s8 : computer) : Prop := {
    st_search : search_neighbor (start_step dt s) = Done s1;
    st_dens1 : compute_densities s1 = Some s2;
    st_ecs : if cECS cfg then compute_ecs s2 = Some s3 else s3 = s2;
    st_explicit : compute_explicit s3 = Some s4;
    st_dens2 : compute_densities s4 = Some s5;
    st_savex : if cDS cfg then save_x s5 = Some s6 else s6 = s5;
    st_implicit : compute_implicit s6 = Done s7;
    st_stab : if cDS cfg then stabilize s7 = Some s8 else s8 = s7;
  }.
  (** The same up to the start of the implicit phase, which may fail. *)
  Record step_prefix (dt : N) (s s1 s2 s3 s4 s5 s6 : computer) : Prop := {
    sp_search : search_neighbor (start_step dt s) = Done s1;
    sp_dens1 : compute_densities s1 = Some s2;
    sp_ecs : if cECS cfg then compute_ecs s2 = Some s3 else s3 = s2;
    sp_explicit : compute_explicit s3 = Some s4;
    sp_dens2 : compute_densities s4 = Some s5;
    sp_savex : if cDS cfg then save_x s5 = Some s6 else s6 = s5;
  }.
End Reach.

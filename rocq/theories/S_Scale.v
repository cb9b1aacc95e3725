(** Specification vocabulary: the same simulation in other units of length, time and mass density. *)
From Verif Require Export S_Real S_Reach S_Sim.
Open Scope R_scope.

(** A number of old units is that many times [in_length] (...) new units: from metres to millimetres, [in_length = 1000]. *)
Record units := mkUnits { in_length : R; in_time : R; in_density : R }.
Definition proper (u : units) : Prop := 0 < in_length u /\ 0 < in_time u /\ 0 < in_density u.
(** Derived units. *)
Definition in_speed u : R := in_length u / in_time u.
Definition in_acceleration u : R := in_length u / (in_time u * in_time u).
Definition in_pressure u : R := in_density u * (in_speed u * in_speed u).
Definition in_viscosity u : R := in_length u * in_length u / in_time u.

Section Scale.
  Context {cfg : config} (u : units).
  Notation d := (cDim cfg).
  Notation V := (vec Rnum d).
  Notation part := (particle Rnum d).

  (** The number density and the type have no unit. *)
  Definition part_in (p : part) : part :=
    mkParticle (N := Rnum) ((in_length u : Rnum) *^ pX p) ((in_speed u : Rnum) *^ pU p) (in_pressure u * pP p) (pN p) (pT p).
  Definition env_in (e : environment Rnum cfg) : environment Rnum cfg :=
    mkEnv (N := Rnum) cfg (in_time u * eT e) (in_time u * eDt e) (eN0 e) (in_length u * in_length u * eLambda e) (in_speed u * eC e)
      (in_time u * eMaxDt e) (in_length u * eMaxDx e) (in_length u * eL0 e) (in_length u * eRe e)
      ((in_acceleration u : Rnum) *^ eG e) (in_density u * eRho e) (in_viscosity u * eNu e) (eSurf e)
      ((in_length u : Rnum) *^ eMinX e) ((in_length u : Rnum) *^ eMaxX e) (in_length u * eNL e).
  Definition grid_in (G : grid Rnum d) : grid Rnum d :=
    mkGrid (N := Rnum) d (in_length u * g_len d G) ((in_length u : Rnum) *^ g_origin d G) (g_shape d G) (g_cap d G) (g_data d G).
  (** The walls' prescribed motion, with times and positions in the new units. *)
  Definition wall_in (wm : wallmotion Rnum d) : wallmotion Rnum d :=
    mkWall Rnum d (wS wm) (fun w (t dt : R) => wPre wm w (t / in_time u) (dt / in_time u))
      (fun w i (t dt : R) => (in_length u : Rnum) *^ wPos wm w i (t / in_time u) (dt / in_time u)).

  (** State [s'] is state [s] in the new units: particles, environment, grid, neighbour lists, solver tolerance, walls.
      The program's work arrays have the same sizes. *)
  Record rescaled {wm} (s : computer cfg wm) (s' : computer cfg (wall_in wm)) : Prop := {
    re_parts : cParts s' = map part_in (cParts s);
    re_env : cEnv s' = env_in (cEnv s);
    re_eps : cEps s' = cEps s;
    re_wall : cWall s' = cWall s;
    re_grid : cGrid s' = grid_in (cGrid s);
    re_neighbor : cNeighbor s' = cNeighbor s;
    re_A : length (cA s') = length (cA s); re_x : length (cXv s') = length (cXv s); re_b : length (cBv s') = length (cBv s);
    re_du : length (cDu s') = length (cDu s); re_orig : length (cOrigX s') = length (cOrigX s);
    re_ecs : cEcs s' = map (fun e : R => e / in_time u) (cEcs s); re_nws : cNws s' = cNws s
  }.
  (** Such a state. *)
  Definition converted {wm} (s : computer cfg wm) : computer cfg (wall_in wm) :=
    mkComputer cfg (wall_in wm) (map part_in (cParts s)) (env_in (cEnv s)) (grid_in (cGrid s)) (cNeighbor s)
      (cA s) (cXv s) (cBv s) (cEps s) (cDu s) (map (fun e : R => e / in_time u) (cEcs s)) (cOrigX s) (cNws s) (cWall s).

  (** Calls in the new units. *)
  Definition op_in (o : api (N := Rnum) cfg) : api (N := Rnum) cfg :=
    match o with
    | AddParticles _ src => AddParticles cfg (map part_in src)
    | ForwardTimeBy _ dt => ForwardTimeBy (N := Rnum) cfg (in_time u * dt)
    | ForwardTime _ => ForwardTime cfg
    end.

  (** How lopsided the surroundings of particle [i] are: the distance of the weighted centre of its neighbours, over N0. *)
  Definition lopsided {wm} (s : computer cfg wm) (i : nat) : R :=
    match cParts s !! i, neighbor_list s i with
    | Some p, Some l =>
        len (vsum (map (fun j => match cParts s !! j with
          | Some q => if decide (j = i) then vzero else
                      (wt (edist (pX p) (pX q)) (eRe (cEnv s)) : Rnum) *^ (pX q -^ pX p)
          | None => vzero end) l)) / Rabs (eN0 (cEnv s))
    | _, _ => 0
    end.
  (** The program looks for a direction towards the surface only if that number exceeds 2^-52, in whatever unit
      lengths are given.  [s] is clear-cut if that comes out the same in the new unit. *)
  Definition clear_cut {wm} (s : computer cfg wm) : Prop :=
    forall i p, cParts s !! i = Some p -> pT p <> Dummy -> pT p <> Disabled ->
      (/ 2 ^ 52 < lopsided s i <-> / 2 ^ 52 < in_length u * lopsided s i).
  (** The states within ForwardTime(dt) whose neighbourhoods count: after the neighbour search, and after the movement. *)
  Definition passes {wm} (dt : R) (s t : computer cfg wm) : Prop :=
    exists t1, search_neighbor (start_step (dt : Rnum) s) = Done t1 /\
      (t = t1 \/
       exists t2 t3, compute_densities t1 = Some t2 /\ (if cECS cfg then compute_ecs t2 = Some t3 else t3 = t2) /\ compute_explicit t3 = Some t).
  (** Every call of a history is of that kind. *)
  Definition clear_call {wm} (o : api (N := Rnum) cfg) (s : computer cfg wm) : Prop :=
    match o with
    | AddParticles _ _ => True
    | ForwardTimeBy _ dt => forall t, passes dt s t -> clear_cut t
    | ForwardTime _ => forall dt t, determine_dt s = Some dt -> passes dt s t -> clear_cut t
    end.
  Fixpoint clear_run {wm} (ops : list (api (N := Rnum) cfg)) (s : computer cfg wm) : Prop :=
    match ops with
    | [] => True
    | o :: ops => clear_call o s /\
        match api_step o s with Done t | Throw _ t => clear_run ops t | Undef => True end
    end.
End Scale.

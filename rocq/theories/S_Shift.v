(** Specification vocabulary: the same computation elsewhere, or seen by a moving observer. *)
From Verif Require Export S_Real S_Reach S_Sim.
Open Scope R_scope.

Section Shift.
  Context {cfg : config}.
  Notation d := (cDim cfg).
  Notation V := (vec Rnum d).
  Notation part := (particle Rnum d).

  (** Position changed by [a], velocity by [c]. *)
  Definition shift_part (a c : V) (p : part) : part :=
    mkParticle (pX p +^ a) (pU p +^ c) (pP p) (pN p) (pT p).
  (** The domain changed by [g]. *)
  Definition shift_env (g : V) (e : environment Rnum cfg) : environment Rnum cfg :=
    mkEnv cfg (eT e) (eDt e) (eN0 e) (eLambda e) (eC e) (eMaxDt e) (eMaxDx e) (eL0 e) (eRe e)
      (eG e) (eRho e) (eNu e) (eSurf e) (eMinX e +^ g) (eMaxX e +^ g) (eNL e).
  Definition shift_grid (g : V) (G : grid Rnum d) : grid Rnum d :=
    mkGrid d (g_len d G) (g_origin d G +^ g) (g_shape d G) (g_cap d G) (g_data d G).
  (** Wall positions changed by [b dt]. *)
  Definition shift_wall (b : R -> V) (wm : wallmotion Rnum d) : wallmotion Rnum d :=
    mkWall Rnum d (wS wm) (wPre wm) (fun w i t dt => wPos wm w i t dt +^ b dt).

  (** State [s'] is state [s] with all positions changed by [a], all velocities by [c] and the domain by
      [g]; everything else that the program can read later is the same. *)
  Record moved {wm} {b} (g a c : V) (s : computer cfg wm) (s' : computer cfg (shift_wall b wm)) : Prop := {
    mo_parts : cParts s' = map (shift_part a c) (cParts s);
    mo_env : cEnv s' = shift_env g (cEnv s);
    mo_grid : cGrid s' = shift_grid g (cGrid s);
    mo_neighbor : cNeighbor s' = cNeighbor s;
    mo_A : cA s' = cA s; mo_x : cXv s' = cXv s; mo_b : cBv s' = cBv s; mo_eps : cEps s' = cEps s;
    mo_du : cDu s' = cDu s; mo_ecs : cEcs s' = cEcs s;
    mo_orig : length (cOrigX s') = length (cOrigX s);
    mo_nws : cNws s' = cNws s;
    mo_wall : cWall s' = cWall s
  }.

  (** Such a state: positions and domain changed by [g], velocities by [c]. *)
  Definition seen_from {wm} b (g c : V) (s : computer cfg wm) : computer cfg (shift_wall b wm) :=
    mkComputer cfg (shift_wall b wm) (map (shift_part g c) (cParts s)) (shift_env g (cEnv s)) (shift_grid g (cGrid s)) (cNeighbor s)
      (cA s) (cXv s) (cBv s) (cEps s) (cDu s) (cEcs s) (cOrigX s) (cNws s) (cWall s).

  (** Calls with all added particles changed. *)
  Definition shift_op (a : V) (o : api (N := Rnum) cfg) : api (N := Rnum) cfg :=
    match o with AddParticles _ src => AddParticles cfg (map (shift_part a vzero) src) | o => o end.
End Shift.

(** Specification: a particle on its own (C62). *)
From Verif Require Export S_Real.
Open Scope R_scope.

Section Alone.
  Context {cfg : config} {wm : wallmotion Rnum (cDim cfg)}.
  Notation d := (cDim cfg).
  Notation V := (vec Rnum d).
  Notation part := (particle Rnum d).
  Notation computer := (computer cfg wm).
  Implicit Types (s : computer) (p q : part) (env : environment Rnum cfg).

  (** Nobody else in use is within the search radius of particle [i] at [x]. *)
  Definition nobody_near (r : R) s i (x : V) : Prop :=
    forall j q, j <> i -> cParts s !! j = Some q -> enabled q -> r <= edist x (pX q).
  Definition sensible_constants env : Prop := 0 < eNL env /\ 0 < eN0 env /\ 0 < eRho env /\ 0 < eSurf env.

  (** A series of steps of length [dt] in which particle [i] stays in use and on its own. *)
  Inductive alone_for env0 (dt : R) i : nat -> computer -> computer -> Prop :=
    | alone_none s : alone_for env0 dt i 0 s s
    | alone_step n s s1 s' p1 p2 : alone_for env0 dt i n s s1 -> cParts s1 !! i = Some p1 -> nobody_near (eNL env0) s1 i (pX p1) ->
        forward_dt (dt : Rnum) s1 = Done s' -> cParts s' !! i = Some p2 -> enabled p2 -> alone_for env0 dt i (S n) s s'.
End Alone.

(** Specification vocabulary: states that differ in the number densities (C88). *)
From Verif Require Export S_Obs M_Main.

Section Blind.
  Context {N : num} {cfg : config} {wm : wallmotion N (cDim cfg)}.
  Notation part := (particle N (cDim cfg)).
  Notation computer := (computer cfg wm).
  (** Two particles that differ at most in the number density; the pressure, too, if both are out of use.  (Dummy particles keep whatever density they were given.) *)
  Definition but_density (p p' : part) : Prop :=
    pX p' = pX p /\ pU p' = pU p /\ pT p' = pT p /\ (pT p <> Disabled -> pP p' = pP p) /\ (pT p = Dummy -> pN p' = pN p).
  Record same_but_density (s s' : computer) : Prop := {
    sb_parts : Forall2 but_density (cParts s) (cParts s');
    sb_env : cEnv s' = cEnv s;
    sb_eps : cEps s' = cEps s;
    sb_wall : cWall s' = cWall s
  }.
  (** What two runs write: the same number, time, steps and count, particles that differ at most in the densities, and not at all (while in use) once a step has been made. *)
  Definition same_output (o o' : output (N := N) cfg) : Prop :=
    oNumber o' = oNumber o /\ oTime o' = oTime o /\ oIter o' = oIter o /\ oCount o' = oCount o /\
    Forall2 but_density (oParts o) (oParts o') /\ (oIter o <> 0%nat -> Forall2 (twin true) (oParts o) (oParts o')).
End Blind.

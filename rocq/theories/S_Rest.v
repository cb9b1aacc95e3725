(** Specification vocabulary: a fluid at rest. *)
From Verif Require Export S_Real.
Open Scope R_scope.

Section Rest.
  Context {cfg : config} {wm : wallmotion Rnum (cDim cfg)}.
  Notation d := (cDim cfg).
  Notation part := (particle Rnum d).
  Notation computer := (computer cfg wm).
  Implicit Types (s : computer) (p q : part).

  (** Nothing moves and nothing is under pressure. *)
  Definition at_rest s : Prop :=
    forall i p, cParts s !! i = Some p -> pU p = vzero /\ pP p = 0.
  (** Different particles are at different places, and none of them overlap in the sense of the stabilisation (nearer than
      L_0 - MaxDx) where that is switched on. *)
  Definition no_overlaps s : Prop :=
    forall i j p q, i <> j -> cParts s !! i = Some p -> cParts s !! j = Some q ->
      pX p <> pX q /\ (cDS cfg = true -> (eL0 (cEnv s) - eMaxDx (cEnv s)) ^ 2 <= edist (pX p) (pX q) ^ 2).
  (** The wall callback leaves everything where it is. *)
  Definition held s : Prop :=
    forall i p w t dt, cParts s !! i = Some p -> wPos wm w i t dt = pX p.
  (** [s'] shows the same particles as [s], except for the densities (and types: particles may be taken out of use). *)
  Definition unmoved s s' : Prop :=
    Forall2 (fun p p' => pX p' = pX p /\ pU p' = pU p /\ pP p' = pP p) (cParts s) (cParts s').
End Rest.

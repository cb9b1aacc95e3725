(** Specification vocabulary: states that differ only in dummy particles. *)
From Verif Require Export M_Computer.

Section Dummy.
  Context {N : num} {cfg : config} {wm : wallmotion N (cDim cfg)}.
  Notation part := (particle N (cDim cfg)).
  Notation computer := (computer cfg wm).
  (** [p'] is [p], or both are dummies at the same position (whatever their velocity, pressure and
      density). *)
  Definition variant (p p' : part) : Prop := p' = p \/ (pT p = Dummy /\ pT p' = Dummy /\ pX p' = pX p).
  (** States that differ at most in the velocity, pressure and density of dummies. *)
  Definition same_but_dummies (s s' : computer) : Prop :=
    s' = with_parts s (cParts s') /\ Forall2 variant (cParts s) (cParts s').
End Dummy.

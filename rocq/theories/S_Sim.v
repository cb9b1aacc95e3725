(** Specification vocabulary: two computations that end the same way. *)
From Verif Require Export M_Base.

(** Outcomes of the same kind, with related states. *)
Definition same_kind {S S'} (R : S -> S' -> Prop) (RT : exn -> S -> S' -> Prop) (o : outcome S) (o' : outcome S') : Prop :=
  match o, o' with
  | Done s, Done s' => R s s'
  | Throw e s, Throw e' s' => e = e' /\ RT e s s'
  | Undef, Undef => True
  | _, _ => False
  end.

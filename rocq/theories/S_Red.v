(** Specification vocabulary: states reached in the build whose solver adds up in any order. *)
From Verif Require Export M_Red S_Reach.

Section Red.
  Context {N : num} {cfg : config} {wm : wallmotion N (cDim cfg)}.
  Notation computer := (computer cfg wm).

  (** As [reachable], every call ending in any of its possible outcomes. *)
  Inductive red_reachable (env0 : environment N cfg) : computer -> Prop :=
    | red_new eps w s : new_computer cfg wm eps env0 w = Some s -> red_reachable env0 s
    | red_done o s s' : red_reachable env0 s -> red_api o s (Done s') -> red_reachable env0 s'
    | red_throw o s s' e : red_reachable env0 s -> red_api o s (Throw e s') -> red_reachable env0 s'.
End Red.

(** Specification vocabulary for the application. *)
From Coq Require Import Reals.
From Verif Require Export M_NumR M_Main.

Section Main.
  Context {N : num} {cfg : config} {wm : wallmotion N (cDim cfg)}.
  Notation computer := (computer cfg wm).

  (** [stepped s n s']: [n] successful calls of ForwardTime() lead from [s] to [s']. *)
  Inductive stepped (s : computer) : nat -> computer -> Prop :=
    | stepped_0 : stepped s 0 s
    | stepped_S n s' s'' : stepped s n s' -> forward s' = Done s'' -> stepped s (S n) s''.
End Main.

Section Start.
  Context {N : num} {cfg : config}.
  (** The computer the application starts with: the particles of the input, walls fixed
      at their positions. *)
  Definition initial (cond : condition) (env : environment N cfg) (particles : list (particle N (cDim cfg)))
      (s : computer cfg (fixed_walls cfg (map pX particles))) : Prop :=
    exists s0, new_computer cfg (fixed_walls cfg (map pX particles)) (coEps cond) env tt = Some s0 /\
      s = add_particles particles s0.
End Start.

(** The schedule, in exact arithmetic. *)
Section Schedule.
  Context {cfg : config}.
  Open Scope R_scope.
  (** The simulated time, and the times of the schedule. *)
  Definition time_of {wm : wallmotion Rnum (cDim cfg)} (s : computer cfg wm) : R := eT (cEnv s).
  Definition interval_of (cond : condition (N := Rnum)) : R := coInterval cond.
  Definition start_of (cond : condition (N := Rnum)) : R := coStart cond.
  Definition end_of (cond : condition (N := Rnum)) : R := coEnd cond.
  (** Smallest integer not below. *)
  Definition ceiling (x : R) (z : Z) : Prop := IZR z - 1 < x <= IZR z.
End Schedule.

(** Specification: one call of ForwardTime on three particles at rest, two of them closer than l_0 / 30, written down for any kind of numbers.  All
    positions, pressures, the time step and l_0 are numbers that binary64 represents exactly. *)
From Verif Require Import M_Main.

Section Tight.
  Context (N : num).
  Notation V := (vec N D2).
  Notation ratio a b := ((nofZ a /. nofZ b) : N).

  (** l_0 = 1, R_e = 6/5, Courant number 1/10, g = 10, all other constants 1, domain 10 x 10. *)
  Definition tight_env : option (environment N default_config) :=
    new_env (N := N) default_config (ratio 1 100) (ratio 1 10) (nofZ 10) (nofZ 1) (nofZ 1) (ratio 9 10) (ratio 6 5) (nofZ 1) (nofZ 1)
      ((nofZ 0, nofZ 0) : V) ((nofZ 10, nofZ 10) : V).
  Definition resting (x pressure : N) : particle N D2 :=
    mkParticle ((x, nofZ 5) : V) ((nofZ 0, nofZ 0) : V) pressure (nofZ 0) Newton.
  Definition tight_particles : list (particle N D2) :=
    [resting (nofZ 5) (nofZ 1); resting (nofZ 6) (nofZ 0); resting (ratio 193 32) (nofZ 0)].
  Definition tight_walls : wallmotion N D2 := fixed_walls (N := N) default_config (map pX tight_particles).
  (** A new computer (accuracy 10^-10), these particles, one step of 1/64. *)
  Definition tight_step : option (outcome (computer default_config tight_walls)) :=
    match tight_env with
    | None => None
    | Some e => match new_computer default_config tight_walls (ratio 1 10000000000) e tt with
                | None => None
                | Some s => Some (forward_dt (ratio 1 64) (add_particles (cfg := default_config) tight_particles s))
                end
    end.
End Tight.

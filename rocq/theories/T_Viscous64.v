(** Property theorem about a concrete binary64 run: the automatic time step knows no viscous limit (C67). *)
From Verif Require Import M_NumF M_Main P_Neigh T_Env T_Life S_Outcome T_Binary64.

(** As in T_Binary64, with kinematic viscosity 100 instead of 10^-6. *)
Definition thick_env : option (environment F64num default_config) :=
  new_env default_config (q 1 10) (q 1 2) (q 10 1) (q 1000 1) (q 100 1) (q 95 100) (q 2 1) (q 1 1) (q 1 4)
    (q (-4) 1, q (-4) 1) (q 2 1, q 2 1).
(** Two fluid particles, one particle distance apart, passing each other with a thousandth of a metre per second. *)
Definition c67_parts : list fpart := [ fluid_at (q 0 1) (q 0 1) (q 0 1) (q 1 1000); fluid_at (q 1 4) (q 0 1) (q 0 1) (q (-1) 1000) ].
Definition c67_init : list (vec F64num D2) := map pX c67_parts.
Definition c67_run : option (fcomputer c67_init) :=
  e ← thick_env; s ← new_computer default_config (wall_of c67_init) (q 1 1000000) e tt; api_run [AddParticles default_config c67_parts] s.
Definition c67_observe (s : fcomputer c67_init) :=
  match cParts s, forward s with
  | [p1; p2], Done s' => match cParts s' with
      | [p1'; p2'] => Some (nofZ 300 ×. dist (pU p1) (pU p2) <?. dist (pU p1') (pU p2'), is_newton (pT p1') && is_newton (pT p2'))
      | _ => None
      end
  | _, _ => None
  end.
Lemma c67_observed : match c67_run with Some s => c67_observe s | None => None end = Some (true, true).
Proof. vm_cast_no_check (@eq_refl _ (Some (true, true))). Qed.

(** A step of automatic length after which the difference between the velocities of the only two particles, both fluid,
    is more than 300 times what it was. *)
Theorem C67_refuted_automatic_step : exists init e (s s' : fcomputer init) p1 p2 p1' p2',
  reachable e s /\ forward s = Done s' /\ cParts s = [p1; p2] /\ cParts s' = [p1'; p2'] /\ pT p1' = Newton /\ pT p2' = Newton /\
  (nofZ 300 ×. dist (pU p1) (pU p2) <?. dist (pU p1') (pU p2')) = true.
Proof.
  pose proof c67_observed as H. exists c67_init. revert H. unfold c67_run. generalize (q 1 1000000) as eps. generalize thick_env as o.
  intros [e|] eps H; [|discriminate H]. cbn [mbind option_bind] in H.
  destruct (new_computer _ _ eps e _) as [s0|] eqn:E0; [|discriminate H]. cbn [mbind option_bind] in H.
  destruct (api_run _ s0) as [s|] eqn:E1; [|discriminate H].
  assert (reachable e s) as Hr by (eapply api_run_reachable; [|exact E1]; eapply reach_new; exact E0).
  exists e, s. unfold c67_observe in H.
  destruct (cParts s) as [|p1 [|p2 []]]; try discriminate H.
  destruct (forward s) as [s'| |]; try discriminate H.
  destruct (cParts s') as [|p1' [|p2' []]] eqn:E'; try discriminate H.
  exists s', p1, p2, p1', p2'. apply (inj Some) in H. pose proof (f_equal fst H) as H1. pose proof (f_equal snd H) as H2. cbn [fst snd] in H1, H2.
  apply andb_true_iff in H2 as [H2 H3].
  split; [exact Hr|]. split; [reflexivity|]. split; [reflexivity|]. split; [exact E'|].
  split; [by apply is_newton_true|]. split; [by apply is_newton_true|exact H1].
Qed.

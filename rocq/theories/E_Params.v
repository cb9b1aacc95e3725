(** The two drops of E_Real meet the hypotheses of [C32_step], for any positive tolerance. *)
From Verif Require Import P_Neigh P_Force T_Search T_Env T_Density T_Force T_Solve T_Outcome S_Outcome S_Lattice S_Ppe M_Main E_Real T_Params.
Open Scope R_scope.

Theorem example_tolerance (eps : R) : exists (env : environment Rnum rcfg) (s0 s s1 s2 s3 s4 s5 s6 s7 s8 : rcomputer),
  square_ground env /\ 0 < eNL env /\ 0 < eRe env /\ cExplicit rcfg = false /\
  new_computer rcfg rwall (eps : Rnum) env tt = Some s0 /\ later s0 s /\
  step_trace (ex_dt : Rnum) s s1 s2 s3 s4 s5 s6 s7 s8 /\ moved_at_most ((eNL env - eRe env) / 2) s s6 /\
  forall i p, cParts s6 !! i = Some p -> unknown (cEnv s6) p.
Proof.
  destruct ex_env_facts as (e & Hee & He). destruct (ex_new e He (eps : Rnum)) as [s0 Hs0].
  destruct (ex_completes e He _ s0 Hs0) as [s' Hf]. pose proof Hf as (s1 & s2 & s3 & s4 & s5 & s6 & s7 & HT)%forward_Done.
  assert (step_prefix (ex_dt : Rnum) (ex_state s0) s1 s2 s3 s4 s5 s6) as HPre by (destruct HT; by split).
  destruct (ex_prefix e He _ s0 Hs0 _ _ _ _ _ _ HPre) as [HM HE HB HA HN].
  exists e, s0, (ex_state s0), s1, s2, s3, s4, s5, s6, s7, s'.
  split; [by left|]. split; [rewrite (ef_nl e He); lra|]. split; [rewrite (ef_re e He); lra|]. split; [done|]. split; [done|].
  split. { apply (later_done s0 (AddParticles rcfg drops) s0); [constructor|done]. }
  split; [done|]. pose proof (HA s6 ltac:(do 2 right; left)) as P6. split.
  - apply (pair_moved e He 3 vzero fall_z fall_u); [by apply (ex_start e (eps : Rnum))|done|]. unfold fall_z; rewrite Rabs_pos_eq; lra.
  - intros i p Hp. destruct (pair_at _ _ _ _ _ P6 Hp) as (Hi & Tp & _). split; [split; congruence|by left].
Qed.

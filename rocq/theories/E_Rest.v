(** Example for C60: two fluid particles at rest without gravity. *)
From Verif Require Import P_Neigh P_Force T_Search T_Env T_Outcome S_Outcome S_Lattice S_Main S_Rest T_Rest M_Main E_Real.
Open Scope R_scope.

(** The example environment without gravity.  (In the C++ program g = 0 makes the second limit of the time step infinite,
    Environment.hpp:138, so MaxDt is the value asked for; exact division by zero has no such value, which is why the
    environment is written down here and not computed.) *)
Definition weightless (e : environment Rnum rcfg) : environment Rnum rcfg :=
  mkEnv rcfg (eT e) (eDt e) (eN0 e) (eLambda e) (eC e) (1/100 : Rnum) (eMaxDx e) (eL0 e) (eRe e) (vzero : rvec) (1 : Rnum)
    (eNu e) (eSurf e) (eMinX e) (eMaxX e) (eNL e).

Theorem example_rest : exists (env : environment Rnum rcfg) (cond : condition) (s : rcomputer),
  eG env = vzero /\ 0 < eMaxDt env /\ 0 < eN0 env /\ 0 < eRho env /\ 0 < eRe env /\
  initial cond env drops s /\ locatable env s /\ ~ crowded env s /\
  close (eRe env) s 0 1 /\
  forall n, exists s', stepped s n s' /\ unmoved s s'.
Proof.
  destruct ex_env_facts as (e & Hee & He). set (cond := mkCondition (N := Rnum) (1/1000000) 0 1 (1/100)).
  destruct (ex_new e He (1/1000000 : Rnum)) as [s0 Hs0].
  assert (exists s1, new_computer rcfg rwall (1/1000000 : Rnum) (weightless e) tt = Some s1) as [s1 Hs1].
  { unfold new_computer in Hs0 |- *. change (new_grid (cDim rcfg) (eNL (weightless e)) (eL0 (weightless e)) (eMinX (weightless e)) (eMaxX (weightless e)))
      with (new_grid (cDim rcfg) (eNL e) (eL0 e) (eMinX e) (eMaxX e)). destruct (new_grid _ _ _ _ _); [|done]. eauto. }
  set (s := add_particles drops s1). assert (initial cond (weightless e) drops s) as Hi by (exists s1; done).
  destruct (initial_reachable _ _ _ _ Hi) as [Hr Hp].
  change rcomputer in (type of s). assert (cParts (s : rcomputer) = drops) as Hp' by exact Hp. clear Hp.
  assert (cParts (ex_state s0) = cParts s) as Eq by (etransitivity; [by eapply ex_parts|symmetry; exact Hp']).
  assert (locatable (weightless e) s) as Hloc.
  { intros i p k Hip. rewrite <- Eq in Hip. exact (ex_locatable e He _ s0 Hs0 i p k Hip). }
  assert (~ crowded (weightless e) s) as Hcr.
  { intros (b & js & A & B & C & D & E). apply (ex_not_crowded e He _ s0 Hs0). exists b, js. split; [done|]. split; [done|]. split; [done|].
    split; [|done]. rewrite Eq. exact D. }
  exists (weightless e), cond, s. split; [done|]. split; [cbn; lra|]. split; [cbn; rewrite (ef_n0 e He); lra|]. split; [cbn; lra|].
  split; [cbn; rewrite (ef_re e He); lra|]. split; [done|]. split; [done|]. split; [done|]. split.
  - cbn [weightless eRe]. rewrite (ef_re e He). split; [done|]. exists (drop_at 3 3), (drop_at 4 3). rewrite Hp'.
    split; [done|]. split; [done|]. split; [done|]. cbn [drop_at pX]. rewrite pair_dist. lra.
  - intros n. apply (C60_forever cond (weightless e) drops s n); try done.
    + by left.
    + cbn; lra.
    + cbn; rewrite (ef_n0 e He); lra.
    + cbn; lra.
    + cbn; rewrite (ef_re e He); lra.
    + repeat constructor.
    + intros i j p q Hij Hip Hjq. assert (edist (pX p) (pX q) = 1) as Hd.
      { destruct i as [|[|i]], j as [|[|j]]; cbn in Hip, Hjq; simplify_eq; cbn [drop_at pX]; [apply pair_dist|apply pair_dist']. }
      split.
      * intros Ex. rewrite Ex in Hd. rewrite (proj2 (edist_zero _ _) eq_refl) in Hd. lra.
      * intros _. rewrite Hd. cbn. rewrite (ef_l0 e He), (ef_dx e He). lra.
Qed.

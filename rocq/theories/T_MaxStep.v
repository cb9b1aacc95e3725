(** How far the pressures of a step are from those of the exact solution (C84). *)
From Coq Require Import Reals Lra.
From Verif Require Export S_Max T_Max.
From Verif Require Import P_Real P_Neigh P_Force T_Env T_Ppe T_Solve T_Scheme.
Open Scope R_scope.

Lemma Rmax_near a b : Rabs (Rmax 0 a - Rmax 0 b) <= Rabs (a - b).
Proof.
  unfold Rmax. destruct (Rle_dec 0 a), (Rle_dec 0 b); unfold Rabs; repeat destruct (Rcase_abs _); lra.
Qed.

Section Step.
  Context {cfg : config} {wm : wallmotion Rnum (cDim cfg)}.
  Notation computer := (computer cfg wm).
  Implicit Types (s : computer).

  Lemma solved_residuals env (eps : R) c (ps : list (particle Rnum (cDim cfg))) x : 0 < eps -> solved env eps c ps x ->
    forall i p, ps !! i = Some p -> has_pressure env p ->
    Rabs (residual env c ps x i p) <= eps * R_sqrt.sqrt (residual2 env c ps (old_pressures ps)).
  Proof.
    intros He HS i p Hp Hh. set (S0 := residual2 env c ps (old_pressures ps)) in *.
    assert (forall y, residual env c ps y i p ^ 2 <= residual2 env c ps y) as HT.
    { intros y. unfold residual2. set (f := fun i => match ps !! i with Some p => _ | None => 0 end).
      assert (f i = residual env c ps y i p ^ 2) as <- by (unfold f; by rewrite Hp, decide_True).
      apply sum_n_ge; [|by eapply lookup_lt_Some]. intros j _. unfold f. destruct (ps !! j); [|lra]. destruct (decide _); [apply pow2_ge_0|lra]. }
    assert (forall r S, r ^ 2 <= S -> Rabs r <= R_sqrt.sqrt S) as HQ.
    { intros r S H. rewrite <- (sqrt_Rsqr_abs r). apply sqrt_le_1_alt. unfold Rsqr. lra. }
    destruct HS as [[Hx [?|H0]]|HL]; [lra| |].
    - assert (residual env c ps x i p = residual env c ps (old_pressures ps) i p) as ->.
      { unfold residual. rewrite (lap_ext env ps x (old_pressures ps) i p Hp Hh); [done|]. intros j q Hj Hq. rewrite (Hx j q Hj Hq). unfold old_pressures. by rewrite Hj. }
      specialize (HT (old_pressures ps)). apply HQ in HT. assert (S0 = 0) as E0 by exact H0. change (residual2 env c ps (old_pressures ps)) with S0 in HT. rewrite E0, sqrt_0 in HT. rewrite E0, sqrt_0. lra.
    - assert (0 <= S0) as H0. { unfold S0, residual2. apply sum_n_nonneg. intros j _. destruct (ps !! j); [|lra]. destruct (decide _); [apply pow2_ge_0|lra]. }
      pose proof (HQ _ _ (HT x)) as H1. assert (R_sqrt.sqrt (residual2 env c ps x) <= R_sqrt.sqrt (eps ^ 2 * S0)) as H2 by (apply sqrt_le_1_alt, Rlt_le; exact HL).
      rewrite sqrt_mult_alt in H2 by apply pow2_ge_0. rewrite sqrt_pow2 in H2 by lra. lra.
  Qed.

  (** C84.  The pressures after a step.  Where the pressure equation of the step makes sense, it has an exact solution [x], and the
      pressures the program arrives at are those of [x] (negative ones set to 0) up to the solver's tolerance times the residual
      of the pressures before, times the unit response of the particle. *)
  Theorem C84_accuracy (env0 : environment Rnum cfg) (dt : R) s s' :
    square_ground env0 -> 0 < eRe env0 -> eRe env0 <= eNL env0 -> reachable env0 s -> forward_dt (dt : Rnum) s = Done s' ->
    cExplicit cfg = false -> 0 < cEps s ->
    let env := env_of_step dt s in let wall := walls_of_step dt s in
    displacements_at_most env ((eNL env0 - eRe env0) / 2) wall (cEps s) (cParts s) ->
    (forall ps1 ps2, first_half env wall (cParts s) ps1 ps2 -> solvable_frame env ps2) ->
    exists ps1 ps2 (x u : nat -> R), first_half env wall (cParts s) ps1 ps2 /\ exact_pressures env (compensations env ps1) ps2 x /\ unit_response env ps2 u /\
      forall i p, ps2 !! i = Some p -> has_pressure env p ->
      exists p', cParts s' !! i = Some p' /\
        Rabs (pP p' - Rmax 0 (x i)) <= cEps s * R_sqrt.sqrt (residual2 env (compensations env ps1) ps2 (old_pressures ps2)) * u i.
  Proof.
    intros Hsq HRe HNL Hr HF HX HE env wall HD HS.
    destruct (C61_step env0 dt s s' Hsq HRe HNL Hr HF HD) as (ps1 & ps2 & ps4 & H1 & (ps3 & HP & HA) & HT).
    change (set_next_t (set_dt (dt : Rnum) (cEnv s))) with env in H1, HP, HA, HT.
    specialize (HS ps1 ps2 H1). destruct (C84_exists env ps2 HS (compensations env ps1)) as [x Hx].
    destruct (C84_unit_response env ps2 HS) as (u & Hu & _). exists ps1, ps2, x, u. split; [exact H1|]. split; [done|]. split; [done|].
    intros i p Hp Hh. unfold pressures in HP. rewrite HX in HP. destruct HP as (y & Hy & [_ HP]).
    destruct (HP i p Hp) as (p3 & Hp3 & [HP3 _]). specialize (HP3 (proj1 Hh)). rewrite decide_True in HP3 by done.
    destruct HA as [_ HA]. destruct (HA i p3 Hp3) as (p4 & Hp4 & HA4).
    assert (pP p4 = pP p3) as E4.
    { destruct HA4 as [HA4 HA4']. destruct (decide (pT p3 = Newton)) as [HN|HN]; [|by rewrite (HA4' HN)]. specialize (HA4 HN).
      destruct (cGC cfg); [destruct HA4 as (C & _ & ->)|rewrite HA4]; done. }
    assert (exists p', cParts s' !! i = Some p' /\ pP p' = pP p4) as (p' & Hp' & E').
    { destruct (cDS cfg); [|subst ps4; eauto]. destruct HT as [_ HT]. destruct (HT i p4 Hp4) as (p' & Hp' & [HT1 HT2]). exists p'. split; [done|].
      destruct (decide (pT p4 = Newton)) as [HN|HN]; [by rewrite (HT1 HN)|by rewrite (HT2 HN)]. }
    exists p'. split; [done|]. rewrite E', E4, HP3. cbn [pP]. eapply Rle_trans; [apply Rmax_near|].
    apply (C84_bound env ps2 HS (compensations env ps1) y x u _ Hu) with (p := p); [|done|done].
    intros j q Hj Hq. rewrite (Hx j q Hj Hq), Rminus_0_r. by apply solved_residuals.
  Qed.
End Step.

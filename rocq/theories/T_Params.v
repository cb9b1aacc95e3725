(** The tolerance the pressure equation is solved with is the one the computer was made with (C32). *)
From Coq Require Import Reals Lra.
From Verif Require Export S_Main S_Reach T_Search T_Solve.
From Verif Require Import P_Life P_Step P_Phase T_Main T_Rest.

Open Scope R_scope.

Section Any.
  Context {N : num} {cfg : config} {wm : wallmotion N (cDim cfg)}.
  Notation computer := (computer cfg wm).

  (** [later s s']: public functions, called on [s] in any order and with any arguments, each returning or throwing, leave [s']. *)
  Inductive later (s : computer) : computer -> Prop :=
    | later_0 : later s s
    | later_done o s1 s2 : later s s1 -> api_step o s1 = Done s2 -> later s s2
    | later_throw o s1 s2 e : later s s1 -> api_step o s1 = Throw e s2 -> later s s2.

  Lemma search_eps (s s' : computer) : search_neighbor s = Done s' -> cEps s' = cEps s.
  Proof. intros H. assert (search_rel s s') as [-> _] by (apply search_frame; by rewrite H). done. Qed.
  Lemma forward_eps dt (s s' : computer) : final (forward_dt dt s) = Some s' -> cEps s' = cEps s.
  Proof.
    intros Hf. apply forward_final in Hf as [[e He]|(s1 & H1 & Hp)].
    - assert (search_rel (start_step dt s) s') as [H _] by (apply search_frame; by rewrite He). by rewrite H.
    - rewrite (pr_eps _ _ Hp). by rewrite (search_eps _ _ H1).
  Qed.
  Lemma api_eps o (s s' : computer) : final (api_step o s) = Some s' -> cEps s' = cEps s.
  Proof.
    intros H. apply forward_dt_frame in H. destruct o as [src|dt|].
    - by subst s'.
    - by eapply forward_eps.
    - destruct H as (dt & _ & H). by eapply forward_eps.
  Qed.
  Lemma later_eps (s s' : computer) : later s s' -> cEps s' = cEps s.
  Proof.
    intros H. induction H as [|o s1 s2 _ IH H|o s1 s2 e _ IH H]; [done|..]; rewrite <- IH; apply (api_eps o); by rewrite H.
  Qed.
  Lemma trace_eps dt (s s1 s2 s3 s4 s5 s6 s7 s8 : computer) : step_trace dt s s1 s2 s3 s4 s5 s6 s7 s8 -> cEps s6 = cEps s.
  Proof.
    intros [H1 H2 H3 H4 H5 H6 _ _].
    assert (cEps s6 = cEps s5) as -> by (destruct (cDS cfg); [by rewrite (pr_eps _ _ (savex_pr _ _ H6))|by subst]).
    rewrite (pr_eps _ _ (dens_pr _ _ H5)), (pr_eps _ _ (explicit_pr _ _ H4)).
    assert (cEps s3 = cEps s2) as -> by (destruct (cECS cfg); [by rewrite (pr_eps _ _ (ecs_pr _ _ H3))|by subst]).
    by rewrite (pr_eps _ _ (dens_pr _ _ H2)), (search_eps _ _ H1).
  Qed.

  (** C32.  Whatever is done with a computer, its tolerance stays the one it was constructed with. *)
  Theorem C32_tolerance eps env w (s0 s : computer) :
    new_computer cfg wm eps env w = Some s0 -> later s0 s -> cEps s = eps.
  Proof.
    intros H0 HL. rewrite (later_eps _ _ HL). unfold new_computer in H0.
    destruct (new_grid _ _ _ _ _); [|done]. by injection H0 as <-.
  Qed.
  Lemma later_reachable eps env w (s0 s : computer) :
    new_computer cfg wm eps env w = Some s0 -> later s0 s -> reachable env s.
  Proof.
    intros H0 H. induction H as [|o s1 s2 _ IH H|o s1 s2 e _ IH H]; [by eapply reach_new|by eapply reach_done|by eapply reach_throw].
  Qed.
End Any.

Section Exact.
  Context {cfg : config} {wm : wallmotion Rnum (cDim cfg)}.
  Notation computer := (computer cfg wm).

  (** C32.  For a computer constructed with tolerance [eps], used in any way and then moved on by a step: the pressures of the
      particles with an unknown are those of a vector [x] (negative ones set to 0) whose residual in the pressure equation
      [t] set up from the state before is below [eps] times that of the pressures before. *)
  Theorem C32_step (eps : R) (env : environment Rnum cfg) w (s0 s s1 s2 s3 s4 s5 s6 s7 s8 : computer) (dt : R) :
    square_ground env -> 0 < eNL env -> 0 < eRe env -> cExplicit cfg = false ->
    new_computer cfg wm (eps : Rnum) env w = Some s0 -> later s0 s ->
    step_trace (dt : Rnum) s s1 s2 s3 s4 s5 s6 s7 s8 -> moved_at_most ((eNL env - eRe env) / 2) s s6 ->
    exists t (x : list R), set_ppe s6 = Some t /\ length x = psize s6 /\
      ((x = cXv t /\ (eps = 0 \/ res2 (psize s6) (cA t) (cBv t) (cXv t) = 0))
       \/ res2 (psize s6) (cA t) (cBv t) x < eps ^ 2 * res2 (psize s6) (cA t) (cBv t) (cXv t)) /\
      forall i p, cParts s6 !! i = Some p -> unknown (cEnv s6) p ->
      exists p', cParts s8 !! i = Some p' /\ pP p' = Rmax 0 (el x i).
  Proof.
    intros Hsq HNL HRe Hx H0 HL HT Hm. pose proof (later_reachable _ _ _ _ _ H0 HL) as Hr.
    assert (midstep s6) as M6. { eapply (C11_midstep env dt s s1 s2 s3 s4 s5 s6 s7 s8 s6); try done. do 5 right. left. }
    pose proof (trace_eps _ _ _ _ _ _ _ _ _ _ HT) as HE. rewrite (C32_tolerance _ _ _ _ _ H0 HL) in HE.
    destruct (C32_pressure s6 s7 M6 Hx (st_implicit _ _ _ _ _ _ _ _ _ _ HT)) as (t & x & Ht & Lx & HR & HP).
    exists t, x. split; [done|]. split; [done|]. split.
    { change (cEps s6 = (eps : Rnum)) in HE. rewrite HE in HR. exact HR. }
    intros i p Hp Hu. destruct (HP i p Hp Hu) as (p' & Hp' & HPP). destruct HT as [_ _ _ _ _ _ _ H8].
    destruct (cDS cfg); [|subst s8; eauto].
    pose proof (stabilize_at s7 s8 i p' H8 Hp') as Hst.
    destruct (is_newton (pT p')); [destruct Hst as (a & _ & Hst)|]; eexists; (split; [exact Hst|]); done.
  Qed.
End Exact.

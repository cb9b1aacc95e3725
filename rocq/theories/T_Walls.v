(** C69: only the prescribed positions matter; the clock does not; a run can be restarted from an output. *)
From Verif Require Export S_Walls T_Main.
From Verif Require Import P_Phase P_Life P_Step P_Sim P_Reach P_Search P_Conv T_Obs T_Outcome.

Section Any.
  Context {N : num} {cfg : config} (wm wm' : wallmotion N (cDim cfg)).
  Notation d := (cDim cfg).
  Notation part := (particle N d).

  Lemma conv0_inv env0 t dt0 (w : wS wm') (s : computer cfg wm) : inv env0 s -> inv env0 (conv0 wm wm' t dt0 w s).
  Proof.
    intros [HW HG HE]. split; [|exact HG|].
    - split; [apply HW|apply HW|apply HW|apply HW|apply HW|apply HW|apply HW|apply HW|apply HW|apply HW].
    - unfold same_constants in *. cbn. rewrite HE. done.
  Qed.
  Lemma same_kind_trans {A B C} (R1 : A -> B -> Prop) (R2 : B -> C -> Prop) (R3 : A -> C -> Prop) T1 T2 (T3 : exn -> A -> C -> Prop) o1 o2 o3 :
    same_kind R1 T1 o1 o2 -> same_kind R2 T2 o2 o3 ->
    (forall a b c, R1 a b -> R2 b c -> R3 a c) -> (forall e a b c, T1 e a b -> T2 e b c -> T3 e a c) ->
    same_kind R3 T3 o1 o3.
  Proof.
    intros H1 H2 HR HT. destruct o1, o2, o3; cbn in *; try done; try tauto; eauto.
    destruct H1 as [-> H1], H2 as [-> H2]. eauto.
  Qed.

  (** C69.  A step depends on the wall callbacks, on their state and on the clock only through the positions they
      prescribe for the particles that are not fluid after the step: two computers for the same environment with the same
      particles and accuracy, but with different callback programs, callback states and times, end a step of the same length
      with the same particles (or the same exception) if these positions agree. *)
  Theorem C69_only_positions_matter env0 dt (s : computer cfg wm) (s' : computer cfg wm') :
    square_ground env0 -> reachable env0 s -> reachable env0 s' -> cParts s' = cParts s -> cEps s' = cEps s ->
    same_prescriptions dt s s' -> same_result (forward_dt dt s) (forward_dt dt s').
  Proof.
    intros Hsq Hr Hr' HP HE H. pose proof (reachable_inv _ _ Hsq Hr) as HI. pose proof (reachable_inv _ _ Hsq Hr') as HI'.
    set (t := eT (cEnv s')). set (w := cWall s').
    eapply same_kind_trans; [apply (forward_conv wm wm' dt t (eDt (cEnv s')) w)| |..].
    - intros s1 H1 i p Hp HT.
      assert (exists u, final (forward_dt dt s) = Some u /\ (forward_dt dt s = Done u \/ exists e, forward_dt dt s = Throw e u)) as (u & Hu & Hu').
      { destruct (after_search env0 dt s s1 Hsq Hr H1) as (s2 & s3 & s4 & s5 & s6 & _ & HA). destruct (compute_implicit s6) as [s7|e s7|]; [| |done].
        - destruct HA as [u Hu]. rewrite Hu. exists u. auto.
        - destruct HA as (_ & Hu & _). rewrite Hu. exists s7. eauto. }
      destruct (forward_final _ _ _ Hu) as [[e He]|(s1' & H1' & PR)]; [by rewrite H1 in He|].
      rewrite H1 in H1'. injection H1' as <-.
      assert (exists q, cParts u !! i = Some q /\ pT q = pT p) as (q & Hq & Tq).
      { assert ((pT <$> cParts s1) !! i = Some (pT p)) as E by (by rewrite list_lookup_fmap, Hp).
        rewrite <- (pr_types _ _ PR) in E. apply list_lookup_fmap_Some in E as (q & Hq & ->). eauto. }
      apply (H u i q Hu' Hq). by rewrite Tq.
    - apply (forward_alike false env0); [done|by apply conv0_inv|exact HI'|]. apply alike_false; [done| |done|done].
      pose proof (inv_env _ _ HI) as H1. pose proof (inv_env _ _ HI') as H2. unfold same_constants in H1, H2.
      cbn. rewrite H2, H1. done.
    - cbv beta. intros a b c [w' ->] A. apply alike_parts in A. exact A.
    - cbv beta. intros e a b c [w' ->] A. apply alike_parts in A. exact A.
  Qed.
End Any.

Section Restart.
  Context {N : num} {cfg : config}.
  Notation part := (particle N (cDim cfg)).

  Lemma started cond (env : environment N cfg) (particles : list part) s :
    initial cond env particles s -> reachable env s /\ cParts s = particles /\ cEps s = coEps cond.
  Proof.
    intros (s0 & H0 & ->). assert (cParts s0 = [] /\ cEps s0 = coEps cond) as [E1 E2].
    { unfold new_computer in H0. destruct (new_grid _ _ _ _ _); [|done]. cbn in H0. by injection H0 as <-. }
    split; [|split; [unfold add_particles; cbn [cParts]; by rewrite E1|done]].
    apply (reach_done env (AddParticles cfg particles) s0); [by eapply reach_new|done].
  Qed.
  Lemma forward_eps {wm : wallmotion N (cDim cfg)} dt (s s' : computer cfg wm) : final (forward_dt dt s) = Some s' -> cEps s' = cEps s.
  Proof.
    intros H. apply forward_final in H as [[e He]|(s1 & H1 & PR)].
    - destruct (search_frame (start_step dt s) s') as [HF _]; [by rewrite He|]. by rewrite HF.
    - rewrite (pr_eps _ _ PR). destruct (search_frame (start_step dt s) s1) as [HF _]; [by rewrite H1|]. by rewrite HF.
  Qed.
  Lemma went {wm : wallmotion N (cDim cfg)} env (s s' : computer cfg wm) n :
    reachable env s -> stepped s n s' -> reachable env s' /\ cEps s' = cEps s.
  Proof.
    intros Hr. induction 1 as [|n s1 s2 _ [IH IE] Hf]; [done|]. split; [by apply (reach_done env (ForwardTime cfg) s1)|].
    rewrite <- IE. unfold forward in Hf. destruct (determine_dt s1) as [dt|]; [|done]. apply (forward_eps dt). by rewrite Hf.
  Qed.
  Lemma fixed_prescribed (init : list (vec N (cDim cfg))) (dt : N) (s : computer cfg (fixed_walls cfg init)) i : prescribed dt s i = nth i init vzero.
  Proof. done. Qed.
  Lemma types_sandwich (a b c : list part) :
    Forall2 (fun p p' => pT p' = pT p \/ pT p' = Disabled) a b -> Forall2 (fun p p' => pT p' = pT p \/ pT p' = Disabled) b c ->
    map pT c = map pT a -> map pT b = map pT a.
  Proof.
    intros H. revert c. induction H as [|x y a b Hxy _ IH]; intros c Hc E; inversion Hc as [|? z ? c' Hyz Hc']; subst; [done|].
    cbn in E |- *. injection E as E1 E2. f_equal; [|by apply (IH c')]. destruct Hxy as [->|Hy]; [done|]. destruct Hyz as [Hz|Hz]; congruence.
  Qed.

  Section Two.
    Context (cond cond' : condition (N := N)) (env : environment N cfg) (particles : list part).
    Context (s t : computer cfg (fixed_walls cfg (map pX particles))) (n : nat) (s' : computer cfg (fixed_walls cfg (map pX (cParts t)))).
    Context (Hsq : square_ground env) (Heps : coEps cond' = coEps cond).
    Context (Hi : initial cond env particles s) (Hn : stepped s n t) (Hi' : initial cond' env (cParts t) s').

    Lemma walls_agree i p : cParts t !! i = Some p -> pT p <> Newton -> nth i (map pX (cParts t)) vzero = nth i (map pX particles) vzero.
    Proof.
      intros Hp HT. assert (nth i (map pX (cParts t)) vzero = pX p) as -> by (erewrite nth_lookup_Some; [done|]; by rewrite list_lookup_fmap, Hp).
      destruct (started _ _ _ _ Hi) as (_ & HP & _). pose proof (stepped_types _ _ _ Hn) as F. rewrite HP in F.
      destruct (Forall2_lookup_r _ _ _ _ _ F Hp) as (p0 & Hp0 & _).
      assert (nth i (map pX particles) vzero = pX p0) as -> by (erewrite nth_lookup_Some; [done|]; by rewrite list_lookup_fmap, Hp0).
      destruct n as [|n'].
      - inversion Hn as [E|]; subst. rewrite HP in Hp. congruence.
      - eapply (C26_position cond env particles s (S n') t); [done|done|done|done|done|right; lia].
    Qed.
    Lemma determine_same {wm wm' : wallmotion N (cDim cfg)} (u : computer cfg wm) (u' : computer cfg wm') :
      reachable env u -> reachable env u' -> cParts u' = cParts u -> determine_dt u' = determine_dt u.
    Proof.
      intros Hr Hr' HP. pose proof (inv_env _ _ (reachable_inv _ _ Hsq Hr)) as H1. pose proof (inv_env _ _ (reachable_inv _ _ Hsq Hr')) as H2.
      unfold same_constants in H1, H2. unfold determine_dt. rewrite HP.
      assert (eMaxDx (cEnv u') = eMaxDx (cEnv u)) as -> by (by rewrite H1, H2).
      assert (eMaxDt (cEnv u') = eMaxDt (cEnv u)) as -> by (by rewrite H1, H2). done.
    Qed.
    (** One step of the old and of the new run. *)
    Lemma restart_step m u u' : stepped t m u -> stepped s' m u' -> cParts u' = cParts u ->
      (forall v, (forward u = Done v \/ exists e, forward u = Throw e v) -> nobody_left t (cParts v)) ->
      same_result (forward u) (forward u').
    Proof.
      intros Hu Hu' HP HL. destruct (started _ _ _ _ Hi) as (Rs & _ & Es). destruct (started _ _ _ _ Hi') as (Rs' & HPt & Es').
      destruct (went env _ _ _ Rs Hn) as [Rt Et]. destruct (went env _ _ _ Rt Hu) as [Ru Eu]. destruct (went env _ _ _ Rs' Hu') as [Ru' Eu'].
      unfold forward in *. rewrite (determine_same u u' Ru Ru' HP). destruct (determine_dt u) as [dt|]; [|done].
      apply (C69_only_positions_matter _ _ env); [done|done|done|done|congruence|].
      intros v i p Hv Hp HT. rewrite !fixed_prescribed. specialize (HL v Hv). unfold nobody_left in HL.
      assert (exists q, cParts t !! i = Some q /\ pT q = pT p) as (q & Hq & Tq).
      { assert ((pT <$> cParts v) !! i = Some (pT p)) as E by (by rewrite list_lookup_fmap, Hp).
        change (pT <$> cParts v) with (map pT (cParts v)) in E. rewrite HL in E. change (@map part ptype) with (@fmap list _ part ptype) in E.
        apply list_lookup_fmap_Some in E as (q & Hq & ->). eauto. }
      apply (walls_agree i q Hq). by rewrite Tq.
    Qed.

    (** C69.  Restart: the application started again from the particles it had reached after [n] steps - the clock at zero, the walls held
        where the particles are now - goes through the same states as if it had gone on, as long as no particle leaves the grid. *)
    Theorem C69_restart m u : stepped t m u -> nobody_left t (cParts u) ->
      exists u', stepped s' m u' /\ cParts u' = cParts u /\
        forall e v, forward u = Throw e v -> nobody_left t (cParts v) -> exists v', forward u' = Throw e v' /\ cParts v' = cParts v.
    Proof.
      intros Hu HL.
      assert (exists u', stepped s' m u' /\ cParts u' = cParts u) as (u' & Hu' & HP).
      { induction Hu as [|m u v Hu IH Hf].
        - exists s'. split; [constructor|]. by destruct (started _ _ _ _ Hi') as (_ & -> & _).
        - assert (Forall2 (fun p p' => pT p' = pT p \/ pT p' = Disabled) (cParts u) (cParts v)) as F.
          { apply (stepped_types u 1 v). econstructor; [constructor|done]. }
          destruct IH as (u' & Hu' & HP).
          { unfold nobody_left in *. eapply types_sandwich; [exact (stepped_types _ _ _ Hu)|exact F|done]. }
          pose proof (restart_step m u u' Hu Hu' HP) as HS. rewrite Hf in HS.
          specialize (HS ltac:(intros v1 [[= <-]|[e He]]; done)). destruct (forward u') as [v'| |] eqn:E; try done.
          exists v'. split; [by econstructor|done]. }
      exists u'. split; [done|]. split; [done|]. intros e v Hf HLv.
      pose proof (restart_step m u u' Hu Hu' HP) as HS. rewrite Hf in HS.
      specialize (HS ltac:(intros v1 [?|[e1 [= <- <-]]]; done)). destruct (forward u') as [|e' v'|]; try done. destruct HS as [-> HS]. by exists v'.
    Qed.
    (** ... and the other way round: whatever the restarted run reaches without losing a particle, the first one would have reached. *)
    Theorem C69_restart_faithful m u' : stepped s' m u' -> nobody_left t (cParts u') ->
      exists u, stepped t m u /\ cParts u = cParts u'.
    Proof.
      intros Hu' HL. destruct (started _ _ _ _ Hi') as (Rs' & HPt & Es').
      induction Hu' as [|m u' v' Hu' IH Hf].
      - exists t. split; [constructor|]. by rewrite HPt.
      - assert (Forall2 (fun p p' => pT p' = pT p \/ pT p' = Disabled) (cParts u') (cParts v')) as F.
        { apply (stepped_types u' 1 v'). econstructor; [constructor|done]. }
        destruct IH as (u & Hu & HP).
        { unfold nobody_left in *. eapply types_sandwich; [|exact F|done]. pose proof (stepped_types _ _ _ Hu') as F0. revert F0.
          generalize (cParts u'). rewrite HPt. auto. }
        destruct (started _ _ _ _ Hi) as (Rs & _ & Es).
        destruct (went env _ _ _ Rs Hn) as [Rt Et]. destruct (went env _ _ _ Rt Hu) as [Ru Eu]. destruct (went env _ _ _ Rs' Hu') as [Ru' Eu'].
        assert (same_result (forward u') (forward u)) as HS.
        { unfold forward in *. rewrite (determine_same u' u Ru' Ru HP). destruct (determine_dt u') as [dt|]; [|done].
          apply (C69_only_positions_matter _ _ env); [done|done|done|done|congruence|].
          intros v i p Hv Hp HT. rewrite !fixed_prescribed. rewrite Hf in Hv. destruct Hv as [[= <-]|[e He]]; [|done]. unfold nobody_left in HL.
          assert (exists q, cParts t !! i = Some q /\ pT q = pT p) as (q & Hq & Tq).
          { assert ((pT <$> cParts v') !! i = Some (pT p)) as E by (by rewrite list_lookup_fmap, Hp).
            change (pT <$> cParts v') with (map pT (cParts v')) in E. rewrite HL in E. change (@map part ptype) with (@fmap list _ part ptype) in E.
            apply list_lookup_fmap_Some in E as (q & Hq & ->). eauto. }
          symmetry. apply (walls_agree i q Hq). by rewrite Tq. }
        rewrite Hf in HS. destruct (forward u) as [v| |] eqn:E; try done. exists v. split; [by econstructor|done].
    Qed.
  End Two.
End Restart.

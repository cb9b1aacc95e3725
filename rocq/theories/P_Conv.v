(** A computer with other wall callbacks and another clock: every phase but the prescribed motion commutes with the change. *)
From Verif Require Import P_Phase P_Life P_Step P_Sim P_Reach P_Point.

Definition omap_outcome {S S'} (f : S -> S') (o : outcome S) : outcome S' :=
  match o with Done s => Done (f s) | Throw e s => Throw e (f s) | Undef => Undef end.
Lemma omap_bind {S S'} (f : S -> S') o (k : S -> outcome S) (k' : S' -> outcome S') :
  (forall s, k' (f s) = omap_outcome f (k s)) -> omap_outcome f o >>o k' = omap_outcome f (o >>o k).
Proof. intros H. destruct o; cbn; [apply H|done|done]. Qed.
Lemma omap_of_opt {S S'} (f : S -> S') (o : option S) : of_opt (f <$> o) = omap_outcome f (of_opt o).
Proof. by destruct o. Qed.
Lemma run_loop_map {S S' V} (L : ploop S V) (L' : ploop S' V) (f : S -> S') n s :
  (forall s i, l_compute L' (f s) i = l_compute L s i) -> (forall i v s, l_write L' i v (f s) = f (l_write L i v s)) ->
  run_loop L' n (f s) = f <$> run_loop L n s.
Proof.
  intros Hc Hw. unfold run_loop. generalize (seq 0 n) as l. intros l. revert s. induction l as [|i l IH]; intros s; [done|].
  cbn [foldM]. unfold l_body at 1 3. rewrite Hc. destruct (l_compute L s i) as [v|]; [|done]. cbn [mbind option_bind]. rewrite Hw. apply IH.
Qed.

Section Conv.
  Context {N : num} {cfg : config} (wm wm' : wallmotion N (cDim cfg)).
  Notation d := (cDim cfg).
  Notation part := (particle N d).

  Definition set_t (t : N) (e : environment N cfg) : environment N cfg :=
    mkEnv cfg t (eDt e) (eN0 e) (eLambda e) (eC e) (eMaxDt e) (eMaxDx e) (eL0 e) (eRe e) (eG e)
      (eRho e) (eNu e) (eSurf e) (eMinX e) (eMaxX e) (eNL e).
  Definition conv (t : N) (w : wS wm') (s : computer cfg wm) : computer cfg wm' :=
    mkComputer cfg wm' (cParts s) (set_t t (cEnv s)) (cGrid s) (cNeighbor s) (cA s) (cXv s) (cBv s) (cEps s) (cDu s) (cEcs s) (cOrigX s) (cNws s) w.
  Context (t : N) (w : wS wm').
  Notation f := (conv t w).
  Implicit Types s : computer cfg wm.

  Ltac loop := apply run_loop_map; [intros; reflexivity|intros ? [] ?; reflexivity].
  Lemma store_one_conv s i : store_one (f s) i = omap_outcome f (store_one s i).
  Proof.
    unfold store_one. cbn [cParts conv cGrid]. destruct (cParts s !! i) as [p|]; [|done]. destruct (is_disabled (pT p)); [done|].
    destruct (store _ _ _ _); done.
  Qed.
  Lemma store_all_conv l s : store_all l (f s) = omap_outcome f (store_all l s).
  Proof.
    revert s. induction l as [|i l IH]; intros s; [done|]. cbn [store_all]. rewrite store_one_conv. apply omap_bind. done.
  Qed.
  Lemma near_conv s i p l : near (f s) i p l = near s i p l.
  Proof. induction l as [|j l IH]; [done|]. cbn [near]. rewrite IH. reflexivity. Qed.
  Lemma search_conv s : search_neighbor (f s) = omap_outcome f (search_neighbor s).
  Proof.
    unfold search_neighbor. change (cGrid (f s)) with (cGrid s). destruct (clear d (cGrid s)) as [g|]; [|done].
    change (with_grid (f s) g) with (f (with_grid s g)). change (psize (f s)) with (psize s). rewrite store_all_conv. apply omap_bind.
    intros s'. rewrite <- omap_of_opt. f_equal. change (psize (f s')) with (psize s').
    apply run_loop_map; [|intros ? [] ?; reflexivity]. intros s1 i. cbn [l_compute neighbor_loop]. change (cParts (f s1)) with (cParts s1).
    destruct (cParts s1 !! i) as [p|]; [|done]. cbn [mbind option_bind]. destruct (is_disabled _); [done|]. change (cGrid (f s1)) with (cGrid s1).
    destruct (around _ _ _) as [js|]; [|done]. cbn [mbind option_bind]. rewrite near_conv. reflexivity.
  Qed.
  Lemma acc_conv {A} s i (z : A) plus func : acc (f s) i z plus func = acc s i z plus func.
  Proof. reflexivity. Qed.
  Lemma dens_conv s : compute_densities (f s) = f <$> compute_densities s.
  Proof. unfold compute_densities. change (psize (f s)) with (psize s). apply run_loop_map; [intros; reflexivity|intros ? [? []] ?; reflexivity]. Qed.
  Lemma ecs_conv s : compute_ecs (f s) = f <$> compute_ecs s.
  Proof. unfold compute_ecs. change (psize (f s)) with (psize s). loop. Qed.
  Lemma savex_conv s : save_x (f s) = f <$> save_x s.
  Proof. unfold save_x. change (psize (f s)) with (psize s). loop. Qed.
  Lemma set_ppe_conv s : set_ppe (f s) = f <$> set_ppe s.
  Proof.
    unfold set_ppe. cbv zeta. change (psize (f s)) with (psize s). change (cBv (f s)) with (cBv s).
    assert (forall s, (s1 ← run_loop (rhs_loop cfg wm') (psize s) (f s); run_loop (matrix_loop cfg wm') (psize s) s1) =
      f <$> (s1 ← run_loop (rhs_loop cfg wm) (psize s) s; run_loop (matrix_loop cfg wm) (psize s) s1)) as HH.
    { intros s0. rewrite (run_loop_map (rhs_loop cfg wm) (rhs_loop cfg wm') f); [|intros; reflexivity|intros ? [] ?; reflexivity].
      destruct (run_loop (rhs_loop cfg wm) _ _) as [s1|]; [|done]. cbn [fmap option_fmap option_map mbind option_bind].
      apply run_loop_map; intros; reflexivity. }
    destruct (_ =? _)%nat; [apply HH|]. exact (HH (with_ppe s _ _ _)).
  Qed.
  Lemma solve_conv s : solve_ppe (f s) = omap_outcome f (solve_ppe s).
  Proof. unfold solve_ppe. cbv zeta. cbn [cA cXv cBv cEps conv]. destruct (cg_solve _ _ _ _) as [x []]; reflexivity. Qed.
  Lemma kick_conv n s : run_loop (kick_loop cfg wm') n (f s) = f <$> run_loop (kick_loop cfg wm) n s.
  Proof. loop. Qed.
  Lemma gradient_conv s : modify_by_gradient (f s) = f <$> modify_by_gradient s.
  Proof.
    unfold modify_by_gradient. change (psize (f s)) with (psize s).
    rewrite (run_loop_map (grad_loop cfg wm) (grad_loop cfg wm') f); [|intros; reflexivity|intros ? [] ?; reflexivity].
    destruct (run_loop (grad_loop cfg wm) _ _) as [s1|]; [|done]. cbn [fmap option_fmap option_map mbind option_bind]. apply kick_conv.
  Qed.
  Lemma stabilize_conv s : stabilize (f s) = f <$> stabilize s.
  Proof.
    unfold stabilize. change (psize (f s)) with (psize s).
    rewrite (run_loop_map (ds_loop cfg wm) (ds_loop cfg wm') f); [|intros; reflexivity|intros ? [] ?; reflexivity].
    destruct (run_loop (ds_loop cfg wm) _ _) as [s1|]; [|done]. cbn [fmap option_fmap option_map mbind option_bind]. apply kick_conv.
  Qed.
  Lemma implicit_conv s : compute_implicit (f s) = omap_outcome f (compute_implicit s).
  Proof.
    unfold compute_implicit. destruct (cExplicit cfg).
    - change (psize (f s)) with (psize s). rewrite (run_loop_map (explicit_loop cfg wm) (explicit_loop cfg wm') f); [|intros; reflexivity|intros; reflexivity].
      rewrite omap_of_opt. apply omap_bind. intros s1. by rewrite gradient_conv, omap_of_opt.
    - rewrite set_ppe_conv, omap_of_opt.
      assert (omap_outcome f (of_opt (set_ppe s)) >>o solve_ppe = omap_outcome f (of_opt (set_ppe s) >>o solve_ppe)) as E by (apply omap_bind; intros; apply solve_conv).
      rewrite E. clear E.
      assert (forall o, omap_outcome f o >>o (fun u => of_opt (run_loop (assign_loop cfg wm') (psize u) u)) =
        omap_outcome f (o >>o (fun s => of_opt (run_loop (assign_loop cfg wm) (psize s) s)))) as E.
      { intros o. apply omap_bind. intros s1. change (psize (f s1)) with (psize s1).
        rewrite (run_loop_map (assign_loop cfg wm) (assign_loop cfg wm') f); [|intros; reflexivity|intros ? [] ?; reflexivity]. apply omap_of_opt. }
      rewrite E. apply omap_bind. intros s1. by rewrite gradient_conv, omap_of_opt.
  Qed.
End Conv.

Section ConvStep.
  Context {N : num} {cfg : config} (wm wm' : wallmotion N (cDim cfg)).
  Notation d := (cDim cfg).
  Notation part := (particle N d).
  Implicit Types s : computer cfg wm.

  Lemma move_conv t (w : wS wm') n s :
    (forall i p, cParts s !! i = Some p -> pT p <> Newton ->
       wPos wm' w i t (eDt (cEnv s)) = wPos wm (cWall s) i (eT (cEnv s)) (eDt (cEnv s))) ->
    opt_rel (fun u u' => u' = conv wm wm' t w u) (run_loop (move_loop cfg wm) n s) (run_loop (move_loop cfg wm') n (conv wm wm' t w s)).
  Proof.
    intros H.
    set (R := fun (m : nat) (u : computer cfg wm) (u' : computer cfg wm') => u' = conv wm wm' t w u /\ cEnv u = cEnv s /\ cWall u = cWall s /\
      map pT (cParts u) = map pT (cParts s)).
    assert (opt_rel (R n) (run_loop (move_loop cfg wm) n s) (run_loop (move_loop cfg wm') n (conv wm wm' t w s))) as HR.
    2:{ destruct (run_loop (move_loop cfg wm) n s), (run_loop (move_loop cfg wm') n _); try done. by destruct HR. }
    apply run_loop_sim; [|done]. intros i u u' _ (-> & E1 & E2 & E3). cbn [l_compute move_loop].
    change (cParts (conv wm wm' t w u)) with (cParts u). destruct (cParts u !! i) as [p|] eqn:Hp; [|done]. cbn [mbind option_bind].
    change (cDu (conv wm wm' t w u)) with (cDu u). change (eDt (cEnv (conv wm wm' t w u))) with (eDt (cEnv u)).
    change (eT (cEnv (conv wm wm' t w u))) with t. change (cWall (conv wm wm' t w u)) with w.
    assert (forall v, R (1 + i)%nat (l_write (move_loop cfg wm) i v u) (l_write (move_loop cfg wm') i v (conv wm wm' t w u))) as HW.
    { intros v. split; [done|]. split; [done|]. split; [done|]. cbn [l_write move_loop upd_part with_parts cParts]. rewrite <- E3.
      apply list_eq. intros j. change (@map part ptype) with (@fmap list _ part ptype). rewrite !list_lookup_fmap.
      destruct (decide (i = j)) as [<-|Hne]; [rewrite list_lookup_alter|by rewrite list_lookup_alter_ne]. by destruct (cParts u !! i). }
    destruct (is_newton (pT p)) eqn:Hn.
    - destruct (cDu u !! i) as [a|]; [|done]. cbn [mbind option_bind opt_rel]. apply HW.
    - cbn [opt_rel]. assert (exists q, cParts s !! i = Some q /\ pT q = pT p) as (q & Hq & Tq).
      { assert (map pT (cParts u) !! i = Some (pT p)) as E by (change (@map part ptype) with (@fmap list _ part ptype); by rewrite list_lookup_fmap, Hp).
        rewrite E3 in E. apply list_lookup_fmap_Some in E as (q & Hq & ->). eauto. }
      rewrite E1, E2, (H i q Hq); [apply HW|]. rewrite Tq. intros E. by rewrite E in Hn.
  Qed.
  Lemma accel_conv t (w : wS wm') n s : run_loop (accel_loop cfg wm') n (conv wm wm' t w s) = conv wm wm' t w <$> run_loop (accel_loop cfg wm) n s.
  Proof. apply run_loop_map; [intros; reflexivity|intros ? [] ?; reflexivity]. Qed.
  Lemma explicit_conv t (w : wS wm') s :
    let dt := eDt (cEnv s) in
    (forall i p, cParts s !! i = Some p -> pT p <> Newton ->
       wPos wm' (wPre wm' w t dt) i t dt = wPos wm (wPre wm (cWall s) (eT (cEnv s)) dt) i (eT (cEnv s)) dt) ->
    opt_rel (fun u u' => u' = conv wm wm' t (wPre wm' w t dt) u) (compute_explicit s) (compute_explicit (conv wm wm' t w s)).
  Proof.
    intros dt H. unfold compute_explicit. change (psize (conv wm wm' t w s)) with (psize s). rewrite accel_conv.
    destruct (run_loop (accel_loop cfg wm) (psize s) s) as [s1|] eqn:E; [|done]. cbn [fmap option_fmap option_map mbind option_bind].
    assert (cEnv s1 = cEnv s /\ cWall s1 = cWall s /\ cParts s1 = cParts s) as (E1 & E2 & E3).
    { assert (opt_rel (fun u u' : computer cfg wm => u' = u /\ cEnv u = cEnv s /\ cWall u = cWall s /\ cParts u = cParts s)
        (run_loop (accel_loop cfg wm) (psize s) s) (run_loop (accel_loop cfg wm) (psize s) s)) as HR.
      { apply run_loop_sim_eq; [intros i u u' _ (-> & _); done| |done]. intros i [a|] u u' (-> & ? & ? & ?); done. }
      rewrite E in HR. cbn in HR. tauto. }
    cbv zeta. set (s2 := with_wall s1 _).
    change (with_wall (conv wm wm' t w s1) _) with (conv wm wm' t (wPre wm' w t (eDt (cEnv s1))) s2).
    change (psize (conv wm wm' t _ s2)) with (psize s2). rewrite E1. fold dt. apply move_conv. cbn [s2 with_wall cParts cWall cEnv].
    rewrite E1, E2, E3. exact H.
  Qed.

  (** The whole step.  [dt0]: the previous time step, of no importance. *)
  Definition conv0 (t dt0 : N) (w : wS wm') s : computer cfg wm' := with_env (conv wm wm' t w s) (set_dt dt0 (set_t t (cEnv s))).
  Definition converted (t : N) s (u' : computer cfg wm') : Prop := exists w, u' = conv wm wm' t w s.
  Lemma forward_conv dt t dt0 (w : wS wm') s :
    (forall s1, search_neighbor (start_step dt s) = Done s1 -> forall i p, cParts s1 !! i = Some p -> pT p <> Newton ->
       wPos wm' (wPre wm' w (t +. dt) dt) i (t +. dt) dt = wPos wm (wPre wm (cWall s) (eT (cEnv s) +. dt) dt) i (eT (cEnv s) +. dt) dt) ->
    same_kind (converted (t +. dt)) (fun _ => converted (t +. dt)) (forward_dt dt s) (forward_dt dt (conv0 t dt0 w s)).
  Proof.
    intros H. unfold forward_dt. fold (start_step dt s) (start_step dt (conv0 t dt0 w s)). set (t1 := t +. dt) in *.
    change (start_step dt (conv0 t dt0 w s)) with (conv wm wm' t1 w (start_step dt s)). rewrite search_conv.
    set (RT := fun (_ : exn) => converted t1).
    assert (forall o : outcome (computer cfg wm), same_kind (converted t1) RT o (omap_outcome (conv wm wm' t1 w) o)) as HC.
    { intros [u|e u|]; cbn; [by exists w|split; [done|by exists w]|done]. }
    assert (forall (w : wS wm') o, same_kind (converted t1) RT o (omap_outcome (conv wm wm' t1 w) o)) as HC'.
    { intros w' [u|e u|]; cbn; [by exists w'|split; [done|by exists w']|done]. }
    eapply (same_kind_bind (converted t1)).
    2:{ intros u u' [w' ->]. destruct (cDS cfg); [|by exists w']. rewrite stabilize_conv, omap_of_opt. apply HC'. }
    eapply (same_kind_bind (converted t1)).
    2:{ intros u u' [w' ->]. rewrite implicit_conv. apply HC'. }
    eapply (same_kind_bind (converted t1)).
    2:{ intros u u' [w' ->]. destruct (cDS cfg); [|by exists w']. rewrite savex_conv, omap_of_opt. apply HC'. }
    eapply (same_kind_bind (converted t1)).
    2:{ intros u u' [w' ->]. rewrite dens_conv, omap_of_opt. apply HC'. }
    (* up to the explicit phase *)
    destruct (search_neighbor (start_step dt s)) as [s1|e s1|] eqn:E1; [|cbn; split; [done|by exists w]|done].
    specialize (H s1 eq_refl). cbn [omap_outcome obind]. rewrite dens_conv, omap_of_opt.
    assert (cEnv s1 = cEnv (start_step dt s) /\ cWall s1 = cWall s) as [EE EW].
    { destruct (search_frame (start_step dt s) s1) as [HF _]; [by rewrite E1|]. rewrite HF. done. }
    destruct (compute_densities s1) as [s2|] eqn:E2; [|done]. cbn [of_opt omap_outcome obind].
    assert ((if cECS cfg then of_opt (compute_ecs (conv wm wm' t1 w s2)) else Done (conv wm wm' t1 w s2)) =
      omap_outcome (conv wm wm' t1 w) (if cECS cfg then of_opt (compute_ecs s2) else Done s2)) as ->.
    { destruct (cECS cfg); [|done]. by rewrite ecs_conv, omap_of_opt. }
    destruct (if cECS cfg then of_opt (compute_ecs s2) else Done s2) as [s3|e3 s3|] eqn:E3; [|exfalso|done].
    2:{ destruct (cECS cfg); [|done]. by destruct (compute_ecs s2). }
    cbn [omap_outcome obind].
    assert (phase_rel s1 s3) as HP.
    { pose proof (dens_pr _ _ E2) as P2. destruct (cECS cfg).
      - destruct (compute_ecs s2) as [?|] eqn:E; [|done]. injection E3 as ->. eapply phase_rel_trans; [done|]. by apply ecs_pr.
      - injection E3 as <-. done. }
    assert (cEnv s3 = cEnv (start_step dt s)) as EE3 by (by rewrite (pr_env _ _ HP)).
    assert (cWall s3 = cWall s) as EW3.
    { transitivity (cWall s2); [|by rewrite (dens_rest _ _ E2)]. destruct (cECS cfg).
      - destruct (compute_ecs s2) as [?|] eqn:E; [|done]. injection E3 as ->. by rewrite (ecs_rest _ _ E).
      - by injection E3 as <-. }
    pose proof (explicit_conv t1 w s3) as HX. cbv zeta in HX. rewrite EE3, EW3 in HX. cbn [start_step with_env cEnv set_next_t set_dt eDt eT] in HX.
    assert (opt_rel (fun u u' => u' = conv wm wm' t1 (wPre wm' w t1 dt) u) (compute_explicit s3) (compute_explicit (conv wm wm' t1 w s3))) as HX'.
    { apply HX. intros i p Hp HT. pose proof (pr_types _ _ HP) as Ty.
      assert (exists q, cParts s1 !! i = Some q /\ pT q = pT p) as (q & Hq & Tq).
      { assert ((pT <$> cParts s3) !! i = Some (pT p)) as E by (by rewrite list_lookup_fmap, Hp).
        rewrite Ty in E. apply list_lookup_fmap_Some in E as (q & Hq & ->). eauto. }
      apply (H i q Hq). congruence. }
    destruct (compute_explicit s3) as [s4|], (compute_explicit (conv wm wm' t1 w s3)) as [s4'|]; cbn in HX' |- *; try done. eexists. exact HX'.
  Qed.
End ConvStep.

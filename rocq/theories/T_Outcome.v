(** Property theorems: how a step can end (C56). *)
From Verif Require Import S_Terms.
From Verif Require Import P_Reach P_Search P_Step S_Grid T_Grid S_Real S_Ppe T_Solve S_Outcome.

Section Outcome.
  Context {N : num} {cfg : config} {wm : wallmotion N (cDim cfg)}.
  Notation d := (cDim cfg).
  Notation part := (particle N d).
  Notation computer := (computer cfg wm).
  Implicit Types (env : environment N cfg) (s : computer).

  Lemma block_of_numbers env (g : grid N d) x b : geom_for env g ->
    block_of d g x = Some b <-> length b = dimn d /\ forall k z, b !! k = Some z -> block_number env x k = Some z.
  Proof.
    intros (g0 & Hg0 & Hl & Ho & _). destruct (new_grid_shape _ _ _ _ _ Hg0) as (Hl0 & Ho0 & _).
    unfold block_of. rewrite mapM_Some. unfold block_axis, floor_div. rewrite Hl, Hl0, Ho, Ho0. split.
    - intros HF. pose proof (Forall2_length _ _ _ HF) as HL. rewrite seq_length in HL. split; [done|].
      intros k z Hk. destruct (Forall2_lookup_r _ _ _ _ _ HF Hk) as (k' & Hk' & Hc). by apply lookup_seq in Hk' as [-> _].
    - intros [HL H]. apply Forall2_same_length_lookup. rewrite seq_length. split; [done|].
      intros k k' z Hk' Hz. apply lookup_seq in Hk' as [-> _]. by apply H.
  Qed.
  Lemma shape_along env (g : grid N d) k n : geom_for env g -> g_shape d g !! k = Some n -> blocks_along env k = Some n.
  Proof.
    intros (g0 & Hg0 & _ & _ & Hs & _) H. rewrite Hs in H. destruct (new_grid_shape _ _ _ _ _ Hg0) as (_ & _ & Hs0 & _).
    apply Hs0 in H as (_ & c & Hc & ->). unfold blocks_along. by rewrite Hc.
  Qed.
  Lemma range_along env (g : grid N d) b : geom_for env g -> grid_wf g -> length b = dimn d ->
    in_range (g_shape d g) b = true <-> forall k z n, b !! k = Some z -> blocks_along env k = Some n -> (0 <= z < n)%Z.
  Proof.
    intros Hg Hwf HL. rewrite <- inside_range by done. unfold inside. rewrite Forall2_lookup. pose proof (gw_dim g Hwf) as HD. split.
    - intros H k z n Hk Hn. specialize (H k). rewrite Hk in H. inversion H as [z' n' Hr E1 E2|]. subst.
      rewrite (shape_along env g k n' Hg) in Hn by done. injection Hn as <-. done.
    - intros H k. destruct (b !! k) as [z|] eqn:Hk.
      + apply lookup_lt_Some in Hk as Hlt. destruct (lookup_lt_is_Some_2 (g_shape d g) k ltac:(lia)) as [n Hn].
        rewrite Hn. constructor. apply (H k z n Hk). by apply (shape_along env g).
      + apply lookup_ge_None in Hk. rewrite (proj2 (lookup_ge_None (g_shape d g) k)) by lia. constructor.
  Qed.
  Lemma cap_capacity env (g : grid N d) : geom_for env g -> exists c, capacity env = Some c /\ (0 <= c)%Z /\ g_cap d g = Z.to_nat c.
  Proof.
    intros (g0 & Hg0 & _ & _ & _ & Hc). destruct (new_grid_shape _ _ _ _ _ Hg0) as (_ & _ & _ & m & Hm & Hc0).
    eexists. unfold capacity. rewrite Hm. split; [done|]. split; [|by rewrite Hc].
    unfold new_grid in Hg0. destruct (mapM _ _); [|done]. cbn [mbind option_bind] in Hg0. unfold ceil_div in Hg0. rewrite Hm in Hg0.
    cbn [mbind option_bind] in Hg0. destruct (forallb _ _); [|done]. by destruct (Z.leb_spec 0 ((m + 1) ^ Z.of_nat (dimn d))).
  Qed.

  Lemma overfull_count env0 s b js : inv env0 s -> overfull env0 s b js ->
    (g_cap d (cGrid s) < length (bfilter (fun j => home (cGrid s) (cParts s) j b) (seq 0 (psize s))))%nat.
  Proof.
    intros Hinv (HL & Hr & Hnd & Hjs & c & Hc & Hlt). destruct (cap_capacity env0 (cGrid s) (inv_geom _ _ Hinv)) as (c' & Hc' & H0 & Hcap).
    simplify_eq. rewrite Hcap.
    assert (length js <= length (bfilter (fun j => home (cGrid s) (cParts s) j b) (seq 0 (psize s))))%nat; [|lia].
    apply submseteq_length, NoDup_submseteq; [done|]. intros j Hj. destruct (Hjs j Hj) as (p & Hp & He & Hb).
    apply elem_of_bfilter. split; [|apply elem_of_seq; apply lookup_lt_Some in Hp; unfold psize; lia].
    apply home_Some. exists p. split; [done|]. split; [by apply is_disabled_false|].
    split; [by apply (block_of_numbers env0 _ _ _ (inv_geom _ _ Hinv))|]. apply (range_along env0); try done; [apply Hinv|]. apply Hinv.
  Qed.
  Lemma count_overfull env0 s b : inv env0 s ->
    (g_cap d (cGrid s) < length (bfilter (fun j => home (cGrid s) (cParts s) j b) (seq 0 (psize s))))%nat -> crowded env0 s.
  Proof.
    intros Hinv Hlt. exists b, (bfilter (fun j => home (cGrid s) (cParts s) j b) (seq 0 (psize s))). pose proof (inv_geom _ _ Hinv) as Hg.
    assert (forall j, j ∈ bfilter (fun j => home (cGrid s) (cParts s) j b) (seq 0 (psize s)) ->
      exists p, cParts s !! j = Some p /\ enabled p /\ block_of d (cGrid s) (pX p) = Some b /\ in_range (g_shape d (cGrid s)) b = true) as HJ.
    { intros j Hj. apply elem_of_bfilter in Hj as [Hj _]. apply home_Some in Hj as (p & Hp & Hd & Hb & Hr).
      exists p. split; [done|]. split; [by apply is_disabled_false|done]. }
    assert (exists j, j ∈ bfilter (fun j => home (cGrid s) (cParts s) j b) (seq 0 (psize s))) as [j Hj].
    { destruct (bfilter _ _) as [|j l]; [simpl in Hlt; lia|]. exists j. left. }
    destruct (HJ j Hj) as (p & Hp & _ & Hb & Hr). apply (block_of_numbers env0 _ _ _ Hg) in Hb as [HL Hb].
    split; [done|]. split; [apply (range_along env0 (cGrid s)); try done; apply Hinv|].
    split; [unfold bfilter; apply list.NoDup_filter, NoDup_seq|]. split.
    - intros j' Hj'. destruct (HJ j' Hj') as (p' & Hp' & He' & Hb' & _). exists p'. split; [done|]. split; [done|].
      by apply (block_of_numbers env0 _ _ _ Hg) in Hb' as [_ Hb'].
    - destruct (cap_capacity env0 (cGrid s) Hg) as (c & Hc & H0 & Hcap). exists c. split; [done|]. lia.
  Qed.

  (** The search: it succeeds unless some block would get more particles than it can take. *)
  Lemma search_outcome_inv env0 dt s :
    square_ground env0 -> inv env0 s -> locatable env0 s ->
    (crowded env0 s /\ exists s1, search_neighbor (start_step dt s) = Throw TooManyParticles s1) \/
    (~ crowded env0 s /\ exists s1, search_neighbor (start_step dt s) = Done s1).
  Proof.
    intros Hsq Hinv Hloc. destruct (inv_ok _ _ Hsq Hinv) as [Hwf Hok].
    pose proof (search_spec (start_step dt s) (wf_start dt s Hwf) Hok) as HS.
    destruct (search_neighbor (start_step dt s)) as [s1|e s1|] eqn:E.
    - right. split; [|eauto]. intros (b & js & Ho). apply (overfull_count env0 s b js Hinv) in Ho.
      change (cGrid s) with (cGrid (start_step dt s)) in Ho. change (cParts s) with (cParts (start_step dt s)) in Ho.
      change (psize s) with (psize (start_step dt s)) in Ho. rewrite <- (se_contents _ _ HS b) in Ho.
      destruct (se_geom _ _ HS) as (_ & _ & _ & Hcap). rewrite <- Hcap in Ho. unfold contents in Ho.
      destruct (g_data d (cGrid s1) !! b) as [c|] eqn:Ec; [|simpl in Ho; lia].
      pose proof (se_counts _ _ HS b c Ec). rewrite take_length in Ho. lia.
    - left. destruct HS as (-> & _ & _ & m & k & Hm & Hc & _). split; [|eauto]. by apply (count_overfull env0 s k Hinv).
    - exfalso. destruct HS as [(i & p & Hp & Hd & Hb) _]. simpl in Hp, Hb.
      assert (Exists (fun k => block_axis d (cGrid s) (pX p) k = None) (seq 0 (dimn d))) as HX by (by apply mapM_None).
      apply Exists_exists in HX as (k & Hk & HX). apply elem_of_list_In, elem_of_seq in Hk.
      destruct (Hloc i p k Hp ltac:(by apply is_disabled_false) ltac:(lia)) as (z & Hz).
      destruct (inv_geom _ _ Hinv) as (g0 & Hg0 & (Hl & Ho & _)). destruct (new_grid_shape _ _ _ _ _ Hg0) as (Hl0 & Ho0 & _).
      unfold block_axis, floor_div in HX. rewrite Ho, Ho0, Hl, Hl0 in HX. unfold block_number in Hz. congruence.
  Qed.

  Lemma search_outcome env0 dt s :
    square_ground env0 -> reachable env0 s -> locatable env0 s ->
    (crowded env0 s /\ exists s1, search_neighbor (start_step dt s) = Throw TooManyParticles s1) \/
    (~ crowded env0 s /\ exists s1, search_neighbor (start_step dt s) = Done s1).
  Proof. intros Hsq Hr. by apply search_outcome_inv, reachable_inv. Qed.

  Lemma implicit_Throw s e t : compute_implicit s = Throw e t ->
    e = CgNotConverged /\ cExplicit cfg = false /\ exists t', set_ppe s = Some t' /\ solve_ppe t' = Throw CgNotConverged t.
  Proof.
    unfold compute_implicit. intros H. destruct (cExplicit cfg).
    { exfalso. revert H. destruct (run_loop _ _ _) as [u|]; simpl; [|done]. by destruct (modify_by_gradient u). }
    destruct (set_ppe s) as [t'|]; simpl in H; [|done]. destruct (solve_ppe t') as [u|e' u|] eqn:E; simpl in H; [| |done].
    - exfalso. revert H. destruct (run_loop _ _ _) as [v|]; simpl; [|done]. by destruct (modify_by_gradient v).
    - injection H as <- <-. assert (e' = CgNotConverged) as -> by (unfold solve_ppe in E; destruct (_.2); congruence).
      split; [done|]. split; [done|]. by exists t'.
  Qed.
  (** After a successful search everything up to the implicit phase succeeds; that phase may report a failing solver, in builds
      that have one; and what follows succeeds again. *)
  Lemma after_search env0 dt s s1 :
    square_ground env0 -> reachable env0 s -> search_neighbor (start_step dt s) = Done s1 ->
    exists s2 s3 s4 s5 s6, step_prefix dt s s1 s2 s3 s4 s5 s6 /\
      match compute_implicit s6 with
      | Done s7 => exists s', forward_dt dt s = Done s'
      | Throw e s7 => e = CgNotConverged /\ forward_dt dt s = Throw CgNotConverged s7 /\ cExplicit cfg = false
      | Undef => False
      end.
  Proof.
    intros Hsq Hr E. pose proof (reachable_inv env0 s Hsq Hr) as Hinv. destruct (inv_ok _ _ Hsq Hinv) as [Hwf Hok].
    pose proof (search_spec (start_step dt s) (wf_start dt s Hwf) Hok) as Hs. rewrite E in Hs.
    unfold forward_dt. fold (start_step dt s). rewrite E. simpl.
    assert (P_Search.wf s1) as Hwf1 by (eapply wf_searched; [by apply wf_start|done]).
    destruct (dens_defined s1 Hwf1) as [s2 H2]. rewrite H2. simpl.
    assert (P_Search.wf s2) as Hwf2 by (eapply wf_phase; [by apply dens_pr|done]).
    assert (exists s3, (if cECS cfg then of_opt (compute_ecs s2) else Done s2) = Done s3 /\ P_Search.wf s3 /\
      (if cECS cfg then compute_ecs s2 = Some s3 else s3 = s2)) as (s3 & -> & Hwf3 & H3).
    { destruct (cECS cfg); [|eauto]. destruct (ecs_defined s2 Hwf2) as [s3 H3]. rewrite H3. exists s3. split; [done|].
      split; [|done]. eapply wf_phase; [by apply ecs_pr|done]. }
    simpl. destruct (explicit_defined s3 Hwf3) as [s4 H4]. rewrite H4. simpl.
    assert (P_Search.wf s4) as Hwf4 by (eapply wf_phase; [by apply explicit_pr|done]).
    destruct (dens_defined s4 Hwf4) as [s5 H5]. rewrite H5. simpl.
    assert (P_Search.wf s5) as Hwf5 by (eapply wf_phase; [by apply dens_pr|done]).
    assert (exists s6, (if cDS cfg then of_opt (save_x s5) else Done s5) = Done s6 /\ P_Search.wf s6 /\
      (if cDS cfg then save_x s5 = Some s6 else s6 = s5)) as (s6 & -> & Hwf6 & H6).
    { destruct (cDS cfg); [|eauto]. destruct (savex_defined s5 Hwf5) as [s6 H6]. rewrite H6. exists s6. split; [done|].
      split; [|done]. eapply wf_phase; [by apply savex_pr|done]. }
    exists s2, s3, s4, s5, s6. split; [by split|].
    simpl. pose proof (implicit_defined s6 Hwf6) as Himp.
    destruct (compute_implicit s6) as [s7|e s7|] eqn:E7; simpl; [| |done].
    - assert (P_Search.wf s7) as Hwf7 by (eapply wf_phase; [apply implicit_pr; by rewrite E7|done]).
      destruct (cDS cfg); [|eauto]. destruct (stabilize_defined s7 Hwf7) as [s8 ->]. simpl. eauto.
    - destruct (implicit_Throw _ _ _ E7) as (-> & Hx & _). done.
  Qed.

  (** C56.  ForwardTime(dt) raises the grid exception iff a block of the grid would get more particles than it can take;
      it is decided by the search, before any particle has moved. *)
  Theorem C56_overflow_iff env0 dt s :
    square_ground env0 -> reachable env0 s -> locatable env0 s ->
    (exists s', forward_dt dt s = Throw TooManyParticles s') <-> crowded env0 s.
  Proof.
    intros Hsq Hr Hloc. destruct (search_outcome env0 dt s Hsq Hr Hloc) as [[Hc [s1 E]]|[Hc [s1 E]]].
    - split; [done|]. intros _. exists s1. unfold forward_dt. fold (start_step dt s). by rewrite E.
    - split; [|done]. intros [s' H]. exfalso.
      destruct (after_search env0 dt s s1 Hsq Hr E) as (s2 & s3 & s4 & s5 & s6 & _ & HI).
      destruct (compute_implicit s6) as [s7|e s7|]; [| |done].
      + destruct HI as [u Hu]. congruence.
      + destruct HI as (_ & Hu & _). congruence.
  Qed.

  (** C56.  Otherwise it completes, or - only in builds that solve for the pressure - reports that the solver failed. *)
  Theorem C56_otherwise env0 dt s :
    square_ground env0 -> reachable env0 s -> locatable env0 s -> ~ crowded env0 s ->
    (exists s', forward_dt dt s = Done s') \/
    (cExplicit cfg = false /\ exists s', forward_dt dt s = Throw CgNotConverged s').
  Proof.
    intros Hsq Hr Hloc Hc. destruct (search_outcome env0 dt s Hsq Hr Hloc) as [[? _]|[_ [s1 E]]]; [done|].
    destruct (after_search env0 dt s s1 Hsq Hr E) as (s2 & s3 & s4 & s5 & s6 & _ & HI).
    destruct (compute_implicit s6) as [s7|e s7|]; [by left|right|done]. destruct HI as (_ & ? & ?). eauto.
  Qed.
End Outcome.

(** C56 in exact arithmetic: the solver does not fail either if the situation it is called in is a regular one - the lists
    still serve, no two particles at the same place, every unknown connected with the free surface. *)
Open Scope R_scope.
Theorem C56_completes cfg (wm : wallmotion Rnum (cDim cfg)) env0 (dt : R) (s : computer cfg wm) :
  square_ground env0 -> reachable env0 s -> locatable env0 s -> ~ crowded env0 s -> positive_constants env0 ->
  (forall s1 s2 s3 s4 s5 s6, step_prefix (dt : Rnum) s s1 s2 s3 s4 s5 s6 ->
     midstep s6 /\ apart s6 /\
     forall i p, cParts s6 !! i = Some p -> unknown (cEnv s6) p -> surface_connected s6 i) ->
  exists s', forward_dt (dt : Rnum) s = Done s'.
Proof.
  intros Hsq Hr Hloc Hc HP H.
  destruct (search_outcome env0 (dt : Rnum) s Hsq Hr Hloc) as [[? _]|[_ [s1 E]]]; [done|].
  destruct (after_search env0 (dt : Rnum) s s1 Hsq Hr E) as (s2 & s3 & s4 & s5 & s6 & HX & HI).
  destruct (compute_implicit s6) as [s7|e s7|] eqn:E7; [done| |done].
  destruct HI as (-> & _ & Hx). exfalso. destruct (H _ _ _ _ _ _ HX) as (Hm & Hap & Hsc).
  destruct (implicit_Throw _ _ _ E7) as (_ & _ & t & Ht & Hf).
  assert (positive_constants (cEnv s6)) as HP6.
  { pose proof (reachable_inv env0 s Hsq Hr) as Hinv. assert (cEnv s6 = cEnv (start_step (dt : Rnum) s)) as ->; [|].
    { destruct (inv_ok _ _ Hsq Hinv) as [Hwf Hok].
      pose proof (search_spec _ (wf_start (dt : Rnum) s Hwf) Hok) as Hs. rewrite E in Hs.
      destruct HX as [_ H2 H3 H4 H5 H6].
      assert (cEnv s6 = cEnv s1) as ->; [|by rewrite (se_rest _ _ Hs)].
      transitivity (cEnv s5). { destruct (cDS cfg); [by apply (pr_env _ _ (savex_pr _ _ H6))|by subst]. }
      rewrite (pr_env _ _ (dens_pr _ _ H5)), (pr_env _ _ (explicit_pr _ _ H4)).
      transitivity (cEnv s2). { destruct (cECS cfg); [by apply (pr_env _ _ (ecs_pr _ _ H3))|by subst]. }
      by apply (pr_env _ _ (dens_pr _ _ H2)). }
    destruct HP as [HP1 HP2]. pose proof (inv_env _ _ Hinv) as Hc'. unfold same_constants in Hc'.
    unfold positive_constants. cbn. rewrite Hc'. cbn. done. }
  destruct (C33_pressure s6 t Hm Hap HP6 Ht Hsc) as [t' Ht']. congruence.
Qed.

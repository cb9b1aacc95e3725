(** Examples in exact arithmetic, two-dimensional, any build: a handful of particles at whole-number positions is handed to a
    new computer, the search runs and the densities are computed.  The state after that meets the hypotheses of the theorems
    about single phases. *)
From Verif Require Import P_Neigh P_Force P_Phase P_Step P_Point P_Search T_Search T_Env T_Density T_Force T_Outcome S_Outcome S_Lattice M_Main E_Real.
Open Scope R_scope.

Notation plane x hs hl ecs gc ds spp mid cen := (mkConfig D2 x hs hl ecs gc ds spp mid cen).

Section Scene.
  Context (x hs hl ecs gc ds spp mid cen : bool).
  Notation cfg := (plane x hs hl ecs gc ds spp mid cen).
  Notation V := (vec Rnum (cDim cfg)).
  Notation part := (particle Rnum (cDim cfg)).

  (** l_0 = 1, R_e = 6/5, Courant number 1/10, g = 10, all other constants 1, domain 10 x 10. *)
  Definition scene_env : option (environment Rnum cfg) :=
    new_env (N := Rnum) cfg (1/100) (1/10) 10 1 1 (9/10) (6/5) 1 1 ((0, 0) : V) ((10, 10) : V).
  Record scene_facts (e : environment Rnum cfg) : Prop := {
    sf_re : eRe e = 6/5; sf_nl : eNL e = 36/25; sf_l0 : eL0 e = 1; sf_n0 : eN0 e = 4/5; sf_g : eG e = ((0, -10) : V);
    sf_min : eMinX e = ((0, 0) : V); sf_max : eMaxX e = ((10, 10) : V);
    sf_dx : eMaxDx e = 1/10; sf_dt : 0 < eMaxDt e; sf_rho : eRho e = 1; sf_c : eC e = 1; sf_nu : eNu e = 1 }.
  Lemma scene_env_facts : exists e, scene_env = Some e /\ scene_facts e.
  Proof.
    destruct (C13_constructor_defined (cfg := cfg) (1/100) (1/10) 10 1 1 (9/10) (6/5) 1 1
      ((0, 0) : V) ((10, 10) : V) ltac:(lra)) as [e He].
    exists e. split; [exact He|].
    assert (eN0 e = 4/5) as HN.
    { destruct (C13_reference_density _ _ _ _ _ _ _ _ _ _ _ _ _ He ltac:(lra) unit_lattice) as [_ ->].
      assert (forall a b : Z, (a * a + b * b = 1)%Z -> znorm [a; b] = 1) as HZ.
      { intros a b H. unfold znorm. cbn [map rsum foldr]. rewrite Rplus_0_r, <- !mult_IZR, <- plus_IZR, H. apply sqrt_1. }
      cbn [map rsum foldr]. rewrite !HZ by done. rewrite wt_one. lra. }
    pose proof (C15_limits _ _ _ _ _ _ _ _ _ _ _ _ He) as (_ & _ & HD & _).
    unfold new_env in He. destruct (nceil _); [|done]. destruct (_ || _)%bool; [done|]. injection He as <-.
    split; cbn -[nmin]; try lra; try done.
    cbn -[nmin] in HD. destruct HD as [HD|HD]; rewrite HD; [lra|]. destruct x; [lra|]. apply sqrt_lt_R0. lra.
  Qed.

  Definition at_whole (a b : Z) (u : V) (pr : R) (t : ptype) : part := mkParticle ((IZR a, IZR b) : V) u pr 0 t.
  (** All well inside, and few enough for a block. *)
  Definition fits (ps : list part) : Prop :=
    (length ps <= 9)%nat /\ forall p, p ∈ ps -> enabled p /\ forall k, (k < 2)%nat -> 0 <= coord (pX p) k <= 10.

  Section Run.
    Context (ps : list part) (Hfit : fits ps).
    Notation wm := (fixed_walls (N := Rnum) cfg (map pX ps)).
    Notation computer := (computer cfg wm).
    Context (e : environment Rnum cfg) (He : scene_facts e).

    Lemma scene_new eps : exists s0 : computer, new_computer cfg wm eps e tt = Some s0.
    Proof.
      assert (forall k, (k < 2)%nat -> ceil_div (tget D2 (eMaxX e) k -. tget D2 (eMinX e) k) (eNL e) = Some 7%Z) as H1.
      { intros k Hk. unfold ceil_div. rewrite (sf_nl e He), (sf_min e He), (sf_max e He).
        apply ceil_R; [|done]. destruct k as [|[|k]]; [| |lia].
        - change (7 - 1 < (10 - 0) / (36/25) <= 7). lra.
        - change (7 - 1 < (10 - 0) / (36/25) <= 7). lra. }
      assert (ceil_div (eNL e) (eL0 e) = Some 2%Z) as H2.
      { unfold ceil_div. rewrite (sf_nl e He), (sf_l0 e He). apply ceil_R; [|done]. change (2 - 1 < 36/25 / 1 <= 2). lra. }
      unfold new_computer, new_grid. change (cDim cfg) with D2. cbn [dimn seq mapM].
      rewrite (H1 0%nat), (H1 1%nat), H2 by lia. cbn [mret option_ret mbind option_bind fmap option_fmap option_map].
      eexists. reflexivity.
    Qed.

    Context (eps : Rnum) (s0 : computer) (Hs0 : new_computer cfg wm eps e tt = Some s0).
    Definition scene_state : computer := add_particles ps s0.
    Lemma scene_parts : cParts scene_state = ps.
    Proof.
      assert (cParts s0 = []) as H0. { pose proof Hs0 as H. unfold new_computer in H. destruct (new_grid _ _ _ _ _); [|done]. by injection H as <-. }
      unfold scene_state, add_particles. cbn [cParts]. by rewrite H0.
    Qed.
    Lemma scene_square : square_ground e.
    Proof. by left. Qed.
    Lemma scene_reachable : reachable e scene_state.
    Proof. apply (reach_done e (AddParticles cfg ps) s0); [by eapply reach_new|done]. Qed.
    Lemma scene_locatable : locatable e scene_state.
    Proof.
      intros i p k Hp _ Hk. rewrite scene_parts in Hp. unfold block_number. rewrite (sf_nl e He), (sf_min e He). cbn in Hk.
      destruct Hfit as [_ Hf]. destruct (Hf p (elem_of_list_lookup_2 _ _ _ Hp)) as [_ Hb].
      pose proof (Hb k ltac:(lia)) as Hk'. apply floor_defined. destruct k as [|[|k]]; try lia; cbn in *; apply Rabs_def1; lra.
    Qed.
    Lemma scene_not_crowded : ~ crowded e scene_state.
    Proof.
      intros (b & js & _ & _ & Hnd & Hjs & c & Hc & Hlt).
      assert (capacity e = Some 9%Z) as HC.
      { unfold capacity. rewrite (sf_nl e He), (sf_l0 e He). assert (nceil ((36/25 : Rnum) /. (1 : Rnum)) = Some 2%Z) as E.
        { apply ceil_R; [|done]. change (2 - 1 < 36/25 / 1 <= 2). lra. }
        by rewrite E. }
      rewrite HC in Hc. injection Hc as <-.
      assert (length js <= length (seq 0 (length ps)))%nat; [|rewrite seq_length in *; destruct Hfit; lia].
      apply submseteq_length, NoDup_submseteq; [done|]. intros j Hj. destruct (Hjs j Hj) as (p & Hp & _).
      apply elem_of_seq. rewrite scene_parts in Hp. apply lookup_lt_Some in Hp. lia.
    Qed.

    Context (dt : R).
    Lemma scene_searched s1 : search_neighbor (start_step (dt : Rnum) scene_state) = Done s1 -> cParts s1 = ps.
    Proof.
      intros E. assert (0 < eNL e) as HNL by (rewrite (sf_nl e He); lra).
      pose proof (search_searched e (dt : Rnum) scene_state s1 scene_square scene_reachable E) as S1.
      assert (length (cParts s1) = length ps) as HL.
      { rewrite (se_parts _ _ S1), fmap_length. cbn [start_step with_env cParts]. by rewrite scene_parts. }
      apply (list_eq_same_length _ _ (length ps)); [done|done|]. intros i p q Hi Hp1 Hq.
      assert (cParts s1 !! i = Some q) as H1; [|congruence].
      destruct Hfit as [_ Hf]. destruct (Hf q (elem_of_list_lookup_2 _ _ _ Hq)) as [Hen Hb].
      apply (C07_upper_margin e (dt : Rnum) scene_state s1 i q scene_square HNL scene_reachable E); [by rewrite scene_parts|done|].
      intros k Hk. rewrite (sf_min e He), (sf_max e He), (sf_nl e He). pose proof (Hb k Hk).
      destruct k as [|[|k]]; [| |cbn in Hk; lia]; cbn in *; lra.
    Qed.

    (** What is known in the state [s2] after the search and the density phase, and in the state [s1] between them. *)
    Record set_up (s1 s2 : computer) : Prop := {
      su_search : search_neighbor (start_step (dt : Rnum) scene_state) = Done s1;
      su_dens : compute_densities s1 = Some s2;
      su_parts : cParts s1 = ps;
      su_mid1 : midstep s1; su_mid2 : midstep s2;
      su_wf : P_Search.wf s2;
      su_env1 : cEnv s1 = set_next_t (set_dt (dt : Rnum) e); su_env2 : cEnv s2 = cEnv s1;
      su_size : psize s2 = length ps;
      su_eps : cEps s2 = eps;
      su_at : forall i p, ps !! i = Some p -> exists n, cParts s2 !! i = Some (set_N n p) /\
                (fluid_or_wall p -> cNws s2 !! i = Some (raw_density s1 i p : Rnum) /\
                   n = if spp then Rmax (4/5) (raw_density s1 i p) else raw_density s1 i p) }.
    Lemma scene : exists s1 s2, set_up s1 s2.
    Proof.
      destruct (search_outcome e (dt : Rnum) scene_state scene_square scene_reachable scene_locatable) as [[Hc _]|[_ [s1 E1]]].
      { by destruct scene_not_crowded. }
      assert (0 < eNL e) as HNL by (rewrite (sf_nl e He); lra). assert (0 < eRe e) as HRe by (rewrite (sf_re e He); lra).
      pose proof (search_searched e (dt : Rnum) scene_state s1 scene_square scene_reachable E1) as S1.
      assert (P_Search.wf s1) as W1.
      { eapply wf_searched; [|exact S1]. apply wf_start. destruct (reachable_inv e _ scene_square scene_reachable). done. }
      destruct (dens_defined s1 W1) as [s2 E2]. pose proof (dens_pr _ _ E2) as P2. pose proof (scene_searched s1 E1) as H1.
      assert (cEnv s1 = set_next_t (set_dt (dt : Rnum) e)) as HE1.
      { rewrite (se_rest _ _ S1). change (set_next_t (set_dt (dt : Rnum) (cEnv s0)) = set_next_t (set_dt (dt : Rnum) e)).
        pose proof Hs0 as H. unfold new_computer in H. destruct (new_grid _ _ _ _ _); [|done]. by injection H as <-. }
      assert (forall i p, ps !! i = Some p -> exists n, cParts s2 !! i = Some (set_N n p)) as HA0.
      { intros i p Hp. rewrite <- H1 in Hp. destruct (dens_keep _ _ _ _ E2 Hp) as (n & Hn & _). eauto. }
      assert (midstep s1) as M1.
      { apply (phase_midstep e (dt : Rnum) scene_state s1 s1 scene_square HNL HRe scene_reachable E1 (phase_rel_refl _)).
        intros i p p' Hp Hp' _. rewrite scene_parts in Hp. rewrite H1 in Hp'. replace p' with p by congruence. rewrite (proj2 (edist_zero _ _) eq_refl).
        rewrite (sf_nl e He), (sf_re e He). lra. }
      assert (midstep s2) as M2.
      { apply (phase_midstep e (dt : Rnum) scene_state s1 s2 scene_square HNL HRe scene_reachable E1 P2).
        intros i p p' Hp Hp' _. rewrite scene_parts in Hp. destruct (HA0 i p Hp) as [n Hn]. rewrite Hn in Hp'. injection Hp' as <-.
        cbn [set_N pX]. rewrite (proj2 (edist_zero _ _) eq_refl). rewrite (sf_nl e He), (sf_re e He). lra. }
      exists s1, s2. split; try done.
      - by apply (wf_phase s1).
      - by rewrite (pr_env _ _ P2).
      - rewrite (pr_size _ _ P2). unfold psize. by rewrite H1.
      - rewrite (pr_eps _ _ P2), (se_rest _ _ S1). change (cEps s0 = eps). pose proof Hs0 as H. unfold new_computer in H. destruct (new_grid _ _ _ _ _); [|done]. by injection H as <-.
      - intros i p Hp. destruct (HA0 i p Hp) as [n Hn]. exists n. split; [done|]. intros Hact. rewrite <- H1 in Hp.
        destruct (dens_active s1 s2 i p M1 E2 Hp Hact) as [HX HY]. split; [exact HY|]. rewrite HX in Hn. injection Hn as Hn.
        symmetry. etransitivity; [|exact Hn]. assert (eN0 (cEnv s1) = 4/5) as HN0 by (rewrite HE1; exact (sf_n0 e He)).
        exact (f_equal (fun a : R => if spp then Rmax a (raw_density s1 i p) else raw_density s1 i p) (eq_sym HN0)).
    Qed.
  End Run.
End Scene.

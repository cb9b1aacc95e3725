(** Example for C62: a single drop with a leftover pressure falls for a step. *)
From Verif Require Import P_Ppe P_Neigh P_Force T_Search T_Env T_Density T_Force T_Solve T_Outcome S_Outcome S_Scheme T_Scheme S_Alone T_Alone M_Main E_Real.
Open Scope R_scope.

Definition lone_drop : rpart := mkParticle (N := Rnum) (d := cDim rcfg) ((3, 3) : rvec) (vzero : rvec) 7 0 Newton.
Definition lone : list rpart := [lone_drop].
Definition lwall := fixed_walls (N := Rnum) rcfg (map pX lone).
Notation lcomputer := (computer rcfg lwall).

Lemma lone_new e (He : ex_facts e) eps : exists s0, new_computer rcfg lwall eps e tt = Some s0.
Proof.
  assert (forall k, (k < 2)%nat -> ceil_div (tget D2 (eMaxX e) k -. tget D2 (eMinX e) k) (eNL e) = Some 7%Z) as H1.
  { intros k Hk. unfold ceil_div. rewrite (ef_nl e He), (ef_min e He), (ef_max e He).
    apply ceil_R; [|done]. destruct k as [|[|k]]; [| |lia].
    - change (7 - 1 < (10 - 0) / (36/25) <= 7). lra.
    - change (7 - 1 < (10 - 0) / (36/25) <= 7). lra. }
  assert (ceil_div (eNL e) (eL0 e) = Some 2%Z) as H2.
  { unfold ceil_div. rewrite (ef_nl e He), (ef_l0 e He). apply ceil_R; [|done]. change (2 - 1 < 36/25 / 1 <= 2). lra. }
  unfold new_computer, new_grid. change (cDim rcfg) with D2. cbn [dimn seq mapM].
  rewrite (H1 0%nat), (H1 1%nat), H2 by lia. cbn [mret option_ret mbind option_bind fmap option_fmap option_map].
  eexists. reflexivity.
Qed.

Section Lone.
  Context (e : environment Rnum rcfg) (He : ex_facts e) (HR : eRho e = 1 /\ eSurf e = 9/10) (eps : Rnum) (s0 : lcomputer)
    (Hs0 : new_computer rcfg lwall eps e tt = Some s0).
  Definition lone_state : lcomputer := add_particles lone s0.
  Lemma lone_parts : cParts lone_state = lone.
  Proof.
    assert (cParts s0 = []) as H0. { pose proof Hs0 as H. unfold new_computer in H. destruct (new_grid _ _ _ _ _); [|done]. by injection H as <-. }
    unfold lone_state, add_particles. cbn [cParts]. by rewrite H0.
  Qed.
  Lemma lone_reachable : reachable e lone_state.
  Proof. apply (reach_done e (AddParticles rcfg lone) s0); [by eapply reach_new|done]. Qed.
  Lemma lone_part i p : cParts lone_state !! i = Some p -> i = 0%nat /\ p = lone_drop.
  Proof. rewrite lone_parts. destruct i as [|i]; cbn; intros [= <-]; auto. Qed.
  Lemma lone_locatable : locatable e lone_state.
  Proof.
    intros i p k Hp _ Hk. unfold block_number. rewrite (ef_nl e He), (ef_min e He). change (cDim rcfg) with D2 in *. cbn in Hk.
    apply floor_defined. destruct (lone_part i p Hp) as [-> ->]; destruct k as [|[|k]]; try lia; cbn; apply Rabs_def1; lra.
  Qed.
  Lemma lone_not_crowded : ~ crowded e lone_state.
  Proof.
    intros (b & js & _ & _ & Hnd & Hjs & c & Hc & Hlt).
    assert (capacity e = Some 9%Z) as HC.
    { unfold capacity. rewrite (ef_nl e He), (ef_l0 e He). assert (nceil ((36/25 : Rnum) /. (1 : Rnum)) = Some 2%Z) as E.
      { apply ceil_R; [|done]. change (2 - 1 < 36/25 / 1 <= 2). lra. }
      by rewrite E. }
    rewrite HC in Hc. injection Hc as <-.
    assert (length js <= length [0])%nat; [|simpl in *; lia].
    apply submseteq_length, NoDup_submseteq; [done|]. intros j Hj. destruct (Hjs j Hj) as (p & Hp & _).
    rewrite !elem_of_cons. destruct (lone_part j p Hp) as [-> _]; auto.
  Qed.
  Lemma lone_sensible : sensible_constants e.
  Proof. destruct HR as [H1 H2]. split; [rewrite (ef_nl e He); lra|]. split; [rewrite (ef_n0 e He); lra|]. rewrite H1, H2. lra. Qed.
  Lemma lone_nobody p : nobody_near (eNL e) lone_state 0 (pX p).
  Proof. intros j q Hj Hq _. by destruct (lone_part j q Hq) as [-> _]. Qed.

  Lemma lone_here : cParts lone_state !! 0%nat = Some lone_drop.
  Proof. by rewrite lone_parts. Qed.
  Lemma lone_searched s1 : search_neighbor (start_step (ex_dt : Rnum) lone_state) = Done s1 -> cParts s1 = lone.
  Proof.
    intros E. assert (square_ground e) as Hsq by (by left). assert (0 < eNL e) as HNL by (rewrite (ef_nl e He); lra).
    assert (cParts s1 !! 0%nat = Some lone_drop) as H1.
    { apply (C07_upper_margin e (ex_dt : Rnum) lone_state s1 0 lone_drop Hsq HNL lone_reachable E lone_here); [done|].
      intros k Hk. rewrite (ef_min e He), (ef_max e He), (ef_nl e He). destruct k as [|[|k]]; [| |cbn in Hk; lia]; cbn; lra. }
    pose proof (search_searched e (ex_dt : Rnum) lone_state s1 Hsq lone_reachable E) as S1.
    assert (length (cParts s1) = 1%nat) as HL. { rewrite (se_parts _ _ S1), fmap_length. cbn [start_step with_env cParts]. by rewrite lone_parts. }
    destruct (cParts s1) as [|q [|]]; try done. unfold lone. f_equal. injection H1 as ->. done.
  Qed.
  Lemma lone_completes : exists s', forward_dt (ex_dt : Rnum) lone_state = Done s'.
  Proof.
    assert (square_ground e) as Hsq by (by left).
    destruct (search_outcome e (ex_dt : Rnum) lone_state Hsq lone_reachable lone_locatable) as [[Hc _]|[_ [s1 E]]]; [by destruct lone_not_crowded|].
    destruct (after_search e (ex_dt : Rnum) lone_state s1 Hsq lone_reachable E) as (s2 & s3 & s4 & s5 & s6 & HX & HI).
    destruct (compute_implicit s6) as [s7|x s7|] eqn:E7; [done| |done]. destruct HI as (-> & _ & _). exfalso.
    destruct (implicit_Throw _ _ _ E7) as (_ & _ & t & Ht & Hf).
    assert (cParts s1 !! 0%nat = Some lone_drop) as Hp1' by (by rewrite (lone_searched s1 E)).
    pose proof lone_here as Hp.
    destruct (alone_prefix e ex_dt lone_state s1 s2 s3 s4 s5 s6 0 _ _ Hsq lone_sensible lone_reachable HX Hp eq_refl (lone_nobody _) Hp1' ltac:(done))
      as (A6 & N6 & E6 & HLN & LX & LB & K1 & K2 & K3).
    destruct (alone_equation s6 t 0 _ A6 eq_refl K1 (eq_sym HLN) N6 (fun H => E6 H eq_refl) Ht) as (B1 & B2 & B3).
    pose proof (pr_ppe _ _ (set_ppe_pr _ _ Ht) LX LB) as [LX' LB'].
    assert (length (cA t) = 1%nat) as L1.
    { destruct (set_ppe_length s6 t Ht LX LB) as [-> _]. destruct HX as [H1 H2 H3 H4 H5 H6].
      assert (psize s6 = psize s5) as -> by (apply pr_size, savex_pr, H6). assert (psize s5 = psize s4) as -> by (apply pr_size, dens_pr, H5).
      assert (psize s4 = psize s3) as -> by (apply pr_size, explicit_pr, H4). assert (psize s3 = psize s2) as -> by (apply pr_size, ecs_pr, H3).
      assert (psize s2 = psize s1) as -> by (apply pr_size, dens_pr, H2).
      unfold psize. by rewrite (lone_searched s1 E). }
    unfold solve_ppe in Hf.
    destruct (cA t) as [|row [|]] eqn:EA; try done. destruct (cBv t) as [|b [|]] eqn:EB; try done. destruct (cXv t) as [|y [|]] eqn:EX; try done.
    cbn in B1, B2. injection B1 as ->. injection B2 as ->.
    assert ((cg_solve (N := Rnum) [[(0%nat, 0 : Rnum)]] [y] [0 : Rnum] (cEps t)).2 = true) as HC.
    { unfold cg_solve. cbv zeta. unfold neqb. cbn [Rnum]. destruct (Req_EM_T _ _) as [|N]; [done|]. exfalso. apply N. cbn. ring. }
    match type of Hf with (if ?b then _ else _) = _ => assert (b = true) as HC' by exact HC; rewrite HC' in Hf end. done.
  Qed.
End Lone.

(** The drop meets the hypotheses of [C62_alone]; it keeps its pressure 7. *)
Theorem example_lone_drop : exists (env0 : environment Rnum rcfg) (s s' : lcomputer),
  ex_env = Some env0 /\ square_ground env0 /\ sensible_constants env0 /\ reachable env0 s /\ cParts s = lone /\
  nobody_near (eNL env0) s 0 ((3, 3) : rvec) /\ forward_dt (ex_dt : Rnum) s = Done s' /\
  alone_for env0 ex_dt 0 1 s s' /\
  cParts s' = [mkParticle (N := Rnum) (d := cDim rcfg) ((3, fall_z) : rvec) fall_u 7 (4/5) Newton].
Proof.
  destruct ex_env_facts as (e & Hee & He).
  assert (eRho e = 1 /\ eSurf e = 9/10) as HR.
  { unfold ex_env, new_env in Hee. destruct (nceil _); [|done]. destruct (_ || _)%bool; [done|]. by injection Hee as <-. }
  destruct (lone_new e He (1/1000000 : Rnum)) as [s0 Hs0].
  destruct (lone_completes e He HR _ s0 Hs0) as [s' Hf]. assert (square_ground e) as Hsq by (by left).
  assert (cParts (lone_state s0) = lone) as HP by (by apply (lone_parts e (1/1000000 : Rnum))).
  assert (reachable e (lone_state s0)) as HR0 by (by apply (lone_reachable e (1/1000000 : Rnum))).
  assert (sensible_constants e) as HS by (by apply lone_sensible).
  assert (nobody_near (eNL e) (lone_state s0) 0 ((3, 3) : rvec)) as HN by (by apply (lone_nobody e (1/1000000 : Rnum) s0 Hs0 lone_drop)).
  assert (cParts (lone_state s0) !! 0%nat = Some lone_drop) as Hp by (by rewrite HP).
  destruct (forward_Done (ex_dt : Rnum) (lone_state s0) s' Hf) as (s1 & s2 & s3 & s4 & s5 & s6 & s7 & HT).
  pose proof (trace_phase _ _ _ _ _ _ _ _ _ _ HT s' ltac:(rewrite !elem_of_cons; tauto)) as P8.
  assert (cParts s1 = lone) as HP1 by (by destruct HT as [H1 _ _ _ _ _ _ _]; apply (lone_searched e He (1/1000000 : Rnum) s0 Hs0)).
  pose proof (pr_size _ _ P8) as HL. unfold psize in HL. rewrite HP1 in HL.
  destruct (cParts s') as [|p' [|]] eqn:HP'; try done.
  assert (cParts s' !! 0%nat = Some p') as Hp' by (by rewrite HP').
  assert (enabled p') as Hen.
  { destruct (phase_type _ _ _ _ P8 Hp') as (p1 & Hp1 & Ht). rewrite HP1 in Hp1. injection Hp1 as <-. unfold enabled. by rewrite Ht. }
  pose proof (C62_alone e ex_dt (lone_state s0) s' 0 lone_drop p' Hsq HS HR0 Hf Hp eq_refl HN Hp' Hen) as E.
  exists e, (lone_state s0), s'.
  split; [done|]. split; [done|]. split; [done|]. split; [done|]. split; [done|]. split; [done|]. split; [done|]. split.
  - by apply (alone_step e ex_dt 0 0 (lone_state s0) (lone_state s0) s' lone_drop p'); [apply alone_none|..].
  - rewrite HP'. f_equal. etransitivity; [exact E|]. cbv zeta. unfold gravity_at. cbn [cCentral rcfg]. rewrite (ef_g e He), (ef_n0 e He).
    cbn -[fall_u fall_z]. unfold fall_u, fall_z, ex_dt. unfold lone_drop. cbn.
    rewrite Rmax_right by lra. f_equal; f_equal; lra.
Qed.

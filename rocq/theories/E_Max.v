(** The two drops of E_Real meet the hypotheses of C84. *)
From Verif Require Import P_Neigh P_Force T_Search T_Env T_Density T_Force T_Outcome S_Outcome S_Lattice S_Scheme T_Scheme M_Main E_Real E_Scheme S_Max T_Max T_MaxStep.
Open Scope R_scope.

Section Example.
  Context (e : environment Rnum rcfg) (He : ex_facts e) (eps : Rnum) (s0 : rcomputer) (Hs0 : new_computer rcfg rwall eps e tt = Some s0).
  Notation start := (start_step (ex_dt : Rnum) (ex_state s0)).
  Notation env := (cEnv start).

  Lemma frame_surface h u ps i p : pair_frame s0 h u ps -> ps !! i = Some p -> surface_particle env ps i p <> None.
  Proof.
    intros HP Hp. destruct (frame_constants e He eps s0 Hs0) as (C1 & C2 & _).
    set (t := with_nws (framed s0 ps) [1/5 : Rnum; 1/5 : Rnum]).
    assert (pair_like h u t) as HT by exact (proj1 HP).
    destruct (frame_at s0 h u ps i p HP Hp) as (Hi & Tp & _).
    assert (forall k, (k < 2)%nat -> cNws t !! k = Some (1/5 : Rnum)) as HN by (intros [|[|k]] Hk; [done|done|lia]).
    assert (surface_particle (cEnv t) (cParts t) i p = virtual t i p) as E.
    { apply surface_virtual; [|done|by eapply (frame_active s0)]. intros j q Hq _. destruct (frame_at s0 h u ps j q HP Hq) as (Hj & _).
      rewrite (HN j Hj). f_equal. symmetry. exact (pair_density h u t j q HT C1 Hq). }
    change (surface_particle (cEnv t) (cParts t) i p <> None). rewrite E. apply (pair_virtual h u t i p HT C1 C2 Hp (HN i Hi)).
  Qed.
  Lemma frame_solvable h u ps : pair_frame s0 h u ps -> solvable_frame env ps.
  Proof.
    intros HP. destruct (frame_constants e He eps s0 Hs0) as (C1 & C2 & _). split.
    - rewrite C2. lra.
    - rewrite C1. lra.
    - done.
    - intros i j p q Hij Hp Hq _ _ Hx. destruct (frame_at s0 h u ps i p HP Hp) as (_ & _ & _ & Xp & _).
      destruct (frame_at s0 h u ps j q HP Hq) as (_ & _ & _ & Xq & _). rewrite Xp, Xq in Hx. apply Hij, INR_eq.
      apply (f_equal fst) in Hx. cbn -[INR] in Hx. lra.
    - intros i p Hp Hh. eapply rs_here; [exact Hp|done|]. left. by eapply frame_surface.
  Qed.
  Lemma first_half_pair wall ps1 ps2 : first_half env wall drops ps1 ps2 -> pair_frame s0 fall_z fall_u ps2.
  Proof.
    intros (ps0 & ps' & H1 & H2 & H3 & H4). rewrite (frame_removal e He _ s0 Hs0 ps0 H1) in H2.
    destruct (frame_densities e He _ s0 Hs0 3 vzero drops ps1 (frame_start s0) H2) as [HP1 _].
    pose proof (frame_movement e He _ s0 Hs0 wall ps1 ps' HP1 H3) as HP'. by destruct (frame_densities e He _ s0 Hs0 _ _ ps' ps2 HP' H4) as [HP2 _].
  Qed.
End Example.

(** A step that meets the hypotheses of [C84_accuracy]; on its frames, a compression at the same rate everywhere causes positive pressures,
    so that those of [C84_sign] and [C84_maximum] are met as well. *)
Theorem example_max : exists (env0 : environment Rnum rcfg) (s s' : rcomputer),
  square_ground env0 /\ 0 < eRe env0 /\ eRe env0 <= eNL env0 /\ reachable env0 s /\ cParts s = drops /\
  forward_dt (ex_dt : Rnum) s = Done s' /\ cExplicit rcfg = false /\ 0 < cEps s /\
  let env := env_of_step ex_dt s in let wall := walls_of_step ex_dt s in
  displacements_at_most env ((eNL env0 - eRe env0) / 2) wall (cEps s) (cParts s) /\
  forall ps1 ps2, first_half env wall (cParts s) ps1 ps2 ->
    solvable_frame env ps2 /\
    exists c x, exact_pressures env c ps2 x /\
      forall i p, ps2 !! i = Some p -> has_pressure env p /\ compression env c ps2 i p = 1 /\ 0 < x i.
Proof.
  destruct ex_env_facts as (e & Hee & He). destruct (ex_new e He (1/1000000 : Rnum)) as [s0 Hs0].
  destruct (ex_completes e He _ s0 Hs0) as [s' Hf]. exists e, (ex_state s0), s'.
  split; [apply ex_square|]. split; [rewrite (ef_re e He); lra|]. split; [rewrite (ef_re e He), (ef_nl e He); lra|].
  split; [by apply (ex_reachable e (1/1000000 : Rnum))|]. split; [by apply (ex_parts e (1/1000000 : Rnum))|]. split; [done|]. split; [done|].
  assert (cEps (ex_state s0) = (1/1000000 : Rnum)) as Heps.
  { pose proof Hs0 as H. unfold new_computer in H. destruct (new_grid _ _ _ _ _); [|done]. by injection H as <-. }
  split; [rewrite Heps; change (0 < 1/1000000); lra|]. intros env wall.
  change env with (cEnv (start_step (ex_dt : Rnum) (ex_state s0))). rewrite (ex_parts e _ s0 Hs0).
  assert (Rabs (3 - fall_z) <= 12/100) as Hfall by (unfold fall_z; rewrite Rabs_pos_eq; lra).
  split; [split|].
  - intros ps0 ps1 ps' H1 H2 H3. rewrite (frame_removal e He _ s0 Hs0 ps0 H1) in H2.
    destruct (frame_densities e He _ s0 Hs0 3 vzero drops ps1 (frame_start s0) H2) as [HP1 _].
    apply (frame_displaced e He _ s0 Hs0 fall_z fall_u); [|done]. by apply (frame_movement e He _ s0 Hs0 wall ps1).
  - intros _ ps1 ps2 ps4 FH HS. pose proof (first_half_pair e He _ s0 Hs0 wall ps1 ps2 FH) as HP2.
    destruct FH as (ps0 & ps' & H1 & H2 & H3 & H4). rewrite (frame_removal e He _ s0 Hs0 ps0 H1) in H2.
    destruct (frame_densities e He _ s0 Hs0 3 vzero drops ps1 (frame_start s0) H2) as [HP1 _].
    apply (frame_displaced e He _ s0 Hs0 fall_z fall_u); [|done]. rewrite Heps in HS. eapply (frame_second e He _ s0 Hs0 _ _ ps1 ps2); eauto.
  - intros ps1 ps2 FH. pose proof (first_half_pair e He _ s0 Hs0 wall ps1 ps2 FH) as HP2.
    pose proof (frame_solvable e He _ s0 Hs0 _ _ ps2 HP2) as HS. split; [done|].
    destruct (C84_unit_response _ ps2 HS) as (u & Hu & Hpos).
    set (k := eRho (cEnv (start_step (ex_dt : Rnum) (ex_state s0))) / (eN0 (cEnv (start_step (ex_dt : Rnum) (ex_state s0))) * eDt (cEnv (start_step (ex_dt : Rnum) (ex_state s0))))).
    assert (k <> 0) as Hk. {
      assert (eRho (cEnv (start_step (ex_dt : Rnum) (ex_state s0))) = (1 : Rnum)) as HR.
      { change (eRho (cEnv (ex_state s0)) = (1 : Rnum)).
        pose proof (inv_env _ _ (reachable_inv e _ (ex_square e) (ex_reachable e _ s0 Hs0))) as Hc. unfold same_constants in Hc. rewrite Hc. cbn [eRho].
        by destruct (C15_constants _ _ _ _ _ _ _ _ _ _ _ _ _ Hee) as (_ & _ & _ & -> & _). }
      destruct (frame_constants e He _ s0 Hs0) as (_ & C2 & C3 & _). unfold k. rewrite HR, C2, C3. unfold ex_dt. change (1 / (4/5 * (1/100)) <> 0). lra. }
    exists (fun _ => / k), u.
    assert (forall i p, ps2 !! i = Some p -> compression (cEnv (start_step (ex_dt : Rnum) (ex_state s0))) (fun _ => / k) ps2 i p = 1) as HC.
    { intros i p Hp. unfold compression. rewrite (frame_rate e He _ s0 Hs0 _ _ ps2 i p HP2 Hp). fold k. field. done. }
    split.
    + intros i p Hp Hh. unfold residual. rewrite (Hu i p Hp Hh). specialize (HC i p Hp). unfold compression in HC. lra.
    + intros i p Hp. assert (has_pressure (cEnv (start_step (ex_dt : Rnum) (ex_state s0))) p) as Hh by (split; [by eapply (frame_active s0)|by left]).
      split; [done|]. split; [by apply HC|by apply (Hpos i p)].
Qed.

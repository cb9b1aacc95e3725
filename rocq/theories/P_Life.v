(** Consequences of the phase lemmas for whole steps and histories (any arithmetic, no
    assumption on the state). *)
From Verif Require Export P_Point.

Section Life.
  Context {N : num} {cfg : config} {wm : wallmotion N (cDim cfg)}.
  Notation d := (cDim cfg).
  Notation V := (vec N d).
  Notation part := (particle N d).
  Notation computer := (computer cfg wm).
  Implicit Types (s : computer) (p : part).

  Definition keeps (p p' : part) : Prop := p' = p \/ p' = disable p.
  Lemma keeps_refl p : keeps p p. Proof. by left. Qed.
  Lemma keeps_trans p1 p2 p3 : keeps p1 p2 -> keeps p2 p3 -> keeps p1 p3.
  Proof. unfold keeps. intros [->| ->] [->| ->]; eauto. Qed.

  Definition search_rel (s s' : computer) : Prop :=
    s' = with_neighbor (with_grid (with_parts s (cParts s')) (cGrid s')) (cNeighbor s') /\
    Forall2 keeps (cParts s) (cParts s').
  Lemma search_rel_refl s : search_rel s s.
  Proof. split; [by destruct s|]. apply Forall2_same_length_lookup_2; [done|]. intros i x y Hx Hy. left. congruence. Qed.
  Lemma search_rel_trans s1 s2 s3 : search_rel s1 s2 -> search_rel s2 s3 -> search_rel s1 s3.
  Proof.
    intros [H1 F1] [H2 F2]. split.
    - rewrite H2 at 1. rewrite H1 at 1. done.
    - apply Forall2_same_length_lookup_2.
      + by rewrite (Forall2_length _ _ _ F1), (Forall2_length _ _ _ F2).
      + intros i x y Hx Hy. destruct (Forall2_lookup_l _ _ _ _ _ F1 Hx) as (z & Hz & Hk).
        eapply keeps_trans; [done|]. by eapply (Forall2_lookup_lr _ _ _ i z y F2).
  Qed.
  Lemma store_one_rel s s' i : final (store_one s i) = Some s' -> search_rel s s'.
  Proof.
    unfold store_one. destruct (cParts s !! i) as [p|] eqn:Hp; [|done].
    assert (forall g, search_rel s (with_grid s g)) as Hg.
    { intros g. split; [done|exact (proj2 (search_rel_refl s))]. }
    destruct (is_disabled (pT p)); [intros [= <-]; apply search_rel_refl|].
    destruct (store d (cGrid s) (pX p) i); simpl; intros [= <-]; try apply Hg.
    split; [by destruct s|]. simpl. apply Forall2_same_length_lookup_2; [by rewrite insert_length|].
    intros j x y Hx Hy. destruct (decide (i = j)) as [->|Hne].
    - rewrite list_lookup_insert in Hy by (by eapply lookup_lt_Some). right. congruence.
    - rewrite list_lookup_insert_ne in Hy by done. left. congruence.
  Qed.
  Lemma store_all_rel l s s' : final (store_all l s) = Some s' -> search_rel s s'.
  Proof.
    revert s; induction l as [|i l IH]; intros s H; simpl in H.
    - injection H as <-. apply search_rel_refl.
    - apply final_obind in H as [[e H]|(s1 & H1 & H2)].
      + eapply store_one_rel. by rewrite H.
      + eapply search_rel_trans; [|by apply IH]. eapply store_one_rel. by rewrite H1.
  Qed.
  Lemma neighbor_loop_rel n s s' : run_loop (neighbor_loop cfg wm) n s = Some s' -> search_rel s s'.
  Proof.
    intros Hr. refine (run_loop_inv (neighbor_loop cfg wm) (search_rel s) n s s' _ (search_rel_refl s) Hr).
    intros s1 i [v|] _ H1 _; [|done]. eapply search_rel_trans; [exact H1|]. split; [by destruct s1|exact (proj2 (search_rel_refl s1))].
  Qed.
  Lemma search_frame s s' : final (search_neighbor s) = Some s' -> search_rel s s'.
  Proof.
    unfold search_neighbor. destruct (clear d (cGrid s)) as [g|]; [|done]. intros H.
    assert (search_rel s (with_grid s g)) as Hg by (split; [done|exact (proj2 (search_rel_refl s))]).
    apply final_obind in H as [[e H]|(s1 & H1 & H2)].
    - eapply search_rel_trans; [exact Hg|]. eapply store_all_rel. by rewrite H.
    - eapply search_rel_trans; [exact Hg|]. eapply search_rel_trans; [eapply store_all_rel; by rewrite H1|].
      apply of_opt_final in H2. by eapply neighbor_loop_rel.
  Qed.

  Lemma Forall2_keeps_types (l l' : list part) : Forall2 keeps l l' ->
    Forall2 (fun t t' => t' = t \/ t' = Disabled) (pT <$> l) (pT <$> l').
  Proof. intros H. apply Forall2_fmap. eapply Forall2_impl; [exact H|]. intros p p' [->| ->]; [by left|by right]. Qed.

  (** What a step does to the environment and to the types, however it ends. *)
  Lemma forward_frame dt s s' : final (forward_dt dt s) = Some s' ->
    cEnv s' = set_next_t (set_dt dt (cEnv s)) /\
    Forall2 (fun t t' => t' = t \/ t' = Disabled) (pT <$> cParts s) (pT <$> cParts s').
  Proof.
    intros Hf. apply forward_final in Hf as [[e He]|(s1 & H1 & Hp)].
    - assert (search_rel (start_step dt s) s') as [H F] by (apply search_frame; by rewrite He).
      split; [by rewrite H|]. by apply (Forall2_keeps_types (cParts s)).
    - assert (search_rel (start_step dt s) s1) as [H F] by (apply search_frame; by rewrite H1).
      rewrite (pr_env _ _ Hp), (pr_types _ _ Hp). split; [by rewrite H|]. by apply (Forall2_keeps_types (cParts s)).
  Qed.
  Lemma forward_dt_frame o s s' : final (api_step o s) = Some s' ->
    match o with
    | AddParticles _ src => s' = add_particles src s
    | ForwardTimeBy _ dt => final (forward_dt dt s) = Some s'
    | ForwardTime _ => exists dt, determine_dt s = Some dt /\ final (forward_dt dt s) = Some s'
    end.
  Proof.
    destruct o as [src|dt|]; simpl; [congruence|done|]. unfold forward. destruct (determine_dt s); [eauto|done].
  Qed.

  (** ** A step from the point of view of one particle *)
  Lemma step_particle dt s s1 s2 s3 s4 s5 s6 s7 s8 i p :
    step_trace dt s s1 s2 s3 s4 s5 s6 s7 s8 -> cParts s !! i = Some p ->
    exists p1, cParts s1 !! i = Some p1 /\ keeps p p1 /\
    exists n1, cParts s2 !! i = Some (set_N n1 p1) /\ cParts s3 !! i = Some (set_N n1 p1) /\
      (is_active (pT p1) = false -> n1 = pN p1) /\
    exists p4, cParts s4 !! i = Some p4 /\ pT p4 = pT p1 /\ pP p4 = pP p1 /\ pN p4 = n1 /\
    exists n2, cParts s5 !! i = Some (set_N n2 p4) /\ cParts s6 !! i = Some (set_N n2 p4) /\
      (is_active (pT p1) = false -> n2 = pN p4) /\
    exists p7, cParts s7 !! i = Some p7 /\ pT p7 = pT p1 /\ pN p7 = n2 /\
    exists p8, cParts s8 !! i = Some p8 /\ pT p8 = pT p1 /\ pP p8 = pP p7 /\ pN p8 = n2.
  Proof.
    intros [H1 H2 H3 H4 H5 H6 H7 H8] Hp.
    assert (search_rel (start_step dt s) s1) as [_ F] by (apply search_frame; by rewrite H1).
    destruct (Forall2_lookup_l _ _ _ _ _ F Hp) as (p1 & Hp1 & Hk).
    exists p1. split; [done|]. split; [done|].
    destruct (dens_keep s1 s2 i p1 H2 Hp1) as (n1 & Hp2 & Hn1). exists n1. split; [done|].
    assert (cParts s3 = cParts s2) as E3.
    { destruct (cECS cfg); [by rewrite (ecs_rest _ _ H3)|by subst]. }
    rewrite E3. split; [done|]. split; [done|].
    rewrite <- E3 in Hp2. pose proof (explicit_at s3 s4 i _ H4 Hp2) as Hx. cbv zeta in Hx. simpl in Hx.
    assert (exists u x, cParts s4 !! i = Some (set_U u (set_X x (set_N n1 p1)))) as (u & x & Hp4).
    { destruct (is_newton (pT p1)); [destruct Hx as (vis & _ & Hx)|]; eauto. }
    eexists. split; [exact Hp4|]. split; [done|]. split; [done|]. split; [done|].
    destruct (dens_keep s4 s5 i _ H5 Hp4) as (n2 & Hp5 & Hn2). exists n2. split; [done|].
    assert (cParts s6 = cParts s5) as E6.
    { destruct (cDS cfg); [by rewrite (savex_rest _ _ H6)|by subst]. }
    rewrite E6. split; [done|]. split; [done|]. rewrite <- E6 in Hp5.
    destruct (implicit_at s6 s7 i _ H7 Hp5) as (P & Hi). simpl in Hi.
    assert (exists p7, cParts s7 !! i = Some p7 /\ pT p7 = pT p1 /\ pN p7 = n2) as (p7 & Hp7 & HT7 & HN7).
    { destruct (is_newton (pT p1)); [destruct Hi as (a & Hi)|]; eauto. }
    exists p7. split; [done|]. split; [done|]. split; [done|].
    destruct (cDS cfg); [|subst; eauto].
    pose proof (stabilize_at s7 s8 i p7 H8 Hp7) as Hst.
    destruct (is_newton (pT p7)); [destruct Hst as (a & _ & Hst)|]; eexists; (split; [exact Hst|]); done.
  Qed.

  (** Non-fluid particles through a step. *)
  Lemma step_wall dt s s' i p p' :
    forward_dt dt s = Done s' -> cParts s !! i = Some p -> cParts s' !! i = Some p' -> pT p' <> Newton ->
    let t := eT (cEnv s) +. dt in
    pX p' = wPos wm (wPre wm (cWall s) t dt) i t dt /\
    pU p' = (pX p' -^ pX p) /^ dt.
  Proof.
    intros Hf Hp Hp' HT t. destruct (forward_Done dt s s' Hf) as (s1 & s2 & s3 & s4 & s5 & s6 & s7 & Htr).
    destruct (step_particle _ _ _ _ _ _ _ _ _ _ i p Htr Hp) as
      (p1 & Hp1 & Hk & n1 & Hp2 & Hp3 & _ & p4 & Hp4 & HT4 & _ & _ & n2 & Hp5 & Hp6 & _ & p7 & Hp7 & HT7 & _ & p8 & Hp8 & HT8 & _).
    destruct Htr as [H1 H2 H3 H4 H5 H6 H7 H8].
    assert (p8 = p') as -> by congruence.
    assert (is_newton (pT p1) = false) as Hnn.
    { destruct (is_newton (pT p1)) eqn:E; [|done]. apply is_newton_true in E. congruence. }
    assert (search_rel (start_step dt s) s1) as [E1 _] by (apply search_frame; by rewrite H1).
    assert (cEnv s3 = cEnv s1) as E3.
    { rewrite (dens_rest _ _ H2) in H3. destruct (cECS cfg); [by rewrite (ecs_rest _ _ H3)|by subst]. }
    assert (cWall s3 = cWall s1) as W3.
    { rewrite (dens_rest _ _ H2) in H3. destruct (cECS cfg); [by rewrite (ecs_rest _ _ H3)|by subst]. }
    assert (cEnv s1 = set_next_t (set_dt dt (cEnv s))) as Henv by (by rewrite E1).
    assert (cWall s1 = cWall s) as Hw by (by rewrite E1).
    pose proof (explicit_at s3 s4 i _ H4 Hp3) as Hx. cbv zeta in Hx. simpl in Hx. rewrite Hnn, E3, Henv, W3, Hw in Hx. simpl in Hx.
    assert (pX p1 = pX p) as Hpx by (by destruct Hk as [->| ->]). rewrite Hpx in Hx.
    destruct (implicit_at s6 s7 i _ H7 Hp6) as (P & Hi). simpl in Hi. rewrite HT4, Hnn in Hi.
    assert (pX p7 = pX p4 /\ pU p7 = pU p4) as [HX7 HU7].
    { rewrite Hp7 in Hi. injection Hi as ->. done. }
    assert (pX p' = pX p7 /\ pU p' = pU p7) as [HX8 HU8].
    { destruct (cDS cfg); [|subst; split; congruence].
      pose proof (stabilize_at s7 s' i p7 H8 Hp7) as Hst. rewrite HT7, Hnn in Hst. split; congruence. }
    rewrite HX8, HU8, HX7, HU7. rewrite Hp4 in Hx. injection Hx as ->. done.
  Qed.
  Lemma step_wall_state dt s s' : forward_dt dt s = Done s' ->
    cWall s' = wPre wm (cWall s) (eT (cEnv s) +. dt) dt.
  Proof.
    intros Hf. destruct (forward_Done dt s s' Hf) as (s1 & s2 & s3 & s4 & s5 & s6 & s7 & [H1 H2 H3 H4 H5 H6 H7 H8]).
    assert (search_rel (start_step dt s) s1) as [E1 _] by (apply search_frame; by rewrite H1).
    assert (cWall s' = cWall s7) as ->.
    { destruct (cDS cfg); [by rewrite (stabilize_rest _ _ H8)|by subst]. }
    assert (cWall s7 = cWall s6) as ->.
    { destruct (cExplicit cfg) eqn:Hx.
      - destruct (implicit_Done_explicit _ _ H7 Hx) as (sa & Ha & Hb). rewrite (gradient_rest _ _ Hb). simpl.
        by rewrite (explicitp_rest _ _ _ Ha).
      - destruct (implicit_Done _ _ H7 Hx) as (sa & sb & sc & [Ha Hb _ Hc Hd]). rewrite (gradient_rest _ _ Hd). simpl.
        rewrite (assign_rest _ _ _ Hc). simpl. rewrite Hb. simpl. by rewrite (set_ppe_rest _ _ Ha). }
    assert (cWall s6 = cWall s5) as ->.
    { destruct (cDS cfg); [by rewrite (savex_rest _ _ H6)|by subst]. }
    rewrite (dens_rest _ _ H5). simpl. rewrite (explicit_rest _ _ H4). simpl.
    assert (cEnv s3 = cEnv s1 /\ cWall s3 = cWall s1) as [-> ->].
    { rewrite (dens_rest _ _ H2) in H3. destruct (cECS cfg); [by rewrite (ecs_rest _ _ H3)|by subst]. }
    rewrite E1. done.
  Qed.

  (** Pressures after a step of the implicit build. *)
  Lemma step_pressure dt s s' i p p' :
    cExplicit cfg = false ->
    forward_dt dt s = Done s' -> cParts s !! i = Some p -> cParts s' !! i = Some p' ->
    if is_active (pT p') then pP p' = nofZ 0 \/ (pP p' <?. nofZ 0) = false else pP p' = pP p.
  Proof.
    intros Hcx Hf Hp Hp'. destruct (forward_Done dt s s' Hf) as (s1 & s2 & s3 & s4 & s5 & s6 & s7 & Htr).
    destruct (step_particle _ _ _ _ _ _ _ _ _ _ i p Htr Hp) as
      (p1 & Hp1 & Hk & n1 & Hp2 & Hp3 & _ & p4 & Hp4 & HT4 & HP4 & _ & n2 & Hp5 & Hp6 & _ & p7 & Hp7 & HT7 & _ & p8 & Hp8 & HT8 & HP8 & _).
    destruct Htr as [H1 H2 H3 H4 H5 H6 H7 H8].
    assert (p8 = p') as -> by congruence.
    destruct (implicit_Done _ _ H7 Hcx) as (sa & sb & sc & [Ha Hb _ Hc Hd]).
    assert (cParts sb !! i = Some (set_N n2 p4)) as Hpb.
    { rewrite Hb. simpl. by rewrite (set_ppe_rest _ _ Ha). }
    pose proof (assign_at _ _ _ _ Hc Hpb) as Hpc. simpl in Hpc. rewrite HT8, HP8. rewrite HT4 in Hpc.
    destruct (is_active (pT p1)).
    - destruct Hpc as (x & _ & Hpc). pose proof (gradient_at _ _ _ _ Hd Hpc) as Hg. simpl in Hg.
      assert (pP p7 = clamp sb (set_N n2 p4) x) as ->.
      { destruct (is_newton (pT p4)); [destruct Hg as (a & _ & Hg)|]; rewrite Hp7 in Hg; by injection Hg as ->. }
      unfold clamp. destruct (x <?. nofZ 0) eqn:Hx; simpl; [by left|]. destruct (_ && _); [by left|by right].
    - pose proof (gradient_at _ _ _ _ Hd Hpc) as Hg. simpl in Hg.
      assert (pP p7 = pP p4) as ->.
      { destruct (is_newton (pT p4)); [destruct Hg as (a & _ & Hg)|]; rewrite Hp7 in Hg; by injection Hg as ->. }
      rewrite HP4. by destruct Hk as [->| ->].
  Qed.
End Life.

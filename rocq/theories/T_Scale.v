(** Property theorems: the unit system does not matter (C77). *)
From Verif Require Import P_Neigh P_Point P_Sim T_Shift S_Scale P_Scale.
Open Scope R_scope.

Section Step.
  Context {cfg : config} {wm : wallmotion Rnum (cDim cfg)} (u : units) (Hu : proper u).
  Notation d := (cDim cfg).
  Notation V := (vec Rnum d).
  Notation part := (particle Rnum d).
  Notation computer := (computer cfg wm).
  Notation computer' := (M_Computer.computer cfg (wall_in u wm)).
  Notation rescaled := (@rescaled cfg u wm).
  Notation wf := P_Search.wf.
  Notation cut := (cut u).
  Implicit Types (p q : part) (s : computer).

  (** States with the same positions, types and lists. *)
  Record same_spot s (t : computer) : Prop := {
    sp_env : cEnv t = cEnv s; sp_nb : cNeighbor t = cNeighbor s;
    sp_at : forall i, (fun p => (pX p, pT p)) <$> cParts t !! i = (fun p => (pX p, pT p)) <$> cParts s !! i }.
  Lemma spot_cut s t : same_spot s t -> cut s -> cut t.
  Proof.
    intros [HE HN HA] HC HS i p Hp H1 H2.
    assert (forall j q, cParts t !! j = Some q -> exists q0, cParts s !! j = Some q0 /\ pX q0 = pX q /\ pT q0 = pT q) as HB.
    { intros j q Hq. specialize (HA j). rewrite Hq in HA. destruct (cParts s !! j) as [q0|]; [|done]. injection HA as -> ->. eauto. }
    destruct (HB i p Hp) as (p0 & Hp0 & HX & HT).
    assert (lopsided t i = lopsided s i) as ->.
    { unfold lopsided. rewrite Hp, Hp0. assert (neighbor_list t i = neighbor_list s i) as -> by (unfold neighbor_list; by rewrite HN).
      destruct (neighbor_list s i) as [l|]; [|done]. rewrite HE. do 3 f_equal. apply map_ext. intros j.
      specialize (HA j). destruct (cParts t !! j) as [q|] eqn:Hq.
      - destruct (HB j q Hq) as (q0 & -> & -> & _). by rewrite HX.
      - destruct (cParts s !! j); done. }
    apply (HC HS i p0 Hp0); by rewrite HT.
  Qed.
  Definition good s (s' : computer') : Prop := rescaled s s' /\ wf s /\ lists_enabled s /\ cut s.
  Lemma good_step s (s' : computer') (o : option computer) (o' : option computer') :
    good s s' -> is_Some o -> is_Some o' -> (forall t, o = Some t -> phase_rel s t) -> (forall t, o = Some t -> same_spot s t) ->
    (forall t t', o = Some t -> o' = Some t' -> rescaled t t') -> opt_rel good o o'.
  Proof.
    intros (H & W & L & C) [t ->] [t' ->] HP HS HR. split_and!; [by apply HR|by eapply wf_phase; [apply HP|]|by eapply phase_lists_enabled; [apply HP|]|by eapply spot_cut; [apply HS|]].
  Qed.
  Lemma spot_parts s l : (forall i, (fun p => (pX p, pT p)) <$> l !! i = (fun p => (pX p, pT p)) <$> cParts s !! i) -> same_spot s (with_parts s l).
  Proof. intros H. by split. Qed.
  Lemma spot_from s t : phase_rel s t -> (forall i p, cParts s !! i = Some p -> exists q, cParts t !! i = Some q /\ pX q = pX p /\ pT q = pT p) -> same_spot s t.
  Proof.
    intros P H. split; [apply P|apply P|]. intros i. destruct (cParts s !! i) as [p|] eqn:Hp.
    - destruct (H i p Hp) as (q & -> & HX & HT). cbn. by rewrite HX, HT.
    - pose proof (pr_size _ _ P) as HS. unfold psize in HS. apply lookup_ge_None in Hp. by rewrite (proj2 (lookup_ge_None (cParts t) i)) by lia.
  Qed.
  Lemma dens_spot s t : compute_densities s = Some t -> same_spot s t.
  Proof.
    intros E. apply spot_from; [by apply dens_pr|]. intros i p Hp. destruct (dens_keep s t i p E Hp) as (n & -> & _). by eexists.
  Qed.
  Lemma dens_good s (s' : computer') : good s s' -> opt_rel good (compute_densities s) (compute_densities s').
  Proof.
    intros HG. pose proof HG as (H & W & _ & _). apply (good_step s s'); [done|by apply dens_defined|by apply dens_defined, (wf_in u s s')|apply dens_pr|apply dens_spot|].
    intros t t'. by apply dens_in.
  Qed.
  Lemma ecs_good s (s' : computer') : good s s' -> opt_rel good (compute_ecs s) (compute_ecs s').
  Proof.
    intros HG. pose proof HG as (H & W & _ & C). apply (good_step s s'); [done|by apply ecs_defined|by apply ecs_defined, (wf_in u s s')|apply ecs_pr| |].
    - intros t E. apply spot_from; [by apply ecs_pr|]. intros i p Hp. rewrite (ecs_rest _ _ E). cbn. eauto.
    - intros t t'. by apply ecs_in.
  Qed.
  Lemma explicit_good s (s' : computer') : good s s' -> (forall t, compute_explicit s = Some t -> cut t) -> opt_rel good (compute_explicit s) (compute_explicit s').
  Proof.
    intros (H & W & L & C) HC. destruct (explicit_defined s W) as [t E]. destruct (explicit_defined s' (wf_in u s s' H W)) as [t' E'].
    rewrite E, E'. pose proof (explicit_pr _ _ E) as P.
    split_and!; [by eapply explicit_in|by eapply wf_phase|by eapply phase_lists_enabled|by apply HC].
  Qed.
  Lemma savex_good s (s' : computer') : good s s' -> opt_rel (fun t t' => good t t' /\ orig_in u t t') (save_x s) (save_x s').
  Proof.
    intros HG. pose proof HG as (H & W & L & C). destruct (savex_defined s W) as [t E]. destruct (savex_defined s' (wf_in u s s' H W)) as [t' E'].
    rewrite E, E'. pose proof (savex_pr _ _ E) as P. destruct (savex_in u s s' t t' H E E') as [HR HO].
    split; [|done]. split_and!; [done|by eapply wf_phase|by eapply phase_lists_enabled|].
    eapply spot_cut; [|done]. apply spot_from; [done|]. intros i p Hp. rewrite (savex_rest _ _ E). cbn. eauto.
  Qed.
  Lemma gradient_end s (s' : computer') : good s s' ->
    opt_rel (fun t t' => rescaled t t' /\ wf t /\ lists_enabled t) (modify_by_gradient s) (modify_by_gradient s').
  Proof.
    intros (H & W & L & C). destruct (gradient_defined s W) as [t E]. destruct (gradient_defined s' (wf_in u s s' H W)) as [t' E'].
    rewrite E, E'. pose proof (gradient_pr _ _ E) as P. split_and!; [by eapply gradient_in|by eapply wf_phase|by eapply phase_lists_enabled].
  Qed.
  Lemma implicit_good s (s' : computer') : good s s' ->
    same_kind (fun t t' => rescaled t t' /\ wf t /\ lists_enabled t) (fun e t t' => rescaled t t') (compute_implicit s) (compute_implicit s').
  Proof.
    intros HG. pose proof HG as (H & W & L & C). pose proof (wf_in u s s' H W) as W'. unfold compute_implicit.
    apply (bind_knowing good); [|intros t t' _ Ht; by apply same_kind_opt, gradient_end]. destruct (cExplicit cfg).
    - apply same_kind_opt. destruct (explicitp_defined s) as [t E]. destruct (explicitp_defined s') as [t' E']. rewrite E, E'.
      pose proof (explicitp_pr _ _ _ E) as P. split_and!; [by eapply explicitp_in|by eapply wf_phase|by eapply phase_lists_enabled|].
      eapply spot_cut; [|done]. apply spot_from; [done|]. intros i p Hp. rewrite (explicitp_at s t i p E Hp). by eexists.
    - destruct (set_ppe_defined s W) as (t & E & LA). destruct (set_ppe_defined s' W') as (t' & E' & LA'). rewrite E, E'. cbn [of_opt obind].
      destruct (set_ppe_in u Hu s s' t t' H W C E E') as [HR HY]. pose proof (set_ppe_pr _ _ E) as P. pose proof (set_ppe_pr _ _ E') as P'.
      apply (bind_knowing (fun v v' : _ => rescaled v v' /\ cXv v' = map (Rmult (in_pressure u)) (cXv v))).
      { pose proof (solve_in u Hu s t t' HR HY) as HSv. by eapply same_kind_impl; [| |exact HSv]; [|intros e v v' [_ ?]]. }
      intros v v' Ev [Hv HX]. apply same_kind_opt.
      assert (phase_rel t v /\ length (cA v) = length (cA t) /\ cParts v = cParts t /\ cEnv v = cEnv t) as (P2 & LAv & EP & EE).
      { destruct (solve_pr t) as (v0 & [E0|E0] & P2 & R2); rewrite E0 in Ev; [injection Ev as <-|done].
        unfold solve_ppe in E0. destruct (cg_solve _ _ _ _).2; [|done]. injection E0 as <-. done. }
      pose proof (wf_phase _ _ P2 (wf_phase _ _ P W)) as Wv. pose proof (wf_in u v v' Hv Wv) as Wv'.
      assert (length (cA v) = psize v) as LA1 by (rewrite (pr_size _ _ P2), (pr_size _ _ P); exact (eq_trans LAv LA)).
      assert (length (cA v') = psize v') as LA2 by (rewrite (re_A _ _ _ Hv), (re_size u _ _ Hv); exact LA1).
      destruct (assign_defined v Wv LA1) as [w Ew]. destruct (assign_defined v' Wv' LA2) as [w' Ew']. rewrite Ew, Ew'.
      pose proof (assign_pr _ _ _ Ew) as P3.
      assert (phase_rel s w) as P4 by (eapply phase_rel_trans; [exact P|]; by eapply phase_rel_trans).
      split_and!; [by eapply (assign_in u Hu v v')|by eapply wf_phase|by eapply phase_lists_enabled|].
      eapply spot_cut; [|exact C]. apply spot_from; [done|]. intros i p Hp.
      assert (cParts v !! i = Some p) as Hpv by (rewrite EP, (set_ppe_rest _ _ E); exact Hp).
      pose proof (assign_at v w i p Ew Hpv) as D. destruct (is_active (pT p)); [destruct D as (x & _ & ->); by eexists|rewrite D; eauto].
  Qed.

  Lemma forward_in s (s' : computer') (dt : R) : ok s -> rescaled s s' -> (cSPP cfg = true -> forall t, passes (dt : R) s t -> clear_cut u t) ->
    same_kind rescaled (fun _ => rescaled) (forward_dt (dt : Rnum) s) (forward_dt (in_time u * dt : Rnum) s').
  Proof.
    intros Hok H HC. unfold forward_dt.
    set (late := fun (t : computer) (t' : computer') => rescaled t t' /\ wf t /\ lists_enabled t).
    set (RT := fun _ : exn => rescaled).
    apply (bind_knowing (fun t t' => late t t' /\ (cDS cfg = true -> orig_in u t t'))).
    2:{ intros t t' _ [(Ht & W & L) Ho]. destruct (cDS cfg); [|done]. apply same_kind_opt.
        destruct (stabilize_defined t W) as [v E]. destruct (stabilize_defined t' (wf_in u t t' Ht W)) as [v' E']. rewrite E, E'.
        eapply stabilize_in; [done|exact Ht|by apply Ho|done|done|done|done]. }
    apply (bind_knowing (fun t t' => good t t' /\ (cDS cfg = true -> orig_in u t t'))).
    2:{ intros t t' _ [Ht Ho]. pose proof (implicit_good t t' Ht) as HI. pose proof (implicit_pr t) as HP.
        pose proof (implicit_origx t) as HX. pose proof (implicit_origx t') as HX'.
        destruct (compute_implicit t) as [v|e v|] eqn:Ev, (compute_implicit t') as [v'|e' v'|] eqn:Ev'; cbn [same_kind] in HI |- *; try done.
        specialize (HP v eq_refl). specialize (HX v eq_refl). specialize (HX' v' eq_refl).
        split; [done|]. intros HD j q Hq HT. rewrite HX, HX'. pose proof (f_equal (fun l => l !! j) (pr_types _ _ HP)) as Ht2. cbn beta in Ht2.
        rewrite !list_lookup_fmap, Hq in Ht2. destruct (cParts t !! j) as [q0|] eqn:Hq0; [|done]. injection Ht2 as Ht2.
        apply (Ho HD j q0 Hq0). by rewrite <- Ht2. }
    apply (bind_knowing good).
    2:{ intros t t' _ Ht. destruct (cDS cfg); [|by split]. pose proof (savex_good t t' Ht) as HSv.
        destruct (save_x t), (save_x t'); cbn in *; try done. by destruct HSv. }
    apply (bind_knowing good). 2:{ intros t t' _ Ht. by apply same_kind_opt, dens_good. }
    set (P1 := fun t : computer => search_neighbor (start_step (dt : Rnum) s) = Done t).
    apply (bind_knowing (fun t t' => good t t' /\ exists t1 t2, P1 t1 /\ compute_densities t1 = Some t2 /\ (if cECS cfg then compute_ecs t2 = Some t else t = t2))).
    2:{ intros t t' _ [Ht (t1 & t2 & E1 & E2 & E3)]. apply same_kind_opt, explicit_good; [done|]. intros v Ev HS. apply (HC HS).
        exists t1. split; [exact E1|]. right. eauto 10. }
    apply (bind_knowing (fun t t' => good t t' /\ exists t1, P1 t1 /\ compute_densities t1 = Some t)).
    2:{ intros t t' _ [Ht (t1 & E1 & E2)]. destruct (cECS cfg); [|split; [done|]; eauto].
        pose proof (ecs_good t t' Ht) as HE. destruct (compute_ecs t) as [v|] eqn:Ev, (compute_ecs t') as [v'|]; cbn in *; try done. eauto 10. }
    apply (bind_knowing (fun t t' => good t t' /\ P1 t)).
    2:{ intros t t' _ [Ht E1]. pose proof (dens_good t t' Ht) as HE.
        destruct (compute_densities t) as [v|] eqn:Ev, (compute_densities t') as [v'|]; cbn in *; try done. eauto 10. }
    change (with_env s (set_next_t (set_dt (dt : Rnum) (cEnv s)))) with (start_step (dt : Rnum) s).
    change (with_env s' (set_next_t (set_dt (in_time u * dt : Rnum) (cEnv s')))) with (start_step (in_time u * dt : Rnum) s').
    assert (rescaled (start_step (dt : Rnum) s) (start_step (in_time u * dt : Rnum) s')) as H0.
    { split; cbn; try by apply H; done. rewrite (re_env _ _ _ H). unfold env_in, set_next_t, set_dt. cbn. f_equal. req. ring. }
    destruct Hok as [Hwf Hcl]. assert (ok (start_step (dt : Rnum) s)) as Hok' by (split; [by apply wf_start|done]).
    pose proof (search_in u Hu _ _ H0) as HS. pose proof (search_spec _ (proj1 Hok') (proj2 Hok')) as HSp.
    destruct (search_neighbor (start_step (dt : Rnum) s)) as [v|e v|] eqn:Ev, (search_neighbor (start_step (in_time u * dt : Rnum) s')) as [v'|e' v'|]; cbn [same_kind] in HS |- *; try done.
    - split; [|done]. split_and!; [done| |by eapply search_lists_enabled|].
      + eapply P_Step.wf_searched; [exact (proj1 Hok')|done].
      + intros HSP. apply (HC HSP). exists v. split; [exact Ev|by left].
    - destruct HS as (-> & _ & HS). done.
  Qed.
End Step.

Section Properties.
  Context {cfg : config} {wm : wallmotion Rnum (cDim cfg)} (u : units).
  Notation d := (cDim cfg).
  Notation V := (vec Rnum d).
  Notation part := (particle Rnum d).
  Notation computer := (computer cfg wm).
  Notation computer' := (M_Computer.computer cfg (wall_in u wm)).
  Notation rescaled := (@rescaled cfg u wm).
  Implicit Types (s : computer).

  Lemma converted_in s : rescaled s (converted u s).
  Proof. by split. Qed.

  (** C77, one step: with every quantity expressed in other units of length, time and density, ForwardTime(dt)
      ends in the same way, in the same state expressed in those units. *)
  Theorem C77_step env0 s (dt : R) :
    square_ground env0 -> reachable env0 s -> proper u ->
    (cSPP cfg = true -> forall t, passes dt s t -> clear_cut u t) ->
    same_kind rescaled (fun _ => rescaled)
      (forward_dt (dt : Rnum) s) (forward_dt (in_time u * dt : Rnum) (converted u s)).
  Proof.
    intros Hsq Hr Hu HC. apply forward_in; [done|by apply (inv_ok env0 s Hsq), (reachable_inv env0 s Hsq)|apply converted_in|done].
  Qed.

  Lemma min_scal (a x y : R) : 0 < a -> nmin (N := Rnum) (a * x) (a * y) = a * nmin (N := Rnum) x y.
  Proof. intros Ha. unfold nmin. rewrite ltb_scal by done. by destruct (_ <?. _). Qed.
  Lemma max_u_in (p : part) ps : proper u ->
    foldl max_u_step (part_in u p) (map (part_in u) ps) = part_in u (foldl max_u_step p ps).
  Proof.
    intros Hu. pose proof (speed_pos u Hu) as Hs. revert p. induction ps as [|q ps IH]; intros p; [done|]. simpl. rewrite <- IH. f_equal. unfold max_u_step.
    cbn [pU part_in]. rewrite !dot_scal, ltb_scal by nra. by destruct (_ <?. _).
  Qed.
  Lemma determine_in s (s' : computer') : proper u -> rescaled s s' -> determine_dt s' = Rmult (in_time u) <$> determine_dt s.
  Proof.
    intros Hu H. unfold determine_dt. rewrite (re_parts _ _ _ H), (re_env _ _ _ H). destruct (cParts s) as [|p ps]; [done|].
    cbn [map]. rewrite max_u_in by done. cbn [pU part_in eMaxDt eMaxDx env_in]. pose proof (speed_pos u Hu) as Hs. pose proof (tau_pos u Hu) as Ht. pose proof (lam_pos u Hu) as Hl.
    rewrite norm_scal by done. set (m := vnorm _). cbn [fmap option_fmap option_map]. f_equal.
    change (@nofZ Rnum 0) with 0. rewrite (eqb0_scal (in_speed u) m Hs). destruct (_ =?. _); [done|].
    rewrite <- min_scal by done. f_equal. unfold in_speed. scales (in_time u) (in_length u) (in_length u).
  Qed.

  (** C77: the automatic time step is the same. *)
  Theorem C77_automatic s : proper u -> determine_dt (converted u s) = Rmult (in_time u) <$> determine_dt s.
  Proof. intros Hu. apply determine_in; [done|apply converted_in]. Qed.

  (** C77: the environment constructed from the arguments expressed in the new units is the environment expressed in them. *)
  Theorem C77_environment (maxDt courant g rho nu surf r_eByl_0 c0 l_0 : R) (minX maxX : V) : proper u ->
    new_env (N := Rnum) cfg (in_time u * maxDt) courant (in_acceleration u * g) (in_density u * rho) (in_viscosity u * nu) surf
      r_eByl_0 (in_speed u * c0) (in_length u * l_0) ((in_length u : Rnum) *^ minX) ((in_length u : Rnum) *^ maxX)
    = env_in u <$> new_env (N := Rnum) cfg maxDt courant g rho nu surf r_eByl_0 c0 l_0 minX maxX.
  Proof.
    intros Hu. pose proof (speed_pos u Hu) as Hs. pose proof (tau_pos u Hu) as Ht. pose proof (lam_pos u Hu) as Hl.
    unfold new_env. destruct (nceil _) as [range|]; [|done]. destruct (_ || _); [done|]. cbn zeta. cbn [fmap option_fmap option_map]. f_equal.
    assert (forall l a b, foldl (lattice_step cfg (in_length u * l_0 : Rnum) (in_length u * (r_eByl_0 * l_0) : Rnum)) (a, in_length u * in_length u * b) l
      = (fun v : R * R => (v.1, in_length u * in_length u * v.2)) (foldl (lattice_step cfg (l_0 : Rnum) (r_eByl_0 * l_0 : Rnum)) (a, b) l)) as HL.
    { intros l. induction l as [|idx l IH]; intros a b; [done|]. cbn [foldl].
      destruct (lattice_step cfg (l_0 : Rnum) (r_eByl_0 * l_0 : Rnum) (a, b) idx) as [a' b'] eqn:E. rewrite <- IH. f_equal.
      revert E. unfold lattice_step. destruct (forallb _ _); [by intros [= <- <-]|].
      assert ((tmk d (fun k => nofZ (nth k idx 0%Z) ×. (in_length u * l_0 : Rnum)) : V) = (in_length u : Rnum) *^ (tmk d (fun k => nofZ (nth k idx 0%Z) ×. (l_0 : Rnum)) : V)) as ->.
      { apply coord_ext. intros k Hk. rewrite coord_scal by done. unfold coord. rewrite !tget_tmk by done. cbn [nmul Rnum]. req. ring. }
      rewrite norm_scal, ltb_scal, weight_scal by done. set (r := vnorm _). set (w := weight _ _). clearbody r w.
      destruct (_ <?. _); cbn [fst snd]; intros [= <- <-]; [|done]. f_equal.
      change (nT Rnum) with R in *. cbn [nadd nmul Rnum]. req. ring. }
    cbn [nmul nofZ Rnum] in *. replace (r_eByl_0 * (in_length u * l_0)) with (in_length u * (r_eByl_0 * l_0)) by (req; ring).
    pose proof (HL (lattice_idx (dimn d) range) 0 0) as HE. rewrite Rmult_0_r in HE.
    change (nT Rnum) with R in *. rewrite HE. clear HE HL. destruct (foldl _ _ _) as [a b]. cbn [fst snd].
    unfold env_in. cbn. f_equal.
    - req. ring.
    - req. ring.
    - scales (in_length u) (in_time u) (in_time u).
    - destruct (cExplicit cfg).
      + rewrite <- min_scal by done. f_equal. unfold in_speed. scales (in_length u) (in_time u) (in_time u).
      + rewrite <- min_scal by done. f_equal. rewrite <- sqrt_scal by done. f_equal. unfold in_acceleration. scales (in_length u) (in_time u) (in_time u).
    - req. ring.
    - apply coord_ext. intros k Hk. rewrite coord_scal by done. unfold coord. rewrite !tget_tmk by done. destruct (_ =? _)%nat; cbn; req; ring.
    - req. ring.
  Qed.

  Lemma new_grid_in (nl l0 : R) (minX maxX : V) : proper u ->
    new_grid (N := Rnum) d (in_length u * nl) (in_length u * l0) ((in_length u : Rnum) *^ minX) ((in_length u : Rnum) *^ maxX)
    = grid_in u <$> new_grid (N := Rnum) d nl l0 minX maxX.
  Proof.
    intros Hu. pose proof (lam_pos u Hu) as Hl.
    assert (forall a b : R, ceil_div (N := Rnum) (in_length u * a) (in_length u * b) = ceil_div (N := Rnum) a b) as HC.
    { intros a b. unfold ceil_div. f_equal. scales (in_length u) (in_length u) (in_length u). }
    unfold new_grid. rewrite (mapM_ext_in _ (fun k => c ← ceil_div (N := Rnum) (tget d maxX k -. tget d minX k) nl; Some (c + 2)%Z)).
    2:{ intros k Hk%elem_of_seq. change (tget d ?y k) with (coord y k). rewrite !coord_scal by lia. cbn [nsub Rnum].
        rewrite <- (HC (coord maxX k - coord minX k) nl). do 2 f_equal. req. ring. }
    destruct (mapM _ _) as [sh|]; [|done]. cbn [mbind option_bind]. rewrite HC. destruct (ceil_div _ _) as [m|]; [|done].
    cbn [mbind option_bind]. by destruct (_ && _).
  Qed.
  Lemma new_computer_in eps env w : proper u ->
    opt_rel rescaled (new_computer cfg wm eps env w) (new_computer cfg (wall_in u wm) eps (env_in u env) w).
  Proof.
    intros Hu. unfold new_computer. cbn [eNL eL0 eMinX eMaxX env_in]. rewrite new_grid_in by done.
    destruct (new_grid _ _ _ _ _) as [G|]; [|done]. simpl. by split.
  Qed.
  Lemma add_in (src : list part) s (s' : computer') : rescaled s s' -> rescaled (add_particles src s) (add_particles (map (part_in u) src) s').
  Proof.
    intros H. unfold add_particles. rewrite (re_parts _ _ _ H), <- map_app, map_length.
    split; cbn; try apply H; try done.
    - by rewrite (re_neighbor _ _ _ H), (re_grid _ _ _ H).
    - rewrite !resize_length. done.
    - rewrite !resize_length. done.
    - rewrite (re_ecs _ _ _ H). pose proof (fmap_resize (fun e : R => e / in_time u) (length (cParts s ++ src)) 0 (cEcs s)) as E. cbv beta in E. replace (0 / in_time u) with 0 in E by (unfold Rdiv; ring). symmetry. exact E.
    - by rewrite (re_nws _ _ _ H).
  Qed.
  Lemma api_in s (s' : computer') o : ok s -> proper u -> (cSPP cfg = true -> clear_call u o s) -> rescaled s s' ->
    same_kind rescaled (fun _ => rescaled) (api_step o s) (@api_step _ cfg (wall_in u wm) (op_in u o) s').
  Proof.
    intros Hok Hu HC H. destruct o as [src|dt|]; simpl.
    - by apply add_in.
    - by apply forward_in.
    - unfold forward. rewrite (determine_in s s' Hu H). destruct (determine_dt s) as [dt|] eqn:E; [|done].
      apply forward_in; [done..|]. intros HS t. by apply (HC HS).
  Qed.

  (** C77, whole histories: construct a computer from the environment in the new units, hand over the particles in
      them and make the same calls; the final state is the same, in the new units (and the calls have defined
      behaviour in both cases or in neither). *)
  Theorem C77_history env0 eps w s0 ops :
    square_ground env0 -> proper u ->
    new_computer cfg wm eps env0 w = Some s0 ->
    (cSPP cfg = true -> clear_run u ops s0) ->
    exists s0', new_computer cfg (wall_in u wm) eps (env_in u env0) w = Some s0' /\
      match api_run ops s0, api_run (map (op_in u) ops) s0' with
      | Some s, Some s' => rescaled s s'
      | None, None => True
      | _, _ => False
      end.
  Proof.
    intros Hsq Hu Hn HC. pose proof (new_computer_in eps env0 w Hu) as HN. rewrite Hn in HN.
    destruct (new_computer cfg (wall_in u wm) _ _ _) as [s0'|]; simpl in HN; [|done].
    exists s0'. split; [done|].
    assert (ok s0) as Hok by (apply (inv_ok env0 s0 Hsq), (reachable_inv env0 s0 Hsq); by eapply reach_new).
    clear Hn. revert s0 s0' HN Hok HC. induction ops as [|o ops IH]; intros s s' H Hok HC; [done|].
    cbn [map]. rewrite !api_run_cons. pose proof (api_in s s' o Hok Hu (fun HS => proj1 (HC HS)) H) as HO. pose proof (api_step_ok o s) as HK.
    assert (cSPP cfg = true -> match api_step o s with Done t | Throw _ t => clear_run u ops t | Undef => True end) as HC2 by (intros HS; apply (HC HS)).
    destruct (api_step o s) as [t|e t|], (api_step (op_in u o) s') as [t'|e' t'|]; simpl in *; try done.
    - apply IH; [done|by eapply HK|done].
    - apply IH; [apply HO|by eapply HK|done].
  Qed.

  Lemma unit_length_clear (s : computer) : in_length u = 1 -> clear_cut u s.
  Proof. intros H1 i p _ _ _. by rewrite H1, Rmult_1_l. Qed.
  Lemma unit_length_run ops s : in_length u = 1 -> clear_run u ops s.
  Proof.
    intros H1. revert s. induction ops as [|o ops IH]; intros s; [done|]. split.
    - destruct o; simpl; [done|intros; by apply unit_length_clear..].
    - destruct (api_step o s); [apply IH..|done].
  Qed.
  (** C77: the units of time and of mass never matter. *)
  Theorem C77_time_and_mass env0 eps w s0 ops :
    square_ground env0 -> proper u -> in_length u = 1 ->
    new_computer cfg wm eps env0 w = Some s0 ->
    exists s0', new_computer cfg (wall_in u wm) eps (env_in u env0) w = Some s0' /\
      match api_run ops s0, api_run (map (op_in u) ops) s0' with
      | Some s, Some s' => rescaled s s'
      | None, None => True
      | _, _ => False
      end.
  Proof. intros Hsq Hu H1 Hn. apply (C77_history env0 eps w s0 ops Hsq Hu Hn). intros _. by apply unit_length_run. Qed.
End Properties.

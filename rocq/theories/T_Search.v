(** Property theorems: the neighbour search (C01, C04, C06, C07, C11, C48). *)
From Coq Require Import ZifyBool.
From Verif Require Export S_Terms.
From Verif Require Import M_NumF P_Neigh.
Open Scope R_scope.

(** ** C04, any arithmetic *)
Section History.
  Context {N : num} {cfg : config} {wm wm' : wallmotion N (cDim cfg)}.
  Notation d := (cDim cfg).

  (** Two states, possibly of computers with different wall motion, that a search cannot
      tell apart. *)
  Record alike (s : computer cfg wm) (s' : computer cfg wm') : Prop := {
    al_parts : cParts s = cParts s';
    al_geom : same_geom (cGrid s) (cGrid s');
    al_wf : grid_wf (cGrid s); al_wf' : grid_wf (cGrid s');
    al_cnt : counts_ok (cGrid s); al_cnt' : counts_ok (cGrid s');
    al_cont : forall k, contents (cGrid s) k = contents (cGrid s') k
  }.
  Definition same_outcome (o : outcome (computer cfg wm)) (o' : outcome (computer cfg wm')) : Prop :=
    match o, o' with
    | Done a, Done b => alike a b
    | Throw e a, Throw e' b => e = e' /\ cParts a = cParts b
    | Undef, Undef => True
    | _, _ => False
    end.
  Lemma store_one_alike s s' i : alike s s' -> same_outcome (store_one s i) (store_one s' i).
  Proof.
    intros H. unfold store_one. rewrite <- (al_parts _ _ H). destruct (cParts s !! i) as [p|]; [|done].
    destruct (is_disabled (pT p)); [done|].
    pose proof (store_correct (cGrid s) (pX p) i (al_wf _ _ H) (al_cnt _ _ H)) as S1.
    pose proof (store_correct (cGrid s') (pX p) i (al_wf' _ _ H) (al_cnt' _ _ H)) as S2.
    pose proof (same_geom_block _ _ (pX p) (al_geom _ _ H)) as Hblk.
    destruct (al_geom _ _ H) as (G1 & G2 & G3 & G4).
    destruct S1 as [B1|b B1 R1|b g1 B1 R1 L1 W1 E1|b g1 B1 R1 L1 W1 C1 E1 K1];
    destruct S2 as [B2|b' B2 R2|b' g2 B2 R2 L2 W2 E2|b' g2 B2 R2 L2 W2 C2 E2 K2]; simpl; try congruence; try done.
    all: try (rewrite Hblk, B1 in B2; injection B2 as <-).
    all: try congruence.
    all: try (rewrite <- (al_cont _ _ H), G4 in L2; lia).
    - split; simpl; try apply H. by rewrite (al_parts _ _ H).
    - split; [done|]. apply H.
    - assert (same_geom g1 (cGrid s)) as T1 by (apply is_empty_like_geom in E1; unfold same_geom in *; intuition congruence).
      apply is_empty_like_geom in E2.
      split; simpl; try done; try apply H.
      + eapply same_geom_trans; [exact T1|]. eapply same_geom_trans; [apply H|done].
      + intros k. rewrite K1, K2, !(al_cont _ _ H). done.
  Qed.
  Lemma store_all_alike l s s' : alike s s' -> same_outcome (store_all l s) (store_all l s').
  Proof.
    revert s s'; induction l as [|i l IH]; intros s s' H; simpl; [done|].
    pose proof (store_one_alike s s' i H) as H1.
    destruct (store_one s i), (store_one s' i); simpl in *; try done. by apply IH.
  Qed.

  (** C04.  Two computers for the same environment with the same particles, whatever happened to
      them before: the search has the same outcome - same particles disabled, same neighbour
      lists for all enabled particles. *)
  Theorem C04_history_independent env0 dt dt' (s : computer cfg wm) (s' : computer cfg wm') :
    square_ground env0 -> reachable env0 s -> reachable env0 s' -> cParts s = cParts s' ->
    match search_neighbor (start_step dt s), search_neighbor (start_step dt' s') with
    | Done s1, Done s1' => cParts s1 = cParts s1' /\
        forall i p, cParts s1 !! i = Some p -> enabled p -> neighbor_list s1 i = neighbor_list s1' i
    | Throw e s1, Throw e' s1' => e = e' /\ cParts s1 = cParts s1'
    | Undef, Undef => True
    | _, _ => False
    end.
  Proof.
    intros Hsq Hr Hr' HP.
    pose proof (reachable_inv env0 s Hsq Hr) as I1. pose proof (reachable_inv env0 s' Hsq Hr') as I2.
    destruct (inv_ok _ _ Hsq I1) as [Hwf Hok]. destruct (inv_ok _ _ Hsq I2) as [Hwf' Hok'].
    pose proof (search_spec (start_step dt s) (wf_start dt s Hwf) Hok) as S1.
    pose proof (search_spec (start_step dt' s') (wf_start dt' s' Hwf') Hok') as S2.
    assert (same_geom (cGrid s) (cGrid s')) as HG.
    { destruct (inv_geom _ _ I1) as (g0 & Hg0 & G1). destruct (inv_geom _ _ I2) as (g0' & Hg0' & G2).
      assert (g0' = g0) as -> by congruence. unfold same_geom in *. intuition congruence. }
    unfold search_neighbor in *.
    destruct (clear_spec (cGrid s) (wf_grid s Hwf) Hok) as (g & Hc & Hg & Hgok & Hgc & Hge & Hgempty).
    destruct (clear_spec (cGrid s') (wf_grid s' Hwf') Hok') as (g' & Hc' & Hg' & Hgok' & Hgc' & Hge' & Hgempty').
    simpl cGrid in *. rewrite Hc in S1. rewrite Hc' in S2. rewrite Hc, Hc'.
    assert (psize (start_step dt s) = psize (start_step dt' s')) as Hn by (unfold psize; simpl; by rewrite HP).
    rewrite <- Hn in S2 |- *.
    assert (alike (with_grid (start_step dt s) g) (with_grid (start_step dt' s') g')) as HA.
    { split; simpl; try done.
      - apply is_empty_like_geom in Hge, Hge'. unfold same_geom in *. intuition congruence.
      - intros k. by rewrite Hgempty, Hgempty'. }
    apply (store_all_alike (seq 0 (psize (start_step dt s)))) in HA.
    assert (eNL (cEnv s) = eNL (cEnv s')) as HNL.
    { pose proof (inv_env _ _ I1) as ->. by pose proof (inv_env _ _ I2) as ->. }
    destruct (store_all _ (with_grid (start_step dt s) g)) as [a|e a|] eqn:Ea;
    destruct (store_all _ (with_grid (start_step dt' s') g')) as [b|e' b|] eqn:Eb; simpl in HA |- *; try done.
    simpl in S1, S2.
    assert (psize a = psize b) as Hab by (unfold psize; by rewrite (al_parts _ _ HA)).
    assert (exists s1, run_loop (neighbor_loop cfg wm) (psize a) a = Some s1) as [s1 E1].
    { destruct (run_loop _ _ a) as [s1|]; [eauto|]. simpl in S1. destruct S1 as [_ HU]. exfalso.
      specialize (HU g eq_refl). congruence. }
    assert (exists s2, run_loop (neighbor_loop cfg wm') (psize b) b = Some s2) as [s2 E2].
    { destruct (run_loop _ _ b) as [s2|]; [eauto|]. simpl in S2. destruct S2 as [_ HU]. exfalso.
      specialize (HU g' eq_refl). congruence. }
    rewrite E1 in S1 |- *. rewrite E2 in S2 |- *. simpl in *.
    assert (forall p, leave (cGrid s') p = leave (cGrid s) p) as Hlv.
    { intros p. unfold leave. by rewrite (same_geom_in_grid (cGrid s)). }
    assert (cParts s1 = cParts s2) as HP12.
    { rewrite (se_parts _ _ S1), (se_parts _ _ S2). simpl. rewrite <- HP. apply list_fmap_ext. intros _ p _. by rewrite Hlv. }
    split; [done|]. intros i p Hp Hen. apply is_disabled_false in Hen.
    rewrite (found_list _ _ S1 i p) by done. rewrite (found_list _ _ S2 i p) by congruence. f_equal.
    assert (same_geom (cGrid s1) (cGrid s2)) as G12.
    { pose proof (se_geom _ _ S1) as T1. pose proof (se_geom _ _ S2) as T2. simpl in T1, T2. unfold same_geom in *. intuition congruence. }
    assert (forall k, contents (cGrid s1) k = contents (cGrid s2) k) as HC.
    { intros k. rewrite (se_contents _ _ S1), (se_contents _ _ S2). simpl. rewrite <- HP, <- Hn.
      apply list_filter_iff. intros j. unfold home. destruct (cParts s !! j); [|done].
      rewrite (same_geom_block _ _ _ HG). destruct HG as (_ & _ & -> & _). done. }
    unfold found. rewrite (same_geom_block _ _ _ G12). destruct (block_of _ _ _) as [blk|]; [|done].
    assert (around_contents (cGrid s1) blk = around_contents (cGrid s2) blk) as <-.
    { unfold around_contents. f_equal. apply map_ext. intros k. unfold cont. rewrite HC. destruct G12 as (_ & _ & -> & _). done. }
    apply list_filter_iff. intros j. unfold near_test. rewrite HP12.
    assert (eNL (cEnv s1) = eNL (cEnv s2)) as ->; [|done].
    rewrite (se_rest _ _ S1), (se_rest _ _ S2). done.
  Qed.
End History.

(** ** C06 *)
Section Symmetric.
  Context {N : num} {cfg : config} {wm : wallmotion N (cDim cfg)}.
  Notation d := (cDim cfg).
  Notation computer := (computer cfg wm).
  Implicit Types (s : computer).

  (** Holds in every arithmetic whose distance is symmetric. *)
  Lemma neighbours_symmetric env0 dt s s1 i j p q l l' :
    (forall x y : vec N d, dist x y = dist y x) ->
    square_ground env0 -> reachable env0 s -> search_neighbor (start_step dt s) = Done s1 ->
    cParts s1 !! i = Some p -> enabled p -> cParts s1 !! j = Some q -> enabled q ->
    neighbor_list s1 i = Some l -> neighbor_list s1 j = Some l' ->
    i ∉ l /\ (j ∈ l <-> i ∈ l').
  Proof.
    intros Hsym Hsq Hr H Hp Hep Hq Heq Hl Hl'.
    pose proof (search_searched env0 dt s s1 Hsq Hr H) as S1. apply is_disabled_false in Hep, Heq.
    rewrite (found_list _ _ S1 i p) in Hl by done. rewrite (found_list _ _ S1 j q) in Hl' by done.
    injection Hl as <-. injection Hl' as <-. split; [intros Hi; by apply found_enabled in Hi as [? _]|].
    destruct (home_of_enabled _ s1 i p (se_parts _ _ S1) Hp Hep) as (_ & b & Hb & _).
    destruct (home_of_enabled _ s1 j q (se_parts _ _ S1) Hq Heq) as (_ & b' & Hb' & _).
    rewrite (found_elem _ _ S1 i p j q b), (found_elem _ _ S1 j q i p b') by done.
    assert (near_test s1 i p j = near_test s1 j q i) as ->.
    { unfold near_test. rewrite Hp, Hq, Hep, Heq, Hsym. by rewrite Nat.eqb_sym. }
    apply and_iff_compat_l. split; intros (b'' & Hb'' & Ha); eexists; (split; [done|]); apply adjacent_sym; congruence.
  Qed.
End Symmetric.

(** Over the reals. *)
Theorem C06_symmetric_real cfg (wm : wallmotion Rnum (cDim cfg)) env0 dt (s s1 : computer cfg wm) i j p q l l' :
  square_ground env0 -> reachable env0 s -> search_neighbor (start_step dt s) = Done s1 ->
  cParts s1 !! i = Some p -> enabled p -> cParts s1 !! j = Some q -> enabled q ->
  neighbor_list s1 i = Some l -> neighbor_list s1 j = Some l' ->
  i ∉ l /\ (j ∈ l <-> i ∈ l').
Proof. apply neighbours_symmetric. intros x y. rewrite !dist_edist. apply edist_sym. Qed.

(** In binary64: changing the sign of both factors does not change a rounded product, and [x - y] and
    [y - x] differ only in sign (or are both +0, or NaN). *)
Lemma f64_round_opp s m e : SFopp (binary_round f64_prec f64_emax s m e) = binary_round f64_prec f64_emax (negb s) m e.
Proof.
  unfold binary_round, binary_round_aux. destruct (shl_align _ _ _) as [mz ez].
  destruct (shr_fexp _ _ _ _ _) as [mrs' e']. destruct (shr_fexp _ _ _ _ _) as [mrs'' e''].
  destruct (shr_m mrs''); simpl; try done. by destruct (_ <=? _)%Z.
Qed.
Lemma f64_sub_sq (x y : spec_float) : @nsub F64num x y ×. @nsub F64num x y = @nsub F64num y x ×. @nsub F64num y x.
Proof.
  assert (forall a b : spec_float, b = SFopp a -> SFmul f64_prec f64_emax a a = SFmul f64_prec f64_emax b b) as Hsq.
  { intros a b ->. destruct a as [[]|[]| |[] m e]; done. }
  change (SFmul f64_prec f64_emax (SFsub f64_prec f64_emax x y) (SFsub f64_prec f64_emax x y)
        = SFmul f64_prec f64_emax (SFsub f64_prec f64_emax y x) (SFsub f64_prec f64_emax y x)).
  destruct x as [sx|sx| |sx mx ex], y as [sy|sy| |sy my ey]; try (destruct sx, sy; done); try (destruct sx; done); try (destruct sy; done); try done.
  unfold SFsub. rewrite (Z.min_comm ey ex). set (ez := Z.min ex ey).
  set (a := cond_Zopp sx _). set (b := cond_Zopp sy _).
  destruct (Z.eq_dec (a - b)%Z 0%Z) as [E|E].
  - rewrite E. replace (b - a)%Z with 0%Z by lia. done.
  - apply Hsq. unfold binary_normalize. destruct (a - b)%Z as [|z|z] eqn:Ez; [done| |].
    + replace (b - a)%Z with (Z.neg z) by lia. by rewrite f64_round_opp.
    + replace (b - a)%Z with (Z.pos z) by lia. by rewrite f64_round_opp.
Qed.
Lemma f64_vdot_sym d (x y : vec F64num d) : vdot (x -^ y) (x -^ y) = vdot (y -^ x) (y -^ x).
Proof.
  unfold vdot. generalize (@nofZ F64num 0).
  assert (forall k, (k < dimn d)%nat -> @tget F64num d (x -^ y) k ×. @tget F64num d (x -^ y) k
    = @tget F64num d (y -^ x) k ×. @tget F64num d (y -^ x) k) as H.
  { intros k Hk. unfold vsub. rewrite !tget_tmk by done. apply f64_sub_sq. }
  assert (forall l, (forall k, k ∈ l -> (k < dimn d)%nat) -> forall t : F64num,
    foldl (fun t k => t +. tget d (x -^ y) k ×. tget d (x -^ y) k) t l
    = foldl (fun t k => t +. tget d (y -^ x) k ×. tget d (y -^ x) k) t l) as Hf.
  { induction l as [|k l IH]; intros Hl t; [done|]. cbn [foldl]. rewrite IH by (intros k' Hk'; apply Hl; by right).
    f_equal. f_equal. apply H, Hl. by left. }
  apply Hf. intros k Hk. apply elem_of_seq in Hk. lia.
Qed.
Lemma f64_dist_sym d (x y : vec F64num d) : dist x y = dist y x.
Proof. unfold dist. f_equal. apply f64_vdot_sym. Qed.
Theorem C06_symmetric_binary64 cfg (wm : wallmotion F64num (cDim cfg)) env0 dt (s s1 : computer cfg wm) i j p q l l' :
  square_ground env0 -> reachable env0 s -> search_neighbor (start_step dt s) = Done s1 ->
  cParts s1 !! i = Some p -> enabled p -> cParts s1 !! j = Some q -> enabled q ->
  neighbor_list s1 i = Some l -> neighbor_list s1 j = Some l' ->
  i ∉ l /\ (j ∈ l <-> i ∈ l').
Proof. apply neighbours_symmetric. apply f64_dist_sym. Qed.

(** ** C01, C07, C11, C48: exact arithmetic *)
Section Exact.
  Context {cfg : config} {wm : wallmotion Rnum (cDim cfg)}.
  Notation d := (cDim cfg).
  Notation V := (vec Rnum d).
  Notation part := (particle Rnum d).
  Notation computer := (computer cfg wm).
  Implicit Types (s : computer) (p q : part) (env : environment Rnum cfg).

  Lemma start_geom env0 dt s : square_ground env0 -> reachable env0 s ->
    g_len d (cGrid (start_step dt s)) = eNL env0 /\ g_origin d (cGrid (start_step dt s)) = eMinX env0 /\
    eNL (cEnv (start_step dt s)) = eNL env0 /\ eRe (cEnv (start_step dt s)) = eRe env0.
  Proof.
    intros Hsq Hr. destruct (reachable_geom env0 s Hsq Hr) as (H1 & H2 & H3).
    apply same_constants_fields in H3. simpl. intuition.
  Qed.

  (** C01. *)
  Theorem C01_search_exact env0 dt s s1 i p :
    square_ground env0 -> 0 < eNL env0 -> reachable env0 s ->
    search_neighbor (start_step dt s) = Done s1 -> cParts s1 !! i = Some p -> enabled p ->
    exists l, neighbor_list s1 i = Some l /\ NoDup l /\ forall j, j ∈ l <-> close (eNL env0) s1 i j.
  Proof.
    intros Hsq HNL Hr H Hp Hen. destruct (start_geom env0 dt s Hsq Hr) as (G1 & G2 & G3 & _).
    pose proof (search_searched env0 dt s s1 Hsq Hr H) as S1.
    rewrite <- G3. apply (searched_lists (start_step dt s) s1 i p S1); try done; [by rewrite G1, G3|by rewrite G3].
  Qed.

  Lemma trace_phase dt s s1 s2 s3 s4 s5 s6 s7 s8 :
    step_trace dt s s1 s2 s3 s4 s5 s6 s7 s8 ->
    forall s', s' ∈ [s1; s2; s3; s4; s5; s6; s7; s8] -> phase_rel s1 s'.
  Proof.
    intros [H1 H2 H3 H4 H5 H6 H7 H8].
    assert (phase_rel s1 s2) as P2 by (by apply dens_pr).
    assert (phase_rel s1 s3) as P3.
    { eapply phase_rel_trans; [exact P2|]. destruct (cECS cfg); [by apply ecs_pr|subst; apply phase_rel_refl]. }
    assert (phase_rel s1 s4) as P4 by (eapply phase_rel_trans; [exact P3|]; by apply explicit_pr).
    assert (phase_rel s1 s5) as P5 by (eapply phase_rel_trans; [exact P4|]; by apply dens_pr).
    assert (phase_rel s1 s6) as P6.
    { eapply phase_rel_trans; [exact P5|]. destruct (cDS cfg); [by apply savex_pr|subst; apply phase_rel_refl]. }
    assert (phase_rel s1 s7) as P7 by (eapply phase_rel_trans; [exact P6|]; apply implicit_pr; by rewrite H7).
    assert (phase_rel s1 s8) as P8.
    { eapply phase_rel_trans; [exact P7|]. destruct (cDS cfg); [by apply stabilize_pr|subst; apply phase_rel_refl]. }
    intros s' Hs'. rewrite !elem_of_cons, elem_of_nil in Hs'.
    destruct Hs' as [->|[->|[->|[->|[->|[->|[->|[->|[]]]]]]]]]; try done.
  Qed.
  Lemma phase_type s s' i p' : phase_rel s s' -> cParts s' !! i = Some p' -> exists p, cParts s !! i = Some p /\ pT p' = pT p.
  Proof.
    intros H Hp'. pose proof (pr_types _ _ H) as HT.
    assert ((pT <$> cParts s') !! i = Some (pT p')) as E by (by rewrite list_lookup_fmap, Hp').
    rewrite HT, list_lookup_fmap in E. destruct (cParts s !! i) as [p|]; [|done]. injection E as E. eauto.
  Qed.
  Lemma searched_pos s0 s1 i p : searched s0 s1 -> cParts s1 !! i = Some p -> enabled p -> cParts s0 !! i = Some p.
  Proof. intros H Hp He. apply is_disabled_false in He. by destruct (home_of_enabled s0 s1 i p (se_parts _ _ H) Hp He). Qed.

  (** C01, seen from outside: after a step the list of an enabled particle [i] names exactly the
      enabled particles that were closer to it than NeighborLength when the step began. *)
  Theorem C01_step_lists env0 dt s s' i p' :
    square_ground env0 -> 0 < eNL env0 -> reachable env0 s -> forward_dt dt s = Done s' ->
    cParts s' !! i = Some p' -> enabled p' ->
    exists l, neighbor_list s' i = Some l /\ NoDup l /\
      forall j, j ∈ l <-> i <> j /\ exists p q q', cParts s !! i = Some p /\ cParts s !! j = Some q /\
        cParts s' !! j = Some q' /\ enabled q' /\ edist (pX p) (pX q) < eNL env0.
  Proof.
    intros Hsq HNL Hr H Hp' He. apply forward_Done in H as (s1 & s2 & s3 & s4 & s5 & s6 & s7 & HT).
    assert (phase_rel s1 s') as HP.
    { eapply trace_phase; [exact HT|]. rewrite !elem_of_cons; tauto. }
    pose proof (search_searched env0 dt s s1 Hsq Hr (st_search _ _ _ _ _ _ _ _ _ _ HT)) as S1.
    destruct (phase_type _ _ _ _ HP Hp') as (p & Hp & Ht).
    assert (enabled p) as Hep by (unfold enabled in *; congruence).
    destruct (C01_search_exact env0 dt s s1 i p Hsq HNL Hr (st_search _ _ _ _ _ _ _ _ _ _ HT) Hp Hep) as (l & Hl & Hnd & Hj).
    exists l. split; [by rewrite (neighbor_list_ext s' s1) by (by rewrite (pr_nb _ _ HP))|]. split; [done|].
    intros j. rewrite Hj. unfold close. apply and_iff_compat_l. split.
    - intros (p0 & q & H0 & Hq & Heq & Hd). assert (p0 = p) as -> by congruence.
      assert (exists q', cParts s' !! j = Some q') as [q' Hq'].
      { apply lookup_lt_is_Some_2. change (j < psize s')%nat. rewrite (pr_size _ _ HP). by eapply lookup_lt_Some. }
      exists p, q, q'. split; [by apply (searched_pos _ _ _ _ S1)|]. split; [by apply (searched_pos _ _ _ _ S1)|].
      split; [done|]. destruct (phase_type _ _ _ _ HP Hq') as (q0 & Hq0 & Ht0). split; [|done]. unfold enabled in *. congruence.
    - intros (p0 & q & q' & H0 & Hq & Hq' & Heq' & Hd).
      assert (cParts (start_step dt s) !! i = Some p) as E0 by (by apply (searched_pos _ _ _ _ S1)).
      assert (p0 = p) as -> by (simpl in E0; congruence).
      destruct (phase_type _ _ _ _ HP Hq') as (q0 & Hq0 & Ht0).
      assert (enabled q0) as Heq0 by (unfold enabled in *; congruence).
      assert (cParts (start_step dt s) !! j = Some q0) as E1 by (by apply (searched_pos _ _ _ _ S1)).
      assert (q0 = q) as -> by (simpl in E1; congruence). eauto 10.
  Qed.

  (** ** C11 *)

  Lemma lists_suffice env0 dt s s1 s' :
    square_ground env0 -> 0 < eNL env0 -> reachable env0 s ->
    search_neighbor (start_step dt s) = Done s1 -> phase_rel s1 s' ->
    moved_at_most ((eNL env0 - eRe env0) / 2) s s' -> lists_cover s'.
  Proof.
    intros Hsq HNL Hr HT HP Hm i p' Hp' He'.
    pose proof (search_searched env0 dt s s1 Hsq Hr HT) as S1.
    destruct (phase_type _ _ _ _ HP Hp') as (p & Hp & Ht).
    assert (enabled p) as Hep by (unfold enabled in *; congruence).
    destruct (C01_search_exact env0 dt s s1 i p Hsq HNL Hr HT Hp Hep) as (l & Hl & Hnd & Hj).
    exists l. split; [by rewrite (neighbor_list_ext s' s1) by (by rewrite (pr_nb _ _ HP))|]. split; [done|].
    assert (eRe (cEnv s') = eRe env0) as HRe.
    { rewrite (pr_env _ _ HP), (se_rest _ _ S1). simpl. destruct (start_geom env0 dt s Hsq Hr) as (_ & _ & _ & H). exact H. }
    split.
    - intros j Hjl. apply Hj in Hjl as (Hne & p0 & q & _ & Hq & Heq & _). split; [done|].
      assert (exists q', cParts s' !! j = Some q') as [q' Hq'].
      { apply lookup_lt_is_Some_2. change (j < psize s')%nat. rewrite (pr_size _ _ HP). by eapply lookup_lt_Some. }
      exists q'. split; [done|]. destruct (phase_type _ _ _ _ HP Hq') as (q0 & Hq0 & Ht0). unfold enabled in *. congruence.
    - intros j (Hne & p0 & q' & H0 & Hq' & Heq' & Hd). assert (p0 = p') as -> by congruence. rewrite HRe in Hd.
      destruct (phase_type _ _ _ _ HP Hq') as (q & Hq & Ht0).
      assert (enabled q) as Heq by (unfold enabled in *; congruence).
      apply Hj. split; [done|]. exists p, q. split; [done|]. split; [done|]. split; [done|].
      pose proof (Hm i p p' (searched_pos _ _ _ _ S1 Hp Hep) Hp' He') as M1.
      pose proof (Hm j q q' (searched_pos _ _ _ _ S1 Hq Heq) Hq' Heq') as M2.
      pose proof (edist_triangle (pX p) (pX p') (pX q)). pose proof (edist_triangle (pX p') (pX q') (pX q)).
      rewrite (edist_sym (pX q') (pX q)) in *. lra.
  Qed.

  Lemma phase_midstep env0 dt s s1 s' :
    square_ground env0 -> 0 < eNL env0 -> 0 < eRe env0 -> reachable env0 s ->
    search_neighbor (start_step dt s) = Done s1 -> phase_rel s1 s' ->
    moved_at_most ((eNL env0 - eRe env0) / 2) s s' -> midstep s'.
  Proof.
    intros Hsq HNL HRe Hr HT HP Hm.
    pose proof (search_searched env0 dt s s1 Hsq Hr HT) as S1.
    split.
    - rewrite (pr_env _ _ HP), (se_rest _ _ S1). simpl. destruct (start_geom env0 dt s Hsq Hr) as (_ & _ & _ & H).
      change (0 < eRe (cEnv (start_step dt s))). by rewrite H.
    - by eapply lists_suffice.
    - pose proof (reachable_inv env0 s Hsq Hr) as Hinv. destruct (inv_ok _ _ Hsq Hinv) as [Hwf Hok].
      assert (P_Search.wf s1) as W1 by (eapply wf_searched; [by apply (wf_start dt)|done]).
      apply (wf_nws s'). by eapply wf_phase.
    - pose proof (reachable_inv env0 s Hsq Hr) as Hinv. destruct (inv_ok _ _ Hsq Hinv) as [Hwf Hok].
      assert (P_Search.wf s1) as W1 by (eapply wf_searched; [by apply (wf_start dt)|done]).
      apply (wf_ax s'). by eapply wf_phase.
    - pose proof (reachable_inv env0 s Hsq Hr) as Hinv. destruct (inv_ok _ _ Hsq Hinv) as [Hwf Hok].
      assert (P_Search.wf s1) as W1 by (eapply wf_searched; [by apply (wf_start dt)|done]).
      apply (wf_ab s'). by eapply wf_phase.
  Qed.

  (** At every stage of a step: as long as nothing has moved further than half the margin, the lists
      serve for all interactions. *)
  Theorem C11_lists_suffice env0 dt s s1 s2 s3 s4 s5 s6 s7 s8 s' :
    square_ground env0 -> 0 < eNL env0 -> reachable env0 s ->
    step_trace dt s s1 s2 s3 s4 s5 s6 s7 s8 -> s' ∈ [s1; s2; s3; s4; s5; s6; s7; s8] ->
    moved_at_most ((eNL env0 - eRe env0) / 2) s s' -> lists_cover s'.
  Proof.
    intros Hsq HNL Hr HT Hin Hm. pose proof (trace_phase _ _ _ _ _ _ _ _ _ _ HT s' Hin) as HP.
    by apply (lists_suffice env0 dt s s1 s' Hsq HNL Hr (st_search _ _ _ _ _ _ _ _ _ _ HT) HP Hm).
  Qed.

  (** The same, with the other conditions the following theorems about phases need. *)
  Theorem C11_midstep env0 dt s s1 s2 s3 s4 s5 s6 s7 s8 s' :
    square_ground env0 -> 0 < eNL env0 -> 0 < eRe env0 -> reachable env0 s ->
    step_trace dt s s1 s2 s3 s4 s5 s6 s7 s8 -> s' ∈ [s1; s2; s3; s4; s5; s6; s7; s8] ->
    moved_at_most ((eNL env0 - eRe env0) / 2) s s' -> midstep s'.
  Proof.
    intros Hsq HNL HRe Hr HT Hin Hm. pose proof (trace_phase _ _ _ _ _ _ _ _ _ _ HT s' Hin) as HP.
    by apply (phase_midstep env0 dt s s1 s' Hsq HNL HRe Hr (st_search _ _ _ _ _ _ _ _ _ _ HT) HP Hm).
  Qed.
  (** Likewise for the states before the solver is called, whatever becomes of it. *)
  Theorem C11_before_solver env0 dt s s1 s2 s3 s4 s5 s6 s' :
    square_ground env0 -> 0 < eNL env0 -> 0 < eRe env0 -> reachable env0 s ->
    step_prefix dt s s1 s2 s3 s4 s5 s6 -> s' ∈ [s1; s2; s3; s4; s5; s6] ->
    moved_at_most ((eNL env0 - eRe env0) / 2) s s' -> midstep s'.
  Proof.
    intros Hsq HNL HRe Hr HT Hin Hm. apply (phase_midstep env0 dt s s1 s' Hsq HNL HRe Hr (sp_search _ _ _ _ _ _ _ _ HT)); [|done].
    destruct HT as [_ H2 H3 H4 H5 H6].
    assert (phase_rel s1 s2) as P2 by (by apply dens_pr).
    assert (phase_rel s1 s3) as P3 by (destruct (cECS cfg); [eapply phase_rel_trans; [exact P2|by apply ecs_pr]|by subst]).
    assert (phase_rel s1 s4) as P4 by (eapply phase_rel_trans; [exact P3|by apply explicit_pr]).
    assert (phase_rel s1 s5) as P5 by (eapply phase_rel_trans; [exact P4|by apply dens_pr]).
    assert (phase_rel s1 s6) as P6 by (destruct (cDS cfg); [eapply phase_rel_trans; [exact P5|by apply savex_pr]|by subst]).
    repeat (apply elem_of_cons in Hin as [->|Hin]; [done || apply phase_rel_refl|]). by apply elem_of_nil in Hin.
  Qed.

  (** The margin provided by the constructor is [2 courant R_e]; hence displacements up to
      [courant R_e] - in particular up to MaxDx if l_0 <= R_e - are covered. *)
  Theorem C11_margin maxDt courant g rho nu surf ratio c l_0 minX maxX env :
    new_env cfg (maxDt : Rnum) courant g rho nu surf ratio c l_0 minX maxX = Some env ->
    (eNL env - eRe env) / 2 = courant * eRe env /\ eMaxDx env = courant * eL0 env /\
    (0 <= courant -> eL0 env <= eRe env -> eMaxDx env <= (eNL env - eRe env) / 2).
  Proof.
    unfold new_env. destruct (nceil _); [|done]. destruct (_ || _)%bool; [done|]. intros [= <-]. simpl.
    assert ((ratio * l_0 * (1 + courant * 2) - ratio * l_0) / 2 = courant * (ratio * l_0)) as E by field.
    rewrite E. split; [done|]. split; [done|]. intros Hc Hl. nra.
  Qed.

  (** What it means for the sums: formed over the lists, they equal the sums over all enabled
      particles within R_e (plus the virtual particle's contribution, if there is one). *)
  Theorem C11_sums s i p (f : Z -> part -> R) :
    0 <= eRe (cEnv s) -> lists_cover s -> cParts s !! i = Some p -> enabled p -> is_Some (cNws s !! i) ->
    acc s i (@nofZ Rnum 0) (@nadd Rnum) f =
      Some (close_sum (eRe (cEnv s)) s i (fun j q => f (Z.of_nat j) q) + of_virtual s i p 0 (f (-1)%Z)).
  Proof. apply acc_R. Qed.
  Theorem C11_vector_sums s i p (f : Z -> part -> V) :
    0 <= eRe (cEnv s) -> lists_cover s -> cParts s !! i = Some p -> enabled p -> is_Some (cNws s !! i) ->
    acc s i vzero vadd f =
      Some (close_vsum (eRe (cEnv s)) s i (fun j q => f (Z.of_nat j) q) +^ of_virtual s i p vzero (f (-1)%Z)).
  Proof. apply acc_V. Qed.

  (** ** C07 *)
  Lemma store_all_block l s s' i p :
    store_all l s = Done s' -> i ∈ l -> cParts s !! i = Some p -> enabled p -> is_Some (block_of d (cGrid s) (pX p)).
  Proof.
    revert s; induction l as [|a l IH]; intros s H Hi Hp He; [by apply elem_of_nil in Hi|].
    simpl in H. apply obind_Done in H as (s1 & H1 & H2). unfold store_one in H1.
    destruct (cParts s !! a) as [pa|] eqn:Ea; [|done].
    destruct (decide (i = a)) as [<-|Hne].
    { rewrite Hp in Ea. injection Ea as <-. apply is_disabled_false in He. rewrite He in H1.
      unfold store in H1. destruct (block_of d (cGrid s) (pX p)); [by eexists|done]. }
    apply elem_of_cons in Hi as [Hi|Hi]; [congruence|].
    assert (cParts s1 !! i = Some p /\ block_of d (cGrid s1) (pX p) = block_of d (cGrid s) (pX p)) as [E1 E2].
    { destruct (is_disabled (pT pa)); [by injection H1 as <-|].
      unfold store in H1. destruct (block_of d (cGrid s) (pX pa)) as [b|]; [|done].
      destruct (in_range _ b).
      - destruct (g_data d (cGrid s) !! b); [|done]. destruct (_ <=? _)%nat; [done|]. destruct (_ <? _)%nat; [|done].
        injection H1 as <-. done.
      - injection H1 as <-. simpl. split; [|done]. by rewrite list_lookup_insert_ne. }
    rewrite <- E2. by apply (IH s1).
  Qed.
  Lemma search_block s s' i p :
    search_neighbor s = Done s' -> cParts s !! i = Some p -> enabled p -> is_Some (block_of d (cGrid s) (pX p)).
  Proof.
    unfold search_neighbor. destruct (clear d (cGrid s)) as [g|] eqn:E; [|done]. intros H Hp He.
    apply obind_Done in H as (s1 & H1 & _).
    assert (block_of d g (pX p) = block_of d (cGrid s) (pX p)) as <-.
    { unfold clear in E. destruct (foldM _ _ _); [|done]. simpl in E. injection E as <-. done. }
    eapply (store_all_block _ (with_grid s g)); [exact H1| |done|done]. apply elem_of_seq.
    split; [lia|]. by eapply lookup_lt_Some.
  Qed.

  Lemma in_grid_outside env0 s p :
    square_ground env0 -> reachable env0 s -> 0 < eNL env0 -> is_Some (block_of d (cGrid s) (pX p)) ->
    in_grid (cGrid s) (pX p) = false <-> outside env0 (pX p).
  Proof.
    intros Hsq Hr HNL [b Hb]. pose proof (reachable_inv env0 s Hsq Hr) as Hinv.
    destruct (inv_geom _ _ Hinv) as (g0 & Hg0 & (Hl & Ho & Hs & _)).
    destruct (new_grid_shape _ _ _ _ _ Hg0) as (Hl0 & Ho0 & Hs0 & _).
    assert (length (g_shape d (cGrid s)) = dimn d) as Hlen by (apply (gw_dim _ (wf_grid _ (inv_wf _ _ Hinv)))).
    pose proof (block_length _ _ _ Hb) as Hblen. unfold in_grid. rewrite Hb.
    assert (forall k z n, b !! k = Some z -> g_shape d (cGrid s) !! k = Some n ->
      (~ (0 <= z < n)%Z <-> outside_axis env0 (pX p) k)) as Hax.
    { intros k z n Hz Hn. rewrite Hs in Hn. apply Hs0 in Hn as (Hk & cc & Hc & ->).
      simpl in Hc. apply to_index_Some in Hc as ->.
      pose proof (block_of_lookup _ _ _ _ _ Hb Hz) as ->. rewrite Ho, Ho0, Hl, Hl0. unfold outside_axis.
      set (c := Zceil _). set (xi := (coord (pX p) k - coord (eMinX env0) k) / eNL env0).
      assert (coord (pX p) k = coord (eMinX env0) k + xi * eNL env0) as -> by (unfold xi; field; lra).
      pose proof (Zfloor_lb xi). pose proof (Zfloor_ub xi).
      split.
      - intros Hn. destruct (Z_lt_le_dec (Zfloor xi) 0) as [L|L].
        + left. assert (IZR (Zfloor xi) <= -1) by (apply (IZR_le _ (-1)); lia).
          assert (xi < 0) by lra. nra.
        + right. assert (c + 2 <= Zfloor xi)%Z as L' by lia. apply IZR_le in L'. rewrite plus_IZR in L'. nra.
      - intros [L|L] [L1 L2].
        + apply IZR_le in L1. nra.
        + assert (Zfloor xi + 1 <= c + 2)%Z as L3 by lia. apply IZR_le in L3. rewrite !plus_IZR in L3. nra. }
    split.
    - intros Hf. unfold in_range in Hf.
      assert (exists k z n, b !! k = Some z /\ g_shape d (cGrid s) !! k = Some n /\ ~ (0 <= z < n)%Z) as (k & z & n & Hz & Hn & Hout).
      { clear Hax Hb. revert Hf Hlen. revert Hblen. generalize (dimn d) as D. generalize (g_shape d (cGrid s)) as sh. clear.
        induction b as [|z b IH]; intros [|n sh] [|D] Hb Hf Hl; simpl in *; try done.
        apply andb_false_iff in Hf as [Hf|Hf].
        - exists 0%nat, z, n. split; [done|]. split; [done|]. lia.
        - destruct (IH sh D ltac:(lia) Hf ltac:(lia)) as (k & z' & n' & H1 & H2 & H3). by exists (S k), z', n'. }
      exists k. split; [apply lookup_lt_Some in Hz; lia|]. by eapply Hax.
    - intros (k & Hk & Hout). apply not_true_iff_false. intros Ht. unfold in_range in Ht.
      destruct (lookup_lt_is_Some_2 b k ltac:(lia)) as [z Hz].
      destruct (lookup_lt_is_Some_2 (g_shape d (cGrid s)) k ltac:(lia)) as [n Hn].
      apply (Hax k z n Hz Hn) in Hout. apply Hout.
      rewrite forallb_forall in Ht. specialize (Ht (z, n)). simpl in Ht. rewrite andb_true_iff in Ht.
      assert (In (z, n) (zip b (g_shape d (cGrid s)))) as Hin.
      { apply elem_of_list_In. apply elem_of_list_lookup. exists k. rewrite lookup_zip_with, Hz, Hn. done. }
      specialize (Ht Hin). lia.
  Qed.

  (** C07.  A search leaves everything as it is except that enabled particles outside become disabled. *)
  Theorem C07_disabled_iff_outside env0 dt s s1 i p :
    square_ground env0 -> 0 < eNL env0 -> reachable env0 s ->
    search_neighbor (start_step dt s) = Done s1 -> cParts s !! i = Some p ->
    exists p1, cParts s1 !! i = Some p1 /\
      pX p1 = pX p /\ pU p1 = pU p /\ pP p1 = pP p /\ pN p1 = pN p /\
      (pT p1 = pT p \/ pT p1 = Disabled) /\
      (pT p1 = Disabled <-> pT p = Disabled \/ outside env0 (pX p)).
  Proof.
    intros Hsq HNL Hr H Hp. pose proof (search_searched env0 dt s s1 Hsq Hr H) as S1.
    exists (leave (cGrid s) p). split; [by rewrite (se_parts _ _ S1), list_lookup_fmap; simpl; rewrite Hp|].
    unfold leave. destruct (is_disabled (pT p)) eqn:E.
    { apply is_disabled_true in E. rewrite E. repeat split; eauto. }
    apply is_disabled_false in E. pose proof (search_block _ _ i p H Hp E) as Hb.
    pose proof (in_grid_outside env0 s p Hsq Hr HNL Hb) as Ho.
    destruct (in_grid (cGrid s) (pX p)).
    - do 4 (split; [done|]). split; [by left|]. split; [by intros|]. intros [?|Hout]; [done|].
      apply Ho in Hout. done.
    - simpl. do 4 (split; [done|]). split; [by right|]. split; [|done]. intros _. right. by apply Ho.
  Qed.
  (** The same for a whole step, however it ends after the search. *)
  Theorem C07_step env0 dt s s' i p p' :
    square_ground env0 -> 0 < eNL env0 -> reachable env0 s -> forward_dt dt s = Done s' ->
    cParts s !! i = Some p -> cParts s' !! i = Some p' ->
    (pT p' = pT p \/ pT p' = Disabled) /\ (pT p' = Disabled <-> pT p = Disabled \/ outside env0 (pX p)).
  Proof.
    intros Hsq HNL Hr H Hp Hp'. apply forward_Done in H as (s1 & s2 & s3 & s4 & s5 & s6 & s7 & HT).
    assert (phase_rel s1 s') as HP.
    { eapply trace_phase; [exact HT|]. rewrite !elem_of_cons; tauto. }
    destruct (C07_disabled_iff_outside env0 dt s s1 i p Hsq HNL Hr (st_search _ _ _ _ _ _ _ _ _ _ HT) Hp)
      as (p1 & Hp1 & _ & _ & _ & _ & Ht & Hd).
    destruct (phase_type _ _ _ _ HP Hp') as (p2 & Hp2 & ->). assert (p2 = p1) as -> by congruence. done.
  Qed.

  (** The reading "disabled iff outside [MinX, MaxX]" is wrong: up to two further NeighborLengths beyond the
      upper corner the particle stays as it is. *)
  Theorem C07_upper_margin env0 dt s s1 i p :
    square_ground env0 -> 0 < eNL env0 -> reachable env0 s ->
    search_neighbor (start_step dt s) = Done s1 -> cParts s !! i = Some p -> enabled p ->
    (forall k, (k < dimn d)%nat -> coord (eMinX env0) k <= coord (pX p) k < coord (eMaxX env0) k + 2 * eNL env0) ->
    cParts s1 !! i = Some p.
  Proof.
    intros Hsq HNL Hr H Hp Hen Hin.
    destruct (C07_disabled_iff_outside env0 dt s s1 i p Hsq HNL Hr H Hp) as (p1 & Hp1 & HX & HU & HP & HN & Ht & Hd).
    rewrite Hp1. f_equal. destruct Ht as [Ht|Ht].
    - destruct p, p1; simpl in *; congruence.
    - exfalso. apply Hd in Ht as [Ht|(k & Hk & Hout)]; [done|]. specialize (Hin k Hk). unfold outside_axis in Hout.
      pose proof (Zceil_ub ((coord (eMaxX env0) k - coord (eMinX env0) k) / eNL env0)) as Hc.
      set (c := IZR (Zceil _)) in *. apply (Rmult_le_compat_r (eNL env0)) in Hc; [|lra].
      unfold Rdiv in Hc. rewrite Rmult_assoc, Rinv_l in Hc by lra. destruct Hout as [?|Hout]; [lra|].
      rewrite Rmult_plus_distr_r in Hout. lra.
  Qed.

  (** ** C48 *)

  Lemma length_all_keys (n : nat) (m : nat) : length (all_keys (replicate n (Z.of_nat m))) = (m ^ n)%nat.
  Proof.
    induction n as [|n IH]; [done|]. simpl. rewrite Nat2Z.id.
    assert (forall l : list Z, length (l ≫= (fun i => all_keys (replicate n (Z.of_nat m)) ≫= (fun l => [i :: l])))
       = (length l * m ^ n)%nat) as H; [|by rewrite H, map_length, seq_length].
    induction l as [|z l IHl]; [done|]. csimpl. rewrite app_length. etransitivity; [apply (f_equal (Nat.add _)), IHl|]. f_equal. rewrite <- IH.
    generalize (all_keys (replicate n (Z.of_nat m))). induction l0 as [|k l0 IH0]; [done|]. csimpl. f_equal. apply IH0.
  Qed.

  Theorem C48_lattice_never_overflows env0 dt s a l :
    square_ground env0 -> reachable env0 s -> 0 < eNL env0 -> 0 < eL0 env0 -> eL0 env0 <= l -> on_lattice a l s ->
    forall e s1, search_neighbor (start_step dt s) <> Throw e s1.
  Proof.
    intros Hsq Hr HNL Hl0 Hl (z & Hz & Hinj) e s1 Ht.
    pose proof (reachable_inv env0 s Hsq Hr) as Hinv. destruct (inv_ok _ _ Hsq Hinv) as [Hwf Hok].
    pose proof (search_spec (start_step dt s) (wf_start dt s Hwf) Hok) as S1. rewrite Ht in S1.
    destruct S1 as (_ & _ & _ & m & b & _ & Hcap & _). simpl cGrid in Hcap. simpl cParts in Hcap.
    destruct (inv_geom _ _ Hinv) as (g0 & Hg0 & (Hlen & Ho & Hs & Hc)).
    destruct (new_grid_shape _ _ _ _ _ Hg0) as (Hlen0 & Ho0 & Hs0 & (mm & Hm & Hc0)).
    simpl in Hm. apply to_index_Some in Hm. rewrite Hc, Hc0 in Hcap.
    (* lowest lattice index that can lie in block b, axis k *)
    set (low k := Zceil ((coord (eMinX env0) k + IZR (nth k b 0%Z) * eNL env0 - coord a k) / l)).
    assert (0 < eNL env0 / eL0 env0) as Hq by (apply Rdiv_lt_0_compat; lra).
    assert (0 < mm)%Z as Hmm.
    { rewrite Hm. apply lt_IZR. pose proof (Zceil_ub (eNL env0 / eL0 env0)). simpl. lra. }
    set (js := bfilter (fun j => home (cGrid s) (cParts s) j b) (seq 0 (psize (start_step dt s)))) in *.
    set (key j := map (fun k => (z j k - low k)%Z) (seq 0 (dimn d))).
    assert (NoDup js) as Hnd by (apply NoDup_filter, NoDup_seq).
    assert (forall j, j ∈ js -> exists p, cParts s !! j = Some p /\ enabled p /\ block_of d (cGrid s) (pX p) = Some b) as Hjs.
    { intros j Hj. apply elem_of_bfilter in Hj as [Hj _]. apply home_Some in Hj as (p & Hp & Hd & Hb & _).
      exists p. split; [done|]. split; [by apply is_disabled_false|done]. }
    assert (NoDup (map key js)) as Hndk.
    { apply NoDup_fmap_2_strong; [|done]. intros i j Hi Hj Hk.
      destruct (Hjs i Hi) as (p & Hp & Hep & _). destruct (Hjs j Hj) as (q & Hq' & Heq & _).
      apply (Hinj i j p q); try done. intros k Hkd.
      assert (key i !! k = key j !! k) as E by (by rewrite Hk). unfold key in E.
      rewrite !list_lookup_fmap, !(proj2 (lookup_seq 0 (dimn d) k k)) in E by lia. simpl in E. injection E. lia. }
    assert (forall kk, kk ∈ map key js -> kk ∈ all_keys (replicate (dimn d) mm)) as Hsub.
    { intros kk Hkk. apply elem_of_list_fmap in Hkk as (j & -> & Hj). destruct (Hjs j Hj) as (p & Hp & Hep & Hb).
      apply elem_of_all_keys. split; [unfold key; by rewrite map_length, seq_length, replicate_length|].
      unfold in_range. apply forallb_forall. intros [v n] Hin. apply elem_of_list_In, elem_of_list_lookup in Hin as (k & Hk).
      rewrite lookup_zip_with in Hk. unfold key in Hk. rewrite list_lookup_fmap in Hk.
      destruct (seq 0 (dimn d) !! k) as [k'|] eqn:Ek; [|done]. apply lookup_seq in Ek as [-> Hkd]. simpl in Hk.
      rewrite lookup_replicate_2 in Hk by done. simpl in Hk. injection Hk as <- <-. simpl.
      destruct (lookup_lt_is_Some_2 b k) as [zz Hzz]; [rewrite (block_length _ _ _ Hb); done|].
      pose proof (block_of_lookup _ _ _ _ _ Hb Hzz) as Hfl. rewrite Ho, Ho0, Hlen, Hlen0 in Hfl.
      unfold low. rewrite (nth_lookup_Some b k 0%Z zz Hzz). rewrite (Hz j p k Hp Hep Hkd) in Hfl.
      set (xi := (coord a k + l * IZR (z j k) - coord (eMinX env0) k) / eNL env0) in *.
      pose proof (Zfloor_lb xi) as L1. pose proof (Zfloor_ub xi) as L2. rewrite <- Hfl in L1, L2.
      set (A := (coord (eMinX env0) k + IZR zz * eNL env0 - coord a k) / l).
      assert (l * IZR (z j k) = xi * eNL env0 + coord (eMinX env0) k - coord a k) as Ez by (unfold xi; field; lra).
      assert (A * l = coord (eMinX env0) k + IZR zz * eNL env0 - coord a k) as EA by (unfold A; field; lra).
      assert (A <= IZR (z j k)) as B1 by nra.
      assert (IZR (z j k) < A + IZR mm) as B2.
      { pose proof (Zceil_ub (eNL env0 / eL0 env0)) as Hu. rewrite <- Hm in Hu.
        assert (eNL env0 <= IZR mm * eL0 env0) as Hu'.
        { apply (Rmult_le_reg_r (/ eL0 env0)); [by apply Rinv_0_lt_compat|]. rewrite Rmult_assoc, Rinv_r by lra. unfold Rdiv in Hu. lra. }
        assert (0 < IZR mm) by (by apply IZR_lt).
        assert (IZR mm * eL0 env0 <= IZR mm * l) by nra. nra. }
      assert (Zceil A <= z j k)%Z by (by apply Zceil_glb).
      assert (z j k < Zceil A + mm)%Z.
      { apply lt_IZR. rewrite plus_IZR. pose proof (Zceil_ub A). lra. }
      apply andb_true_iff. lia. }
    assert (length js <= Z.to_nat mm ^ dimn d)%nat as Hle.
    { rewrite <- (map_length key js), <- length_all_keys. rewrite Z2Nat.id by lia. apply submseteq_length.
      by apply NoDup_submseteq. }
    assert (Z.to_nat mm ^ dimn d <= Z.to_nat ((mm + 1) ^ Z.of_nat (dimn d)))%nat as Hcle.
    { apply Nat2Z.inj_le. rewrite Nat2Z.inj_pow, !Z2Nat.id by (try apply Z.pow_nonneg; lia).
      apply Z.pow_le_mono_l. lia. }
    lia.
  Qed.
End Exact.

(** Property theorems: the order of the solver's sums (C76). *)
From Verif Require Import S_Terms.
From Verif Require Import P_Reach P_Search P_Step S_Grid T_Grid S_Real S_Ppe T_Solve S_Outcome T_Outcome S_Red P_Red.

Section Any.
  Context {N : num} {cfg : config} {wm : wallmotion N (cDim cfg)}.
  Notation d := (cDim cfg).
  Notation part := (particle N d).
  Notation computer := (computer cfg wm).
  Implicit Types (s : computer) (dt : N) (p : part).

  (** C76.  Adding up from left to right is one of the orders: the outcome of the sequential program is possible. *)
  Theorem C76_sequential dt s : red_forward_dt dt s (forward_dt dt s) /\ red_forward s (forward s).
  Proof.
    assert (forall dt, red_forward_dt dt s (forward_dt dt s)) as H; [|split; [apply H|]].
    - clear dt. intros dt. apply red_iff. rewrite forward_before. unfold forward_as, allowed.
      destruct (before dt s) as [s6|e s6|] eqn:E; simpl; [|by exists ([], false)..].
      unfold compute_implicit, implicit_as. destruct (cExplicit cfg) eqn:Hx; [by exists ([], false)|].
      destruct (set_ppe s6) as [t|] eqn:Et; simpl.
      + exists (cg_solve (cA t) (cXv t) (cBv t) (cEps t)). split; [by rewrite <- solve_solved|].
        intros s6' t' [= <-] _ Ht. rewrite Et in Ht. injection Ht as <-. apply cg_solve_some.
      + exists ([], false). split; [done|]. intros s6' t' [= <-] _ Ht. by rewrite Et in Ht.
    - unfold red_forward, forward. destruct (determine_dt s); [apply H|done].
  Qed.

  (** C76.  Two possible outcomes of the same call differ in nothing but the pressures of fluid and wall particles and the
      positions and velocities of fluid particles. *)
  Theorem C76_same_elsewhere dt s s1 s2 :
    red_forward_dt dt s (Done s1) -> red_forward_dt dt s (Done s2) ->
    cEnv s1 = cEnv s2 /\ cWall s1 = cWall s2 /\ length (cParts s1) = length (cParts s2) /\
    forall i p1 p2, cParts s1 !! i = Some p1 -> cParts s2 !! i = Some p2 ->
      pT p1 = pT p2 /\ pN p1 = pN p2 /\
      (pT p1 <> Newton -> pX p1 = pX p2 /\ pU p1 = pU p2) /\
      (pT p1 = Dummy \/ pT p1 = Disabled \/ cExplicit cfg = true -> pP p1 = pP p2).
  Proof.
    intros (res1 & H1 & Ha1)%red_iff (res2 & H2 & Ha2)%red_iff. symmetry in H1, H2.
    assert (exists s6, before dt s = Done s6) as [s6 H6].
    { unfold forward_as in H1. destruct (before dt s); [eauto|done|done]. }
    destruct (before_final dt s s6) as [(? & _ & ?)|(t1 & Ht1 & _ & Hpr)]; [by rewrite H6|congruence|].
    destruct (forward_as_final res1 dt s s1 Ha1) as [(? & ?)|(t1' & Ht1' & Hp1)]; [by rewrite H1|congruence|].
    destruct (forward_as_final res2 dt s s2 Ha2) as [(? & ?)|(t2' & Ht2' & Hp2)]; [by rewrite H2|congruence|].
    rewrite Ht1 in Ht1', Ht2'. injection Ht1' as <-. injection Ht2' as <-.
    assert (cWall s1 = cWall s6 /\ cWall s2 = cWall s6) as [W1 W2].
    { split; by eapply late_wall. }
    split; [by rewrite (pr_env _ _ Hp1), (pr_env _ _ Hp2)|]. split; [congruence|].
    split; [by rewrite <- (fmap_length pT (cParts s1)), <- (fmap_length pT (cParts s2)), (pr_types _ _ Hp1), (pr_types _ _ Hp2)|].
    intros i p1 p2 Hi1 Hi2.
    assert (exists p6, cParts s6 !! i = Some p6) as [p6 Hi6].
    { apply lookup_lt_is_Some_2. apply lookup_lt_Some in Hi1. rewrite <- (fmap_length pT), (pr_types _ _ Hpr), <- (pr_types _ _ Hp1), fmap_length. done. }
    destruct (late_particle res1 dt s s6 s1 i p6 H1 H6 Hi6) as (_ & _ & p1' & Hi1' & T1 & N1 & M1 & P1).
    destruct (late_particle res2 dt s s6 s2 i p6 H2 H6 Hi6) as (_ & _ & p2' & Hi2' & T2 & N2 & M2 & P2).
    rewrite Hi1 in Hi1'. injection Hi1' as <-. rewrite Hi2 in Hi2'. injection Hi2' as <-.
    split; [congruence|]. split; [congruence|]. split.
    - intros Hn. rewrite T1 in Hn. destruct (M1 Hn) as [-> ->], (M2 Hn) as [-> ->]. done.
    - rewrite T1. destruct (cExplicit cfg); [congruence|]. intros [HT|[HT|?]]; [| |done]; rewrite HT in P1, P2; simpl in P1, P2; congruence.
  Qed.

  (** C76.  In every outcome: time advances by [dt], walls and dummies are where and as fast as the callbacks prescribe, types
      are kept or become Disabled, and in the build that solves for the pressure no pressure of a fluid or wall particle
      is negative. *)
  Theorem C76_every_outcome dt s s' :
    red_forward_dt dt s (Done s') ->
    let t := eT (cEnv s) +. dt in
    let w := wPre wm (cWall s) t dt in
    eT (cEnv s') = t /\ eDt (cEnv s') = dt /\ same_constants (cEnv s) (cEnv s') /\
    cWall s' = w /\ length (cParts s') = length (cParts s) /\
    forall i p p', cParts s !! i = Some p -> cParts s' !! i = Some p' ->
      (pT p' = pT p \/ pT p' = Disabled) /\
      (pT p' <> Newton -> pX p' = wPos wm w i t dt /\ pU p' = (pX p' -^ pX p) /^ dt) /\
      (cExplicit cfg = false ->
        (pT p' <> Dummy /\ pT p' <> Disabled -> pP p' = nofZ 0 \/ (pP p' <?. nofZ 0) = false) /\
        (pT p' = Dummy \/ pT p' = Disabled -> pP p' = pP p)).
  Proof.
    intros (res & H & Ha)%red_iff t w. symmetry in H.
    assert (exists s6, before dt s = Done s6) as [s6 H6].
    { unfold forward_as in H. destruct (before dt s); [eauto|done|done]. }
    destruct (forward_as_final res dt s s' Ha) as [(? & He)|(t1 & Ht1 & Hp1)]; [by rewrite H| |].
    { destruct (before_final dt s s6) as [(? & _ & ?)|(? & ? & _)]; [by rewrite H6|congruence|congruence]. }
    assert (search_rel (start_step dt s) t1) as [Er F] by (apply search_frame; by rewrite Ht1).
    assert (cEnv s' = set_next_t (set_dt dt (cEnv s))) as Henv by (rewrite (pr_env _ _ Hp1), Er; done).
    rewrite Henv. split; [done|]. split; [done|]. split; [by destruct (cEnv s)|].
    split; [rewrite (late_wall _ _ _ _ _ H H6); by apply before_wall|].
    split. { rewrite <- (fmap_length pT (cParts s')), (pr_types _ _ Hp1), fmap_length. symmetry. by apply Forall2_length in F. }
    intros i p p' Hp Hp'.
    destruct (before_particle dt s s6 i p H6 Hp) as (W6 & _ & p6 & Hp6 & HT6 & HP6 & Hm).
    destruct (late_particle res dt s s6 s' i p6 H H6 Hp6) as (W' & _ & q & Hq & HT & HN & HM & HP).
    rewrite Hp' in Hq. injection Hq as <-. split; [rewrite HT; destruct HT6; auto|].
    split.
    - rewrite HT. intros Hn. destruct (HM Hn) as [-> ->], (Hm Hn) as [-> ->]. done.
    - intros Hx. rewrite Hx in HP. rewrite HT. split.
      + intros [A B]. rewrite (proj2 (is_active_true (pT p6)) (conj B A)) in HP. done.
      + intros [E|E]; rewrite E in HP; simpl in HP; congruence.
  Qed.

  (** ** Histories *)
  Lemma red_api_inv env0 o s r : square_ground env0 -> inv env0 s -> red_api o s r ->
    match r with Done s' | Throw _ s' => inv env0 s' | Undef => True end.
  Proof.
    intros Hsq Hinv H. pose proof (inv_ok _ _ Hsq Hinv) as Hok.
    assert (forall dt, red_forward_dt dt s r -> match r with Done s' | Throw _ s' => inv env0 s' | Undef => True end) as HF.
    { intros dt (res & -> & Ha)%red_iff.
      assert (forall s', final (forward_as res dt s) = Some s' -> inv env0 s') as HI.
      { intros s' Hf. destruct (ok_forward_as res dt s s' Hok Ha Hf) as ([Hwf _] & Hg & He).
        split; [done|eapply geom_for_trans; [apply Hinv|done]|].
        rewrite He. pose proof (inv_env _ _ Hinv) as Hc. unfold same_constants in *. rewrite Hc. done. }
      destruct (forward_as res dt s) as [s'|e s'|]; [by apply HI|by apply HI|done]. }
    destruct o as [src|dt|]; simpl in H.
    - unfold seqly in H. subst r. destruct (ok_add src s Hok) as [Hwf _]. split; [done|apply Hinv|apply Hinv].
    - by apply (HF dt).
    - unfold red_forward in H. destruct (determine_dt s) as [dt|]; [by apply (HF dt)|by subst].
  Qed.
  Lemma red_reachable_inv env0 s : square_ground env0 -> red_reachable env0 s -> inv env0 s.
  Proof.
    intros Hsq. induction 1 as [eps w s H|o s s' _ IH H|o s s' e _ IH H].
    - by eapply reachable_inv; [|eapply reach_new].
    - by apply (red_api_inv env0 o s (Done s')).
    - by apply (red_api_inv env0 o s (Throw e s')).
  Qed.

  (** C76.  Whatever the orders of the sums in the calls before and in this one: the step throws the grid exception iff a block
      would get more particles than it can take; otherwise it completes or - only in builds that solve for the pressure -
      reports that the solver failed. *)
  Theorem C76_outcome env0 dt s r :
    square_ground env0 -> red_reachable env0 s -> locatable env0 s -> red_forward_dt dt s r ->
    (crowded env0 s /\ exists s', r = Throw TooManyParticles s') \/
    (~ crowded env0 s /\ ((exists s', r = Done s') \/ (cExplicit cfg = false /\ exists s', r = Throw CgNotConverged s'))).
  Proof.
    intros Hsq Hr Hloc (res & -> & Ha)%red_iff. pose proof (red_reachable_inv env0 s Hsq Hr) as Hinv.
    pose proof (inv_ok _ _ Hsq Hinv) as Hok.
    destruct (search_outcome_inv env0 dt s Hsq Hinv Hloc) as [[Hc [s1 E]]|[Hc [s1 E]]].
    - left. split; [done|]. exists s1. unfold forward_as, before. by rewrite E.
    - right. split; [done|]. by apply (forward_as_ends res dt s s1).
  Qed.

  (** C76.  No call has undefined behaviour, except [ForwardTime()] without particles and positions whose block number does
      not fit the index type (as C09). *)
  Theorem C76_no_out_of_bounds env0 (o : api cfg) s :
    square_ground env0 -> red_reachable env0 s -> red_api o s Undef ->
    (o = ForwardTime cfg /\ cParts s = []) \/
    (exists i p k, cParts s !! i = Some p /\ enabled p /\ (k < dimn d)%nat /\
       nfloor ((tget d (pX p) k -. tget d (eMinX env0) k) /. eNL env0) = None).
  Proof.
    intros Hsq Hr Hu. pose proof (red_reachable_inv env0 s Hsq Hr) as Hinv. pose proof (inv_ok _ _ Hsq Hinv) as Hok.
    assert (forall dt, red_forward_dt dt s Undef -> exists i p k, cParts s !! i = Some p /\ enabled p /\ (k < dimn d)%nat /\
       nfloor ((tget d (pX p) k -. tget d (eMinX env0) k) /. eNL env0) = None) as Hfw.
    { intros dt (res & Hd & Ha)%red_iff. destruct Hok as [Hwf Hok].
      pose proof (search_spec (start_step dt s) (wf_start dt s Hwf) Hok) as HS.
      destruct (search_neighbor (start_step dt s)) as [s1|e s1|] eqn:E.
      - exfalso. destruct (forward_as_ends res dt s s1 (conj Hwf Hok) Ha E) as [[s' H]|(_ & s' & H)]; congruence.
      - exfalso. unfold forward_as, before in Hd. rewrite E in Hd. done.
      - destruct HS as [(i & p & Hp & HT & Hb) _]. simpl in Hp, Hb.
        destruct (inv_geom _ _ Hinv) as (g0 & Hg0 & (Hl & Ho & _)).
        destruct (new_grid_shape _ _ _ _ _ Hg0) as (Hl0 & Ho0 & _).
        unfold block_of in Hb. apply mapM_None, List.Exists_exists in Hb as (k & Hk & Hb).
        apply elem_of_list_In, elem_of_seq in Hk. exists i, p, k. split; [done|]. split; [by apply is_disabled_false|]. split; [lia|].
        unfold block_axis, floor_div in Hb. by rewrite Ho, Ho0, Hl, Hl0 in Hb. }
    destruct o as [src|dt|]; simpl in Hu; [done|right; by eapply Hfw|].
    unfold red_forward in Hu. destruct (determine_dt s) eqn:E; [right; by eapply Hfw|].
    left. split; [done|]. unfold determine_dt in E. by destruct (cParts s).
  Qed.
End Any.

(** ** Exact arithmetic *)
Open Scope R_scope.
Lemma rfold_plus (l : list R) a : foldl Rplus a l = a + foldl Rplus 0 l.
Proof.
  revert a. induction l as [|x l IH]; intros a; simpl; [lra|]. rewrite IH, (IH (0 + x)). lra.
Qed.
Lemma rfold_app (l l' : list R) : foldl Rplus 0 (l ++ l') = foldl Rplus 0 l + foldl Rplus 0 l'.
Proof. rewrite foldl_app. apply rfold_plus. Qed.
Lemma rfold_perm (l l' : list R) : l ≡ₚ l' -> foldl Rplus 0 l = foldl Rplus 0 l'.
Proof.
  induction 1; simpl; [done|rewrite !(rfold_plus _ (0 + _)); lra|f_equal; lra|congruence].
Qed.
Lemma some_sum (l : list Rnum) v : sum_in_some_order (N := Rnum) l v -> v = foldl Rplus 0 l.
Proof.
  induction 1 as [|x|xs ys zs a b _ IH1 _ IH2 HP]; [done|simpl; symmetry; apply Rplus_0_l|].
  rewrite (rfold_perm _ _ HP). rewrite rfold_app. rewrite <- IH1, <- IH2. done.
Qed.
Lemma some_ldot (a b : list Rnum) v : some_dot (N := Rnum) a b v -> v = ldot a b.
Proof. intros H. apply some_sum in H. rewrite (ldot_fold (N := Rnum)). exact H. Qed.
Lemma some_loop_exact (A : list (@mrow Rnum)) r0 fuel x r p rr res :
  some_cg_loop (N := Rnum) A r0 fuel x r p rr res -> res = cg_loop A r0 fuel x r p rr.
Proof.
  induction 1 as [x r p rr|fuel x r p rr pAp rrN Hd al x' r' Hr Hc|fuel x r p rr pAp rrN res Hd al x' r' Hr Hc be _ IH]; [done| |].
  - apply some_ldot in Hd. apply some_ldot in Hr. cbn [cg_loop]. cbv zeta. unfold x', r', al in *. rewrite Hd in *. rewrite <- Hr, Hc. done.
  - apply some_ldot in Hd. apply some_ldot in Hr. cbn [cg_loop]. cbv zeta. unfold x', r', al, be in *. rewrite Hd in *. rewrite <- Hr, Hc. done.
Qed.
Lemma some_solve_exact (A : list (@mrow Rnum)) x b eps res :
  some_cg_solve (N := Rnum) A x b eps res -> res = cg_solve A x b eps.
Proof.
  intros [rr res' r Hd r0 H]. apply some_ldot in Hd. unfold cg_solve, r0, r in *. rewrite Hd in *. destruct (_ =?. _); [done|].
  by apply some_loop_exact.
Qed.

(** C76.  In exact arithmetic the order does not matter: the outcome is that of the sequential program. *)
Theorem C76_exact cfg (wm : wallmotion Rnum (cDim cfg)) (dt : R) (s : computer cfg wm) r :
  (red_forward_dt (dt : Rnum) s r <-> r = forward_dt (dt : Rnum) s) /\ (red_forward s r <-> r = forward s).
Proof.
  assert (forall dt : Rnum, red_forward_dt dt s r <-> r = forward_dt dt s) as H; [|split; [apply H|]].
  - clear dt. intros dt. split; [|intros ->; apply C76_sequential].
    intros (res & -> & Ha)%red_iff. rewrite forward_before. unfold forward_as, allowed in *.
    destruct (before dt s) as [s6|e s6|] eqn:E; simpl; [|done|done]. unfold compute_implicit, implicit_as.
    destruct (cExplicit cfg); [done|]. destruct (set_ppe s6) as [t|] eqn:Et; simpl; [|done].
    specialize (Ha s6 t eq_refl eq_refl Et). apply some_solve_exact in Ha as ->. by rewrite <- solve_solved.
  - unfold red_forward, forward. destruct (determine_dt s); [apply H|done].
Qed.
Theorem C76_exact_histories cfg (wm : wallmotion Rnum (cDim cfg)) env0 (s : computer cfg wm) :
  red_reachable env0 s <-> reachable env0 s.
Proof.
  assert (forall (o : api (N := Rnum) cfg) (s : computer cfg wm) r, red_api o s r <-> r = api_step o s) as HA.
  { intros o s0 r. destruct o as [src|dt|]; simpl; [done|apply C76_exact|]. by apply (C76_exact cfg wm 0 s0 r). }
  split.
  - induction 1 as [eps w s H|o s s' _ IH H|o s s' e _ IH H].
    + by eapply reach_new.
    + eapply reach_done; [done|]. symmetry. by apply HA.
    + eapply reach_throw; [done|]. symmetry. by apply HA.
  - induction 1 as [eps w s H|o s s' _ IH H|o s s' e _ IH H].
    + by eapply red_new.
    + eapply red_done; [done|]. by apply HA.
    + eapply red_throw; [done|]. by apply HA.
Qed.

(** Property theorems: rest is preserved (C60). *)
From Coq Require Import ZifyBool.
From Verif Require Import P_Force S_Rest S_Main T_Stab T_Env T_Main S_Outcome T_Outcome.
Open Scope R_scope.

Section Zero.
  Context {cfg : config} {wm : wallmotion Rnum (cDim cfg)}.
  Notation d := (cDim cfg).
  Notation V := (vec Rnum d).
  Notation part := (particle Rnum d).
  Notation computer := (computer cfg wm).
  Implicit Types (s : computer) (p q : part).

  Lemma zero_plus (x y : R) : (0 + 0) / x * y = 0.
  Proof. unfold Rdiv. ring. Qed.
  Lemma zero_minus (x y : R) : (0 - 0) / x * y = 0.
  Proof. unfold Rdiv. ring. Qed.
  (** Sums of nothing. *)
  Lemma acc_zero_R s i p (f : Z -> part -> Rnum) :
    P_Search.wf s -> cParts s !! i = Some p ->
    (forall j q, cParts s !! j = Some q -> f (Z.of_nat j) q = 0) ->
    (forall x, f (-1)%Z (spp_particle p x) = 0) ->
    acc s i (@nofZ Rnum 0) (@nadd Rnum) f = Some (0 : Rnum).
  Proof.
    intros HW Hp Hf Hv. destruct (acc_ind s i (@nofZ Rnum 0) (@nadd Rnum) f (fun a => a = 0)) as (a & E & Ha).
    - done.
    - by eapply lookup_lt_Some.
    - done.
    - intros a j q -> Hq. rewrite (Hf j q Hq). simpl. lra.
    - intros _ a p' x -> Hp'. rewrite Hp in Hp'. injection Hp' as <-. rewrite Hv. simpl. lra.
    - by rewrite E, Ha.
  Qed.
  Lemma acc_zero_V s i p (f : Z -> part -> V) :
    P_Search.wf s -> cParts s !! i = Some p ->
    (forall j q, cParts s !! j = Some q -> f (Z.of_nat j) q = vzero) ->
    (forall x, f (-1)%Z (spp_particle p x) = vzero) ->
    acc s i vzero vadd f = Some vzero.
  Proof.
    intros HW Hp Hf Hv. destruct (acc_ind s i vzero vadd f (fun a => a = vzero)) as (a & E & Ha).
    - done.
    - by eapply lookup_lt_Some.
    - done.
    - intros a j q -> Hq. rewrite (Hf j q Hq). apply vadd_0_r.
    - intros _ a p' x -> Hp'. rewrite Hp in Hp'. injection Hp' as <-. rewrite Hv. apply vadd_0_r.
    - by rewrite E, Ha.
  Qed.
  Lemma vdiv_zero (c : R) : (vzero : V) /^ (c : Rnum) = vzero.
  Proof. apply coord_ext. intros k Hk. rewrite coord_div, coord_zero by done. unfold Rdiv. ring. Qed.
  Lemma vscalr_zero (c : R) : vscalr (vzero : V) (c : Rnum) = vzero.
  Proof. apply coord_ext. intros k Hk. rewrite coord_scalr, coord_zero by done. ring. Qed.

  (** All velocities are zero. *)
  Definition still s : Prop := forall i p, cParts s !! i = Some p -> pU p = vzero.
  Definition unpressed s : Prop := forall i p, cParts s !! i = Some p -> pP p = 0.

  Lemma speed_still s i p : P_Search.wf s -> cHS cfg = true -> still s -> cParts s !! i = Some p -> density_speed s i = Some (0 : Rnum).
  Proof.
    intros HW HH Hs Hp. unfold density_speed. rewrite Hp, HH. cbn [mbind option_bind].
    assert (forall j q, pU q = vzero -> speed_func cfg (pX p) (pU p) j q = 0) as Hz.
    { intros j q Hq. unfold speed_func. rewrite Hq, (Hs i p Hp), vsub_self. cbv zeta. rewrite vdot_inner, inner_zero_r.
      apply Rmult_0_l. }
    rewrite (acc_zero_R s i p); [|done|done| |].
    - cbn [mbind option_bind]. assert (nopp (eRe (cEnv s)) ×. (0 : Rnum) = (0 : Rnum)) as -> by apply Rmult_0_r.
      destruct (cSPP cfg); [|done]. destruct (lookup_lt_is_Some_2 (cNws s) i) as [n Hn].
      { rewrite (wf_nws s HW). by eapply lookup_lt_Some. }
      rewrite Hn. cbn [mbind option_bind]. by destruct (_ <?. _).
    - intros j q Hq. apply Hz. by eapply Hs.
    - intros x. apply Hz. cbn. by eapply Hs.
  Qed.
  Lemma gravity_zero (env : environment Rnum cfg) (x : V) : eG env = vzero -> gravity env x = vzero.
  Proof.
    intros HG. unfold gravity. rewrite HG. destruct (cCentral cfg); [|done]. cbv zeta.
    assert (tget d (vzero : V) (axis_z d) = (0 : Rnum)) as ->.
    { apply (coord_zero (d := d)). assert (forall d0, (axis_z d0 < dimn d0)%nat) as E by (intros []; unfold axis_z; simpl; lia). apply E. }
    apply vscal_0.
  Qed.
  Lemma explicit_still s s' i p : P_Search.wf s -> still s -> eG (cEnv s) = vzero -> compute_explicit s = Some s' ->
    cParts s !! i = Some p ->
    (is_newton (pT p) = false -> forall w t dt, wPos wm w i t dt = pX p) ->
    cParts s' !! i = Some p.
  Proof.
    intros HW Hs HG H Hp Hw. pose proof (explicit_at s s' i p H Hp) as HX. cbv zeta in HX.
    pose proof (Hs i p Hp) as HU. destruct (is_newton (pT p)).
    - destruct HX as (vis & Hv & ->). rewrite (acc_zero_V s i p) in Hv; [|done|done| |].
      + injection Hv as <-. rewrite gravity_zero, vadd_0_r, vscalr_zero, HU, vadd_0_r, vscalr_zero, vadd_0_r by done.
        destruct p; cbn in *; by subst.
      + intros j q Hq. unfold vis_func. destruct (is_dummy _); [done|]. rewrite HU, (Hs j q Hq), vsub_self. cbv zeta.
        destruct (cHL cfg); apply vscal_zero.
      + intros x. unfold vis_func. destruct (is_dummy _); [done|]. cbn [pU spp_particle]. rewrite HU, vsub_self. cbv zeta.
        destruct (cHL cfg); apply vscal_zero.
    - rewrite HX, Hw, vsub_self, vdiv_zero by done. destruct p; cbn in *; by subst.
  Qed.
  Lemma row_prod_zero (row : @mrow Rnum) n : row_prod row (replicate n (0 : Rnum)) = 0.
  Proof.
    unfold row_prod. assert (forall a : Rnum, foldl (fun t e => t +. e.2 ×. nth e.1 (replicate n (0 : Rnum)) (nofZ 0)) a row = a) as E; [|by rewrite E].
    induction row as [|e row IH]; intros a; [done|]. cbn [foldl]. rewrite IH.
    assert (nth e.1 (replicate n (0 : Rnum)) (nofZ 0) = 0) as ->; [|simpl; ring].
    destruct (nth_in_or_default e.1 (replicate n (0 : Rnum)) (nofZ 0)) as [Hin| ->]; [|done].
    apply elem_of_list_In, elem_of_replicate in Hin. tauto.
  Qed.
  Lemma solve_zero (A : list (@mrow Rnum)) n (eps : Rnum) : length A = n ->
    cg_solve A (replicate n (0 : Rnum)) (replicate n (0 : Rnum)) eps = (replicate n (0 : Rnum), true).
  Proof.
    intros HA. unfold cg_solve. cbv zeta.
    assert (lprod A (replicate n (0 : Rnum)) = replicate n (0 : Rnum)) as ->.
    { unfold lprod. rewrite <- HA. clear HA. set (m := replicate (length A) (0 : Rnum)). unfold m at 2.
      assert (forall row, row_prod row m = 0) as E by (intros row; apply row_prod_zero). clearbody m.
      induction A as [|row A IH]; [done|]. cbn [map length replicate]. by rewrite E, IH. }
    assert (lsub (replicate n (0 : Rnum)) (replicate n (0 : Rnum)) = replicate n (0 : Rnum)) as ->.
    { clear. unfold lsub. induction n as [|n IH]; [done|]. cbn [replicate zip_with]. rewrite IH. f_equal. simpl. ring. }
    assert (ldot (replicate n (0 : Rnum)) (replicate n (0 : Rnum)) = 0) as ->.
    { unfold ldot. change (@nofZ Rnum 0) with (0 : Rnum). clear. induction n as [|n IH]; [done|]. cbn [replicate zip zip_with foldl fst snd].
      assert ((0 : Rnum) +. (0 : Rnum) ×. (0 : Rnum) = (0 : Rnum)) as -> by (simpl; ring). exact IH. }
    assert (((0 : Rnum) ×. eps ×. eps =?. nofZ 0) = true) as ->; [|done].
    apply Reqb_true. simpl. ring.
  Qed.
  Lemma gradient_unpressed s s' i p : P_Search.wf s -> unpressed s -> modify_by_gradient s = Some s' ->
    cParts s !! i = Some p -> cParts s' !! i = Some p.
  Proof.
    intros HW Hs H Hp. pose proof (gradient_at s s' i p H Hp) as HX. destruct (is_newton (pT p)); [|done].
    destruct HX as (a & Ha & ->). pose proof (Hs i p Hp) as HP.
    assert (a = vzero) as ->.
    { unfold grad_value in Ha. destruct (cGC cfg).
      - destruct (acc s i mzero madd _) as [C|]; [|done]. cbn [mbind option_bind] in Ha. rewrite (acc_zero_V s i p) in Ha; [|done|done| |].
        + injection Ha as <-. apply vscal_zero.
        + intros j q Hq. unfold gc_func. destruct (is_dummy _); [done|]. cbv zeta. rewrite HP, (Hs j q Hq).
          assert (forall (m : bool) (x y : Rnum), (if m then (0 : Rnum) +. (0 : Rnum) else (0 : Rnum) -. (0 : Rnum)) /. x ×. y = 0) as E.
          { intros m x y. destruct m; [apply zero_plus|apply zero_minus]. }
          rewrite E. apply vscal_0.
        + intros x. unfold gc_func. destruct (is_dummy _); [done|]. cbv zeta. rewrite HP. cbn [pP spp_particle]. change (@nofZ Rnum 0) with (0 : Rnum).
          assert (forall (m : bool) (x y : Rnum), (if m then (0 : Rnum) +. (0 : Rnum) else (0 : Rnum) -. (0 : Rnum)) /. x ×. y = 0) as E.
          { intros m z y. destruct m; [apply zero_plus|apply zero_minus]. }
          rewrite E. apply vscal_0.
      - rewrite (acc_zero_V s i p) in Ha; [|done|done| |].
        + injection Ha as <-. apply vscal_zero.
        + intros j q Hq. unfold grad_func. destruct (is_dummy _); [done|]. cbv zeta. rewrite HP, (Hs j q Hq).
          assert (forall x y : Rnum, ((0 : Rnum) +. (0 : Rnum)) /. x ×. y = 0) as E by (intros; apply zero_plus).
          rewrite E. apply vscal_0.
        + intros x. unfold grad_func. destruct (is_dummy _); [done|]. cbv zeta. rewrite HP. cbn [pP spp_particle]. change (@nofZ Rnum 0) with (0 : Rnum).
          assert (forall x y : Rnum, ((0 : Rnum) +. (0 : Rnum)) /. x ×. y = 0) as E by (intros; apply zero_plus).
          rewrite E. apply vscal_0. }
    unfold kicked. rewrite vscalr_zero, !vadd_0_r. by destruct p.
  Qed.

  Lemma ds_term_zero (d2 : Rnum) (dx : V) : ds_term d2 dx vzero = vzero.
  Proof. unfold ds_term. cbv zeta. rewrite vdiv_zero. apply vscal_zero. Qed.
  Lemma stabilize_apart s s' i p : P_Search.wf s -> stabilize s = Some s' -> cParts s !! i = Some p ->
    (forall j q, j <> i -> cParts s !! j = Some q -> (eL0 (cEnv s) - eMaxDx (cEnv s)) ^ 2 <= edist (pX p) (pX q) ^ 2) ->
    cParts s' !! i = Some p.
  Proof.
    intros HW H Hp Hno. pose proof (stabilize_at s s' i p H Hp) as HX. destruct (is_newton (pT p)); [|done].
    destruct HX as (a & Ha & ->). unfold ds_value in Ha. cbv zeta in Ha.
    destruct (cOrigX s !! i) as [x0|] eqn:Ex; [|done]. cbn [mbind option_bind] in Ha.
    assert ((i < psize s)%nat) as Hi by (by eapply lookup_lt_Some).
    destruct (acc_ind s i (Some vzero) (ds_plus cfg) (ds_func s x0 (pX p) ((eL0 (cEnv s) -. eMaxDx (cEnv s)) ×. (eL0 (cEnv s) -. eMaxDx (cEnv s))))
      (fun a => a = Some vzero)) as (b & Eb & Hb); [done|done|done| | |].
    - intros b j q -> Hq. unfold ds_func. destruct (negb _ && _).
      + cbv zeta. destruct (_ <?. _) eqn:E.
        * destruct (decide (j = i)) as [->|Hji].
          -- rewrite Nat2Z.id, Ex. cbn [mbind option_bind]. rewrite vsub_self, ds_term_zero. cbn. by rewrite vadd_0_r.
          -- exfalso. apply Rltb_true in E. rewrite vdot_inner in E. pose proof (Hno j q Hji Hq) as HN.
             assert (inner (pX q -^ pX p) (pX q -^ pX p) = edist (pX p) (pX q) ^ 2) as HI by (rewrite edist_sym, edist_len, <- len_sqr; ring).
             rewrite HI in E. cbn [nmul nsub Rnum] in E.
             assert ((eL0 (cEnv s) - eMaxDx (cEnv s)) * (eL0 (cEnv s) - eMaxDx (cEnv s)) = (eL0 (cEnv s) - eMaxDx (cEnv s)) ^ 2) as E2 by ring.
             rewrite E2 in E. exact (Rlt_irrefl _ (Rlt_le_trans _ _ _ E HN)).
        * cbn. by rewrite vadd_0_r.
      + cbn. by rewrite vadd_0_r.
    - intros HS b p' x -> Hp'. unfold ds_func. rewrite HS. cbn. by rewrite vadd_0_r.
    - rewrite Eb, Hb in Ha. cbn [mbind option_bind] in Ha. injection Ha as <-. rewrite vscal_zero.
      unfold kicked. rewrite vscalr_zero, !vadd_0_r. by destruct p.
  Qed.

  (** ** A whole step *)
  Lemma unmoved_lookup s t i p : unmoved s t -> cParts s !! i = Some p ->
    exists p', cParts t !! i = Some p' /\ pX p' = pX p /\ pU p' = pU p /\ pP p' = pP p.
  Proof. intros H Hp. destruct (Forall2_lookup_l _ _ _ _ _ H Hp) as (p' & ? & ?). eauto. Qed.
  Lemma unmoved_lookup_r s t i p' : unmoved s t -> cParts t !! i = Some p' ->
    exists p, cParts s !! i = Some p /\ pX p' = pX p /\ pU p' = pU p /\ pP p' = pP p.
  Proof. intros H Hp. destruct (Forall2_lookup_r _ _ _ _ _ H Hp) as (p & ? & ?). eauto. Qed.
  Lemma unmoved_intro s t u : unmoved s t -> psize u = psize t ->
    (forall i p, cParts t !! i = Some p -> exists p', cParts u !! i = Some p' /\ pX p' = pX p /\ pU p' = pU p /\ pP p' = pP p) ->
    unmoved s u.
  Proof.
    intros H HL HT. apply Forall2_same_length_lookup_2.
    - unfold psize in HL. by rewrite HL, (Forall2_length _ _ _ H).
    - intros i p p' Hp Hp'. destruct (unmoved_lookup s t i p H Hp) as (p1 & Hp1 & E1 & E2 & E3).
      destruct (HT i p1 Hp1) as (p2 & Hp2 & E4 & E5 & E6). assert (p2 = p') as -> by congruence.
      repeat split; congruence.
  Qed.
  Lemma unmoved_keeps s t : Forall2 keeps (cParts s) (cParts t) -> unmoved s t.
  Proof. intros H. eapply Forall2_impl; [exact H|]. intros p p' [->| ->]; done. Qed.
  Lemma unmoved_still s t : at_rest s -> unmoved s t -> still t.
  Proof. intros HR HU i p' Hp'. destruct (unmoved_lookup_r s t i p' HU Hp') as (p & Hp & _ & -> & _). by apply (HR i p). Qed.
  Lemma unmoved_unpressed s t : at_rest s -> unmoved s t -> unpressed t.
  Proof. intros HR HU i p' Hp'. destruct (unmoved_lookup_r s t i p' HU Hp') as (p & Hp & _ & _ & ->). by apply (HR i p). Qed.

  (** The implicit phase leaves everything alone. *)
  Lemma implicit_rest s t : at_rest s -> unmoved s t -> P_Search.wf t -> cHS cfg = true -> cExplicit cfg = false ->
    (cECS cfg = true -> forall i p, cParts t !! i = Some p -> is_active (pT p) = true -> cEcs t !! i = Some (0 : Rnum)) ->
    exists t', compute_implicit t = Done t' /\ unmoved s t' /\ P_Search.wf t' /\ cEnv t' = cEnv t.
  Proof.
    intros HR HU HW HH HX HE. destruct (set_ppe_defined t HW) as (t1 & H1 & HL1).
    pose proof (set_ppe_pr _ _ H1) as Hpr1. pose proof (wf_phase _ _ Hpr1 HW) as HW1. pose proof (pr_size _ _ Hpr1) as Hn1.
    assert (forall (l : list Rnum) n, length l = n -> (forall i x, l !! i = Some x -> x = (0 : Rnum)) -> l = replicate n (0 : Rnum)) as Hrep.
    { intros l n Hl Hz. symmetry. apply replicate_as_Forall. split; [done|]. apply Forall_lookup. intros i x Hx. symmetry. by eapply Hz. }
    assert (forall i p, cParts t !! i = Some p -> exists v, rhs_value t i p = Some v /\ v.1 = (0 : Rnum) /\ v.2 = (0 : Rnum)) as Hrhs.
    { intros i p Hp. unfold rhs_value. destruct (ppe_excluded (cEnv t) p) eqn:Ex; [eexists; split; [done|]; done|].
      rewrite (speed_still t i p) by (try done; by eapply unmoved_still). cbn [mbind option_bind]. cbv zeta.
      pose proof (unmoved_unpressed s t HR HU i p Hp) as HP. destruct (cECS cfg) eqn:Ee.
      - rewrite (HE eq_refl i p Hp). 2:{ unfold ppe_excluded in Ex. destruct (is_active (pT p)); [done|]. done. }
        cbn [mbind option_bind]. eexists. split; [done|]. split; [|exact HP]. cbn [fst].
        assert ((0 : Rnum) +. (0 : Rnum) = (0 : Rnum)) as -> by apply Rplus_0_l. apply Rmult_0_r.
      - eexists. split; [done|]. split; [|exact HP]. cbn [fst]. apply Rmult_0_r. }
    assert (cBv t1 = replicate (psize t) (0 : Rnum) /\ cXv t1 = replicate (psize t) (0 : Rnum)) as [HB HXv].
    { pose proof (wf_ax _ HW1) as La. pose proof (wf_ab _ HW1) as Lb. split.
      - apply Hrep; [congruence|]. intros i x Hx. assert (i < psize t)%nat as Hi by (apply lookup_lt_Some in Hx; congruence).
        destruct (lookup_lt_is_Some_2 (cParts t) i Hi) as [p Hp]. destruct (set_ppe_at t t1 i p H1 Hp) as [(v & Hv & Eb & Ex) _].
        destruct (Hrhs i p Hp) as (v' & Hv' & E1 & E2). assert (v' = v) as -> by congruence. congruence.
      - apply Hrep; [congruence|]. intros i x Hx. assert (i < psize t)%nat as Hi by (apply lookup_lt_Some in Hx; congruence).
        destruct (lookup_lt_is_Some_2 (cParts t) i Hi) as [p Hp]. destruct (set_ppe_at t t1 i p H1 Hp) as [(v & Hv & Eb & Ex) _].
        destruct (Hrhs i p Hp) as (v' & Hv' & E1 & E2). assert (v' = v) as -> by congruence. congruence. }
    unfold compute_implicit. rewrite HX, H1. cbn [of_opt obind]. unfold solve_ppe. rewrite HB, HXv, solve_zero by done. cbn [fst snd]. cbn [obind].
    set (t2 := with_ppe t1 (cA t1) (replicate (psize t) (0 : Rnum)) (replicate (psize t) (0 : Rnum))).
    assert (t2 = t1) as E2. { unfold t2. rewrite <- HB at 2. rewrite <- HXv. by destruct t1. }
    rewrite E2. clear t2 E2. assert (length (cA t1) = psize t1) as HA1 by congruence.
    destruct (assign_defined t1 HW1 HA1) as (t3 & H3). rewrite H3. cbn [of_opt obind].
    pose proof (assign_pr _ _ _ H3) as Hpr3. pose proof (wf_phase _ _ Hpr3 HW1) as HW3. pose proof (pr_size _ _ Hpr3) as Hn3.
    assert (cParts t1 = cParts t) as Ep1 by (by rewrite (set_ppe_rest _ _ H1)).
    assert (unmoved s t3) as HU3.
    { apply (unmoved_intro s t); [done|congruence|]. intros i p Hp. rewrite <- Ep1 in Hp.
      pose proof (assign_at t1 t3 i p H3 Hp) as HA. rewrite Ep1 in Hp. destruct (is_active (pT p)); [|eauto 10].
      destruct HA as (x & Hx & HA). eexists. split; [exact HA|]. split; [done|]. split; [done|]. cbn [pP set_P].
      rewrite (unmoved_unpressed s t HR HU i p Hp). rewrite HXv in Hx.
      apply lookup_replicate in Hx as [-> _]. unfold clamp. by destruct (_ || _). }
    destruct (gradient_defined t3 HW3) as (t4 & H4). rewrite H4. cbn [of_opt obind]. exists t4. split; [done|].
    pose proof (gradient_pr _ _ H4) as Hpr4. split; [|split; [by apply (wf_phase _ _ Hpr4)|]].
    - apply (unmoved_intro s t3); [done|by apply pr_size|]. intros i p Hp.
      rewrite (gradient_unpressed t3 t4 i p HW3 (unmoved_unpressed s t3 HR HU3) H4 Hp). eauto.
    - by rewrite (pr_env _ _ Hpr4), (pr_env _ _ Hpr3), (pr_env _ _ Hpr1).
  Qed.

  (** C60.  Without gravity, a fluid at rest and without pressure, nothing overlapping, between walls that stand still, is
      left as it is by a step: no particle moves, all velocities and pressures stay zero; and the solver does not fail. *)
  Theorem C60_step env0 (dt : R) s :
    square_ground env0 -> reachable env0 s -> cHS cfg = true -> cExplicit cfg = false ->
    0 < dt -> 0 < eN0 env0 -> 0 < eRho env0 -> 0 < eRe env0 -> eG env0 = vzero ->
    at_rest s -> no_overlaps s -> held s ->
    match forward_dt (dt : Rnum) s with
    | Done s' => unmoved s s'
    | Throw e s' => e = TooManyParticles /\ unmoved s s'
    | Undef => ~ locatable env0 s
    end.
  Proof.
    intros Hsq Hr HH HX _ _ _ _ HG HR HO Hh. pose proof (reachable_inv env0 s Hsq Hr) as Hinv.
    destruct (inv_ok _ _ Hsq Hinv) as [Hwf Hok].
    pose proof (search_spec (start_step (dt : Rnum) s) (wf_start (dt : Rnum) s Hwf) Hok) as HS.
    destruct (search_neighbor (start_step (dt : Rnum) s)) as [s1|e s1|] eqn:E.
    2:{ unfold forward_dt. fold (start_step (dt : Rnum) s). rewrite E. cbn [obind]. split; [by apply HS|].
        apply unmoved_keeps. destruct (search_frame (start_step (dt : Rnum) s) s1) as [_ F]; [by rewrite E|exact F]. }
    2:{ unfold forward_dt. fold (start_step (dt : Rnum) s). rewrite E. cbn [obind]. intros Hloc.
        destruct (search_outcome env0 (dt : Rnum) s Hsq Hr Hloc) as [[_ [? ?]]|[_ [? ?]]]; congruence. }
    assert (unmoved s s1) as U1.
    { apply unmoved_keeps. destruct (search_frame (start_step (dt : Rnum) s) s1) as [_ F]; [by rewrite E|exact F]. }
    assert (P_Search.wf s1) as W1 by (eapply wf_searched; [by apply wf_start|done]).
    destruct (after_search env0 (dt : Rnum) s s1 Hsq Hr E) as (s2 & s3 & s4 & s5 & s6 & [_ H2 H3 H4 H5 H6] & HI).
    pose proof (dens_pr _ _ H2) as P2. pose proof (wf_phase _ _ P2 W1) as W2.
    assert (unmoved s s2) as U2.
    { apply (unmoved_intro s s1); [done|by apply pr_size|]. intros i p Hp. destruct (dens_keep s1 s2 i p H2 Hp) as (n & Hn & _). eauto. }
    assert (P_Search.wf s3 /\ cParts s3 = cParts s2 /\ cEnv s3 = cEnv s1) as (W3 & Ep3 & Ee3).
    { destruct (cECS cfg).
      - split; [by apply (wf_phase _ _ (ecs_pr _ _ H3))|]. rewrite (pr_env _ _ (ecs_pr _ _ H3)), (pr_env _ _ P2). split; [|done].
        by rewrite (ecs_rest _ _ H3).
      - subst. split; [done|]. split; [done|]. by rewrite (pr_env _ _ P2). }
    assert (unmoved s s3) as U3 by (unfold unmoved; by rewrite Ep3).
    assert (eG (cEnv s3) = vzero) as G3.
    { rewrite Ee3, (se_rest _ _ HS). cbn. pose proof (inv_env _ _ Hinv) as Hc. unfold same_constants in Hc. rewrite Hc. done. }
    pose proof (explicit_pr _ _ H4) as P4. pose proof (wf_phase _ _ P4 W3) as W4.
    assert (unmoved s s4) as U4.
    { apply (unmoved_intro s s3); [done|by apply pr_size|]. intros i p Hp.
      rewrite (explicit_still s3 s4 i p); [eauto|done|by eapply unmoved_still|done|done|done|].
      intros _ w t dt'. destruct (unmoved_lookup_r s s3 i p U3 Hp) as (p0 & Hp0 & -> & _). by apply Hh. }
    pose proof (dens_pr _ _ H5) as P5. pose proof (wf_phase _ _ P5 W4) as W5.
    assert (unmoved s s5) as U5.
    { apply (unmoved_intro s s4); [done|by apply pr_size|]. intros i p Hp. destruct (dens_keep s4 s5 i p H5 Hp) as (n & Hn & _). eauto. }
    assert (P_Search.wf s6 /\ cParts s6 = cParts s5 /\ cEnv s6 = cEnv s5 /\ cEcs s6 = cEcs s5) as (W6 & Ep6 & Ee6 & Ec6).
    { destruct (cDS cfg).
      - split; [by apply (wf_phase _ _ (savex_pr _ _ H6))|]. rewrite (savex_rest _ _ H6). done.
      - by subst. }
    assert (unmoved s s6) as U6 by (unfold unmoved; by rewrite Ep6).
    assert (cEnv s6 = cEnv s1) as Ee61 by (by rewrite Ee6, (pr_env _ _ P5), (pr_env _ _ P4)).
    destruct (implicit_rest s s6) as (s7 & H7 & U7 & W7 & Ee7); try done.
    { intros Ee i p Hp Ha. rewrite Ee in H3. rewrite Ec6, (dens_rest _ _ H5). cbn. rewrite (explicit_rest _ _ H4). cbn.
      assert (exists p2, cParts s2 !! i = Some p2 /\ pT p2 = pT p) as (p2 & Hp2 & HT2).
      { pose proof (pr_types _ _ P5) as T5. pose proof (pr_types _ _ P4) as T4. rewrite Ep6 in Hp. rewrite Ep3 in T4.
        assert ((pT <$> cParts s5) !! i = Some (pT p)) as HT by (by rewrite list_lookup_fmap, Hp).
        rewrite T5, T4, list_lookup_fmap in HT. destruct (cParts s2 !! i) as [p2|]; [|done]. exists p2. split; [done|]. by injection HT. }
      pose proof (ecs_at s2 s3 i p2 H3 Hp2) as HE. rewrite HT2, Ha in HE. destruct HE as (v & Hv & HE). etransitivity; [exact HE|].
      rewrite (speed_still s2 i p2) in Hv; [|done|done|by eapply unmoved_still|done]. injection Hv as <-. f_equal.
      set (e := _ /. _). clearbody e. simpl in e. change (Rabs e * 0 + Rabs 0 * e = 0). rewrite Rabs_R0. ring. }
    rewrite H7 in HI. destruct HI as (s' & Hs'). rewrite Hs'.
    unfold forward_dt in Hs'. fold (start_step (dt : Rnum) s) in Hs'. rewrite E in Hs'. cbn [obind] in Hs'. rewrite H2 in Hs'. cbn [of_opt obind] in Hs'.
    assert ((if cECS cfg then of_opt (compute_ecs s2) else Done s2) = Done s3) as F3 by (destruct (cECS cfg); [by rewrite H3|by subst]).
    rewrite F3 in Hs'. cbn [obind] in Hs'. rewrite H4 in Hs'. cbn [of_opt obind] in Hs'. rewrite H5 in Hs'. cbn [of_opt obind] in Hs'.
    assert ((if cDS cfg then of_opt (save_x s5) else Done s5) = Done s6) as F6 by (destruct (cDS cfg); [by rewrite H6|by subst]).
    rewrite F6 in Hs'. cbn [obind] in Hs'. rewrite H7 in Hs'. cbn [obind] in Hs'.
    destruct (cDS cfg) eqn:ED; [|by injection Hs' as <-]. apply of_opt_Done in Hs'.
    apply (unmoved_intro s s7); [done|by apply (pr_size _ _ (stabilize_pr _ _ Hs'))|]. intros i p Hp.
    rewrite (stabilize_apart s7 s' i p W7 Hs' Hp); [eauto|]. intros j q Hji Hq.
    destruct (unmoved_lookup_r s s7 i p U7 Hp) as (p0 & Hp0 & -> & _). destruct (unmoved_lookup_r s s7 j q U7 Hq) as (q0 & Hq0 & -> & _).
    destruct (HO i j p0 q0 ltac:(congruence) Hp0 Hq0) as [_ HO']. rewrite Ee7, Ee61, (se_rest _ _ HS). cbn. by apply HO'.
  Qed.
End Zero.

Section History.
  Context {cfg : config}.
  Notation part := (particle Rnum (cDim cfg)).

  Lemma initial_reachable cond (env : environment Rnum cfg) (particles : list part) s :
    initial cond env particles s -> reachable env s /\ cParts s = particles.
  Proof.
    intros (s0 & H0 & ->). split.
    - apply (reach_done env (AddParticles cfg particles) s0); [by eapply reach_new|done].
    - assert (cParts s0 = []) as E. { unfold new_computer in H0. destruct (new_grid _ _ _ _ _); [|done]. by injection H0 as <-. }
      unfold add_particles. cbn [cParts]. by rewrite E.
  Qed.
  Lemma stepped_reachable {wm : wallmotion Rnum (cDim cfg)} (env : environment Rnum cfg) (s s' : computer cfg wm) n :
    reachable env s -> stepped s n s' -> reachable env s'.
  Proof. intros Hr. induction 1 as [|n s1 s2 _ IH Hf]; [done|]. by apply (reach_done env (ForwardTime cfg) s1). Qed.

  Context (cond : condition (N := Rnum)) (env : environment Rnum cfg) (particles : list part).
  Context (Hsq : square_ground env) (HH : cHS cfg = true) (HX : cExplicit cfg = false).
  Context (Hdt : 0 < eMaxDt env) (HN : 0 < eN0 env) (Hrho : 0 < eRho env) (Hre : 0 < eRe env) (HG : eG env = vzero).
  Context (Hrest : Forall (fun p : part => pU p = vzero /\ pP p = 0) particles).
  Context (Hover : forall i j p q, i <> j -> particles !! i = Some p -> particles !! j = Some q ->
    pX p <> pX q /\ (cDS cfg = true -> (eL0 env - eMaxDx env) ^ 2 <= edist (pX p) (pX q) ^ 2)).

  Lemma rest_step s n s1 : initial cond env particles s -> stepped s n s1 -> unmoved s s1 ->
    match forward s1 with
    | Done s2 => unmoved s s2
    | Throw e s2 => e = TooManyParticles
    | Undef => particles = [] \/ ~ locatable env s1
    end.
  Proof.
    intros Hi Hs HU. destruct (initial_reachable _ _ _ _ Hi) as [Hr Hp].
    pose proof (stepped_reachable env s s1 n Hr Hs) as Hr1.
    assert (at_rest s) as HR. { intros i p Hip. rewrite Hp in Hip. by eapply Forall_lookup_1 in Hrest. }
    assert (at_rest s1) as HR1.
    { intros i p Hip. destruct (unmoved_lookup_r s s1 i p HU Hip) as (p0 & Hp0 & _ & -> & ->). by eapply HR. }
    destruct (decide (cParts s1 = [])) as [He|Hne].
    { unfold forward, determine_dt. rewrite He. left. rewrite <- Hp. apply Forall2_length in HU. rewrite He in HU. by destruct (cParts s). }
    assert (forward s1 = forward_dt (eMaxDt env : Rnum) s1) as ->.
    { unfold forward. rewrite (C16_at_rest env s1 Hsq Hr1 Hne); [done|]. intros p Hin.
      apply elem_of_list_lookup in Hin as [i Hin]. by eapply HR1. }
    assert (no_overlaps s1) as HO1.
    { intros i j p q Hij Hip Hjq. destruct (unmoved_lookup_r s s1 i p HU Hip) as (p0 & Hp0 & -> & _).
      destruct (unmoved_lookup_r s s1 j q HU Hjq) as (q0 & Hq0 & -> & _).
      pose proof (inv_env _ _ (reachable_inv env s1 Hsq Hr1)) as Hc. apply same_constants_fields in Hc as (_ & _ & E2 & E3 & _).
      rewrite E2, E3. rewrite Hp in Hp0, Hq0. by apply (Hover i j). }
    assert (held s1) as Hh.
    { intros i p w t dt Hip. destruct (unmoved_lookup_r s s1 i p HU Hip) as (p0 & Hp0 & -> & _). rewrite Hp in Hp0. cbn.
      apply nth_lookup_Some. by rewrite list_lookup_fmap, Hp0. }
    pose proof (C60_step env (eMaxDt env) s1 Hsq Hr1 HH HX Hdt HN Hrho Hre HG HR1 HO1 Hh) as HS.
    destruct (forward_dt (eMaxDt env : Rnum) s1) as [s2|e s2|]; [|tauto|tauto].
    apply (unmoved_intro s s1); [done|by apply eq_sym, (Forall2_length _ _ _ HS)|]. intros i p Hip.
    by destruct (unmoved_lookup s1 s2 i p HS Hip) as (p' & ? & ? & ? & ?); eauto.
  Qed.
  Lemma rest_steps s n s' : initial cond env particles s -> stepped s n s' -> unmoved s s'.
  Proof.
    intros Hi. induction 1 as [|n s1 s2 Hs IH Hf].
    - apply Forall2_same_length_lookup_2; [done|]. intros i p p' Hp Hp'. assert (p = p') as -> by congruence. done.
    - pose proof (rest_step s n s1 Hi Hs IH) as HS. by rewrite Hf in HS.
  Qed.
  Lemma rest_forever s n : initial cond env particles s -> particles <> [] -> locatable env s -> ~ crowded env s ->
    exists s', stepped s n s' /\ unmoved s s'.
  Proof.
    intros Hi Hne Hloc Hcr. induction n as [|n (s1 & Hs & HU)].
    - exists s. split; [constructor|]. by apply (rest_steps s 0 s Hi); constructor.
    - assert (exists s2, forward s1 = Done s2) as [s2 Hf].
      2:{ exists s2. assert (stepped s (S n) s2) by (by eapply stepped_S). split; [done|]. by eapply rest_steps. }
      pose proof (rest_step s n s1 Hi Hs HU) as HS. destruct (initial_reachable _ _ _ _ Hi) as [Hr Hp].
      pose proof (stepped_reachable env s s1 n Hr Hs) as Hr1.
      assert (forall i p, cParts s1 !! i = Some p -> enabled p -> exists p0, cParts s !! i = Some p0 /\ enabled p0 /\ pX p = pX p0) as HB.
      { intros i p Hip Hen. pose proof (stepped_types s n s1 Hs) as HT. destruct (Forall2_lookup_r _ _ _ _ _ HT Hip) as (p0 & Hp0 & Ht).
        exists p0. split; [done|]. split; [destruct Ht; unfold enabled in *; congruence|].
        destruct (unmoved_lookup_r s s1 i p HU Hip) as (p1 & Hp1 & -> & _). congruence. }
      assert (locatable env s1) as Hl1.
      { intros i p k Hip Hen Hk. destruct (HB i p Hip Hen) as (p0 & Hp0 & He0 & ->). by apply (Hloc i p0 k). }
      assert (~ crowded env s1) as Hc1.
      { intros (b & js & A & B & C & D & E). apply Hcr. exists b, js. split; [done|]. split; [done|]. split; [done|]. split; [|done].
        intros j Hj. destruct (D j Hj) as (p & Hip & Hen & Hk). destruct (HB j p Hip Hen) as (p0 & Hp0 & He0 & Ex). rewrite Ex in Hk. eauto. }
      destruct (forward s1) as [s2|e s2|] eqn:E; [by exists s2| |by destruct HS as [?|?]].
      exfalso. subst e. unfold forward in E. destruct (determine_dt s1) as [dt|]; [|done].
      destruct (search_outcome env dt s1 Hsq Hr1 Hl1) as [[? _]|[_ [t Ht]]]; [done|].
      destruct (after_search env dt s1 t Hsq Hr1 Ht) as (t2 & t3 & t4 & t5 & t6 & HT & HI).
      destruct (compute_implicit t6) as [t7|e' t7|] eqn:EI.
      + destruct HI as (? & HI). by rewrite HI in E.
      + destruct HI as (_ & HI & _). by rewrite HI in E.
      + done.
  Qed.
End History.

Section Files.
  Context {cfg : config}.
  Notation part := (particle Rnum (cDim cfg)).
  (** C60, over a whole run of the application: when the input is at rest, without pressure and without overlaps, and there
      is no gravity, every output file shows the positions of the input, zero velocities and zero pressures, however many
      steps were taken; and the program never stops with the solver's error message. *)
  Theorem C60_files fuel cond (env : environment Rnum cfg) (particles : list part) outs e :
    square_ground env -> cHS cfg = true -> cExplicit cfg = false ->
    0 < eMaxDt env -> 0 < eN0 env -> 0 < eRho env -> 0 < eRe env -> eG env = vzero ->
    Forall (fun p : part => pU p = vzero /\ pP p = 0) particles ->
    (forall i j p q, i <> j -> particles !! i = Some p -> particles !! j = Some q ->
      pX p <> pX q /\ (cDS cfg = true -> (eL0 env - eMaxDx env) ^ 2 <= edist (pX p) (pX q) ^ 2)) ->
    main_program fuel cond env particles = Some (outs, e) ->
    (forall k o, outs !! k = Some o -> Forall2 (fun p p' : part => pX p' = pX p /\ pU p' = vzero /\ pP p' = 0) particles (oParts o)) /\
    (forall t iter number, e <> ErrorMessage t iter number).
  Proof.
    intros Hsq HH HX Hdt HN Hrho Hre HG Hrest Hover Hm. split.
    - intros k o Ho. destruct (C43_every_particle _ _ _ _ _ _ _ _ Hm Ho) as (_ & _ & s & s' & Hi & Hs & ->).
      pose proof (rest_steps cond env particles Hsq HH HX Hdt HN Hrho Hre HG Hrest Hover s _ s' Hi Hs) as HU.
      destruct (initial_reachable _ _ _ _ Hi) as [_ Hp]. unfold unmoved in HU. rewrite Hp in HU.
      apply Forall2_same_length_lookup_2; [by eapply Forall2_length|]. intros i p p' Hip Hip'.
      destruct (Forall2_lookup_lr _ _ _ _ _ _ HU Hip Hip') as (-> & -> & ->). split; [done|]. by eapply Forall_lookup_1 in Hrest.
    - intros t iter number ->. destruct (C42_ending _ _ _ _ _ _ Hm) as (s & s1 & s2 & off & Hi & Hs & Hf & _).
      pose proof (rest_steps cond env particles Hsq HH HX Hdt HN Hrho Hre HG Hrest Hover s _ s1 Hi Hs) as HU.
      pose proof (rest_step cond env particles Hsq HH HX Hdt HN Hrho Hre HG Hrest Hover s _ s1 Hi Hs HU) as HS.
      rewrite Hf in HS. done.
  Qed.
  (** C60.  And when the initial positions can be handled by the search at all, no step ever fails. *)
  Theorem C60_forever cond (env : environment Rnum cfg) (particles : list part) s n :
    square_ground env -> cHS cfg = true -> cExplicit cfg = false ->
    0 < eMaxDt env -> 0 < eN0 env -> 0 < eRho env -> 0 < eRe env -> eG env = vzero ->
    Forall (fun p : part => pU p = vzero /\ pP p = 0) particles ->
    (forall i j p q, i <> j -> particles !! i = Some p -> particles !! j = Some q ->
      pX p <> pX q /\ (cDS cfg = true -> (eL0 env - eMaxDx env) ^ 2 <= edist (pX p) (pX q) ^ 2)) ->
    initial cond env particles s -> particles <> [] -> locatable env s -> ~ crowded env s ->
    exists s', stepped s n s' /\ unmoved s s'.
  Proof. intros. by apply (rest_forever cond env particles). Qed.
End Files.

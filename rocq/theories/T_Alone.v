(** Property theorems: a particle without neighbours (C62). *)
From Coq Require Import ZifyBool.
From Verif Require Import P_Neigh P_Force P_Life P_Ppe T_Search T_Density T_Force T_Ppe T_Solve T_Outcome S_Scheme T_Scheme S_Alone.
Open Scope R_scope.

Section Alone.
  Context {cfg : config} {wm : wallmotion Rnum (cDim cfg)}.
  Notation d := (cDim cfg).
  Notation V := (vec Rnum d).
  Notation part := (particle Rnum d).
  Notation computer := (computer cfg wm).
  Implicit Types (s : computer) (p q : part) (env : environment Rnum cfg).

  Lemma vdiv_zero (r : R) : (vzero : V) /^ (r : Rnum) = vzero.
  Proof. generalize d. intros d0. destruct d0; cbn; unfold Rdiv; rewrite !Rmult_0_l; done. Qed.
  Lemma acc_alone {A} s i p (zero : A) plus f :
    neighbor_list s i = Some [] -> cParts s !! i = Some p -> is_Some (cNws s !! i) -> acc s i zero plus f = Some zero.
  Proof.
    intros HL Hp [w Hw]. unfold acc. rewrite HL, Hp. cbn [mbind option_bind foldM]. destruct (cSPP cfg); [|done].
    unfold acc_spp. rewrite Hw. cbn [mbind option_bind fst snd]. destruct (nltb _ _); [|done]. rewrite vdiv_zero.
    destruct (nltb _ _) eqn:E; [|done]. exfalso. apply Rltb_true in E. rewrite vdot_inner, inner_zero_l in E.
    assert (@nsqrt Rnum 0 = 0) as H0 by apply sqrt_0. rewrite H0 in E.
    assert (@neps Rnum = / 2 ^ 52) as Heps.
    { unfold neps. cbn [ndiv Rnum nofZ]. rewrite pow_IZR. unfold Rdiv. rewrite Rmult_1_l. done. }
    rewrite Heps in E. assert (0 < / 2 ^ 52) by (apply Rinv_0_lt_compat, pow_lt; lra). lra.
  Qed.

  (** The solver leaves an unknown alone whose row of the matrix is zero and whose equation holds. *)
  Lemma loop_untouched (A : list (mrow (N := Rnum))) i r0 n fuel : length A = n -> (forall y, el (rprod A y) i = 0) ->
    forall (x r p : list R) rr, length x = n -> length r = n -> length p = n -> el r i = 0 -> el p i = 0 ->
    el (rloop A r0 fuel x r p rr).1 i = el x i.
  Proof.
    intros HA HR. induction fuel as [|fuel IH]; intros x r p rr Lx Lr Lp Wr Wp; [done|].
    rewrite rloop_S. cbv zeta. set (alpha := rr / _). set (x' := radd x _). set (r' := rsub r _).
    assert (length (rprod A p) = n) as LA by (unfold rprod, lprod; by rewrite map_length).
    assert (length x' = n) as Lx' by (unfold x'; rewrite radd_length; rewrite ?rscal_length; congruence).
    assert (length r' = n) as Lr' by (unfold r'; rewrite rsub_length; rewrite ?rscal_length; congruence).
    assert (el x' i = el x i) as Wx'.
    { unfold x'. rewrite el_add by (rewrite rscal_length; congruence). rewrite el_scal, Wp. ring. }
    assert (el r' i = 0) as Wr'.
    { unfold r'. rewrite el_sub by (rewrite rscal_length; congruence). rewrite el_scal, Wr, HR by done. ring. }
    destruct (Rlt_dec _ _); [exact Wx'|]. rewrite IH; try done.
    - rewrite radd_length; rewrite ?rscal_length; congruence.
    - rewrite el_add by (rewrite rscal_length; congruence). rewrite el_scal, Wr', Wp by done. ring.
  Qed.
  Lemma solve_untouched (A : list (mrow (N := Rnum))) i (x b : list R) (eps : R) n :
    length A = n -> length x = n -> length b = n -> (forall y, el (rprod A y) i = 0) -> el b i = 0 ->
    el (cg_solve (N := Rnum) A x b eps).1 i = el x i.
  Proof.
    intros HA Hx Hb HR Hbi. unfold cg_solve. cbv zeta. change (lsub (N := Rnum) b (lprod A x)) with (rsub b (rprod A x)).
    destruct (neqb _ _); [done|]. 
    assert (length (rprod A x) = n) as LA by (unfold rprod, lprod; by rewrite map_length).
    assert (length (rsub b (rprod A x)) = n) as Lr by (rewrite rsub_length; congruence).
    assert (el (rsub b (rprod A x)) i = 0) as Er by (rewrite el_sub by congruence; rewrite HR, Hbi; ring).
    by apply (loop_untouched A i _ n).
  Qed.

  (** ** A step, phase by phase *)
  Record alone s i p : Prop := {
    al_at : cParts s !! i = Some p;
    al_fluid : fluid p;
    al_list : neighbor_list s i = Some [];
    al_nws : is_Some (cNws s !! i);
    al_du : is_Some (cDu s !! i);
  }.
  Lemma alone_phase s s' i p p' : alone s i p -> phase_rel s s' -> cParts s' !! i = Some p' -> pT p' = pT p -> alone s' i p'.
  Proof.
    intros [H1 H2 H3 H4 H5] HR Hp' HT. split; [done|unfold fluid in *; congruence| | |].
    - unfold neighbor_list in *. by rewrite (pr_nb _ _ HR).
    - apply lookup_lt_is_Some_2. rewrite (pr_nws _ _ HR). by apply lookup_lt_is_Some_1.
    - apply lookup_lt_is_Some_2. rewrite (pr_du _ _ HR). by apply lookup_lt_is_Some_1.
  Qed.
  Lemma alone_active s i p : alone s i p -> is_active (pT p) = true /\ is_newton (pT p) = true.
  Proof. intros [_ H _ _ _]. unfold fluid in H. by rewrite H. Qed.
  Lemma alone_acc {A} s i p (zero : A) plus f : alone s i p -> acc s i zero plus f = Some zero.
  Proof. intros [H1 _ H3 H4 _]. by apply (acc_alone s i p). Qed.

  (** The density recorded for a particle on its own. *)
  Definition lone_N env : R := if cSPP cfg then Rmax (eN0 env) 0 else 0.
  Lemma alone_dens s s' i p : alone s i p -> compute_densities s = Some s' ->
    alone s' i (set_N (lone_N (cEnv s) : Rnum) p) /\ cNws s' !! i = Some (0 : Rnum).
  Proof.
    intros HA H. pose proof (dens_at s s' i p H (al_at _ _ _ HA)) as HX. rewrite (proj1 (alone_active _ _ _ HA)) in HX.
    destruct HX as (n & Hn & HP & HN). rewrite (acc_alone _ i p) in Hn; [|apply HA|apply HA|].
    - injection Hn as <-. split; [|exact HN]. apply (alone_phase s s' i p); [done|by apply dens_pr| |done].
      rewrite HP. do 2 f_equal. unfold lone_N. destruct (cSPP cfg); [|done]. cbn. unfold nmax. cbn. unfold Rmax.
      destruct (Rlt_dec 0 (eN0 (cEnv s))), (Rle_dec (eN0 (cEnv s)) 0); lra.
    - simpl. destruct (al_nws _ _ _ HA) as [w Hw]. rewrite list_lookup_insert by (by eapply lookup_lt_Some). by eexists.
  Qed.
  (** Free motion in [dt] with velocity [u]. *)
  Lemma alone_explicit s s' i p : alone s i p -> compute_explicit s = Some s' ->
    let u := pU p +^ (eDt (cEnv s) : Rnum) *^ gravity_at (cEnv s) (pX p) in
    alone s' i (mkParticle (pX p +^ (eDt (cEnv s) : Rnum) *^ u) u (pP p) (pN p) (pT p)).
  Proof.
    intros HA H u. pose proof (explicit_at s s' i p H (al_at _ _ _ HA)) as HX. rewrite (proj2 (alone_active _ _ _ HA)) in HX.
    apply (alone_phase s s' i p); [done|by apply explicit_pr| |done].
    destruct HX as (vis & Hv & HX). rewrite (alone_acc s i p) in Hv by done. injection Hv as <-. rewrite HX. unfold set_U, set_X. cbn [pX pU pP pN pT].
    rewrite vadd_0_l, (gravity_R (wm := wm)), !vscalr_scal. done.
  Qed.
  Lemma alone_gradient s s' i p : alone s i p -> modify_by_gradient s = Some s' -> alone s' i p.
  Proof.
    intros HA H. pose proof (gradient_at s s' i p H (al_at _ _ _ HA)) as HX. rewrite (proj2 (alone_active _ _ _ HA)) in HX.
    apply (alone_phase s s' i p); [done|by apply gradient_pr| |done]. destruct HX as (a & Ha & HX).
    assert (a = vzero) as ->.
    { unfold grad_value in Ha. cbv zeta in Ha. destruct (cGC cfg); rewrite ?(alone_acc s i p) in Ha by done; cbn [mbind option_bind] in Ha;
      rewrite ?(alone_acc s i p) in Ha by done; cbn [mbind option_bind] in Ha; injection Ha as <-; apply vscal_zero. }
    rewrite HX. f_equal. unfold kicked, set_U, set_X. destruct p as [x u pr n t]. cbn [pX pU pP pN pT]. f_equal.
    - rewrite vscalr_scal, vscal_zero. apply vadd_0_r.
    - apply vadd_0_r.
  Qed.
  Lemma alone_stabilize s s' i p : alone s i p -> stabilize s = Some s' -> alone s' i p.
  Proof.
    intros HA H. pose proof (stabilize_at s s' i p H (al_at _ _ _ HA)) as HX. rewrite (proj2 (alone_active _ _ _ HA)) in HX.
    apply (alone_phase s s' i p); [done|by apply stabilize_pr| |done]. destruct HX as (a & Ha & HX).
    assert (a = vzero) as ->.
    { unfold ds_value in Ha. cbv zeta in Ha. destruct (cOrigX s !! i); [|done]. cbn [mbind option_bind] in Ha.
      rewrite (alone_acc s i p) in Ha by done. cbn [mbind option_bind] in Ha. injection Ha as <-. apply vscal_zero. }
    rewrite HX. f_equal. unfold kicked, set_U, set_X. destruct p as [x u pr n t]. cbn [pX pU pP pN pT]. f_equal.
    - rewrite vscalr_scal, vscal_zero. apply vadd_0_r.
    - apply vadd_0_r.
  Qed.

  (** Its equation, in the build with virtual particles: void. *)
  Lemma alone_equation s s1 i p :
    alone s i p -> cSPP cfg = true -> 0 < eN0 (cEnv s) -> pN p = lone_N (cEnv s) -> cNws s !! i = Some (0 : Rnum) ->
    (cECS cfg = true -> cEcs s !! i = Some (0 : Rnum)) -> set_ppe s = Some s1 ->
    (cA s1 : list (mrow (N := Rnum))) !! i = Some ([(i, @nofZ Rnum 0)] : mrow (N := Rnum)) /\ cBv s1 !! i = Some (0 : Rnum) /\ cXv s1 !! i = Some (pP p).
  Proof.
    intros HA HS Hn0 HN HW HE H1. pose proof (al_at _ _ _ HA) as Hp. destruct (alone_active _ _ _ HA) as [Hact _].
    destruct (set_ppe_at s s1 i p H1 Hp) as ((v & Hv & Hb & Hxv) & es & Hes & HAi).
    assert (ppe_excluded (cEnv s) p = false) as Hexc by (unfold ppe_excluded; rewrite Hact, HS; done).
    unfold row_entries in Hes. rewrite Hexc, (alone_acc s i p) in Hes by done. cbn in Hes. injection Hes as <-. cbn in HAi.
    assert (density_speed s i = Some (0 : Rnum)) as Hsp.
    { unfold density_speed. rewrite Hp. cbn [mbind option_bind]. rewrite HS, HW. cbn [mbind option_bind].
      destruct (cHS cfg).
      - assert ((0 : Rnum) <?. eN0 (cEnv s) = true) as -> by (by apply Rltb_true). done.
      - rewrite HN. unfold lone_N. rewrite HS. f_equal. cbn. rewrite Rmax_left by lra. unfold Rdiv. rewrite Rminus_eq_0. apply Rmult_0_l. }
    unfold rhs_value in Hv. rewrite Hexc, Hsp in Hv. cbn [mbind option_bind] in Hv.
    assert (v = ((0, pP p) : R * R)) as ->; [|done].
    destruct (cECS cfg); [rewrite HE in Hv by done; cbn [mbind option_bind] in Hv|]; injection Hv as <-; f_equal; cbn; ring.
  Qed.

  (** The pressure it is left with. *)
  Definition lone_P (old : R) : R := if cExplicit cfg then 0 else if cSPP cfg then Rmax 0 old else 0.
  Lemma alone_implicit s s' i p :
    alone s i p -> 0 < eN0 (cEnv s) -> 0 < eRho (cEnv s) -> 0 < eSurf (cEnv s) ->
    length (cXv s) = length (cA s) -> length (cBv s) = length (cA s) ->
    pN p = lone_N (cEnv s) -> cNws s !! i = Some (0 : Rnum) -> (cECS cfg = true -> cSPP cfg = true -> cEcs s !! i = Some (0 : Rnum)) ->
    compute_implicit s = Done s' -> alone s' i (set_P (lone_P (pP p) : Rnum) p).
  Proof.
    intros HA Hn0 Hrho Hsurf LX LB HN HW HE H. pose proof (al_at _ _ _ HA) as Hp. destruct (alone_active _ _ _ HA) as [Hact _].
    destruct (cExplicit cfg) eqn:Hx.
    - destruct (implicit_Done_explicit s s' H Hx) as (s1 & H1 & H2). pose proof (explicitp_at _ _ _ _ H1 Hp) as Hp1.
      apply (alone_gradient s1); [|done]. apply (alone_phase s s1 i p); [done|by apply (explicitp_pr (psize s))| |done].
      rewrite Hp1. unfold lone_P. rewrite Hx. do 2 f_equal. rewrite HN. unfold explicit_pressure. cbv zeta. unfold nleb. cbn [Rnum].
      unfold lone_N. destruct (Rle_dec _ _) as [_|N]; [done|]. exfalso. apply N. cbn. destruct (cSPP cfg).
      + rewrite Rmax_left by lra. right. field. lra.
      + rewrite Rmult_0_r. lra.
    - destruct (implicit_Done s s' H Hx) as (s1 & s2 & s3 & [H1 H2 H3 H4 H5]).
      assert (phase_rel s s1) as P1 by (by apply set_ppe_pr).
      apply (alone_gradient s3); [|done].
      assert (cParts s2 = cParts s) as HP2 by (rewrite H2; simpl; by rewrite (set_ppe_rest _ _ H1)).
      assert (cEnv s2 = cEnv s) as HE2 by (rewrite H2; simpl; by rewrite (set_ppe_rest _ _ H1)).
      assert (cParts s2 !! i = Some p) as Hp2 by (by rewrite HP2).
      pose proof (assign_at _ _ _ _ H4 Hp2) as Ha. rewrite Hact in Ha. destruct Ha as (x & Hx2 & Hp3).
      assert (alone s2 i p) as A2.
      { destruct HA as [B1 B2 B3 B4 B5]. split; try done; rewrite H2; simpl; rewrite (set_ppe_rest _ _ H1); done. }
      apply (alone_phase s2 s3 i p); [done|by apply (assign_pr (psize s2))| |done]. rewrite Hp3. do 2 f_equal.
      unfold clamp, lone_P. rewrite Hx, HE2, HN. unfold lone_N, is_surface.
      destruct (cSPP cfg) eqn:HS; cbn [negb andb].
      + rewrite orb_false_r. assert (x = pP p) as ->.
        { destruct (alone_equation s s1 i p HA HS Hn0 HN HW ltac:(auto) H1) as (HAi & Hb & Hxv).
          rewrite H2 in Hx2. cbn [cXv with_ppe] in Hx2.
          assert (length (cXv s1 : list R) = length (cA s1) /\ length (cBv s1 : list R) = length (cA s1)) as [L1 L2] by exact (pr_ppe _ _ P1 LX LB).
          pose proof (solve_untouched (cA s1) i (cXv s1) (cBv s1) (cEps s1) (length (cA s1)) eq_refl L1 L2) as HSo.
          rewrite (el_lookup _ _ _ Hx2), (el_lookup _ _ _ Hxv) in HSo. apply HSo; [|exact (el_lookup _ _ _ Hb)].
          intros y. rewrite (el_Ax (cA s1)), HAi. cbn. ring. }
        unfold nltb. cbn [Rnum]. destruct (Rlt_dec _ _) as [L|L]; [rewrite Rmax_left; [done|]|rewrite Rmax_right; [done|]]; cbn in L; lra.
      + assert (nltb ((0 : Rnum) /. eN0 (cEnv s)) (eSurf (cEnv s)) = true) as HT.
        { apply Rltb_true. cbn. unfold Rdiv. by rewrite Rmult_0_l. }
        rewrite HT, orb_true_r. done.
  Qed.

  (** ** C62 *)
  (** Up to the pressure. *)
  Lemma alone_prefix env0 (dt : R) s s1 s2 s3 s4 s5 s6 i p p1 :
    square_ground env0 -> sensible_constants env0 -> reachable env0 s -> step_prefix (dt : Rnum) s s1 s2 s3 s4 s5 s6 ->
    cParts s !! i = Some p -> fluid p -> nobody_near (eNL env0) s i (pX p) -> cParts s1 !! i = Some p1 -> enabled p1 ->
    let u := pU p +^ (dt : Rnum) *^ gravity_at env0 (pX p) in
    let p6 := mkParticle (pX p +^ (dt : Rnum) *^ u) u (pP p) (if cSPP cfg then eN0 env0 else 0) (pT p) in
    alone s6 i p6 /\ cNws s6 !! i = Some (0 : Rnum) /\ (cECS cfg = true -> cSPP cfg = true -> cEcs s6 !! i = Some (0 : Rnum)) /\
    lone_N (cEnv s6) = (if cSPP cfg then eN0 env0 else 0) /\ length (cXv s6) = length (cA s6) /\ length (cBv s6) = length (cA s6) /\
    0 < eN0 (cEnv s6) /\ 0 < eRho (cEnv s6) /\ 0 < eSurf (cEnv s6).
  Proof.
    intros Hsq (HNL & Hn0 & Hrho & Hsurf) Hr [H1 H2 H3 H4 H5 H6] Hp Hf Hnear Hp1 Hen u p6.
    pose proof (inv_env _ _ (reachable_inv env0 s Hsq Hr)) as Hc.
    destruct (search_frame (start_step (dt : Rnum) s) s1) as [Eq1 F1]; [by rewrite H1|].
    assert (cEnv s1 = cEnv (start_step (dt : Rnum) s)) as V1 by (by rewrite Eq1).
    set (env := cEnv (start_step (dt : Rnum) s)) in *.
    assert (phase_rel s1 s2) as P2 by (by apply dens_pr).
    assert (phase_rel s2 s3) as P3. { destruct (cECS cfg); [by apply ecs_pr|subst s3; apply phase_rel_refl]. }
    assert (phase_rel s3 s4) as P4 by (by apply explicit_pr).
    assert (phase_rel s4 s5) as P5 by (by apply dens_pr).
    assert (phase_rel s5 s6) as P6. { destruct (cDS cfg); [by apply savex_pr|subst s6; apply phase_rel_refl]. }
    assert (phase_rel s1 s6) as P16 by eauto 10 using phase_rel_trans.
    assert (cEnv s2 = env) as V2 by (rewrite (pr_env _ _ P2); exact V1).
    assert (cEnv s3 = env) as V3 by (rewrite (pr_env _ _ P3); exact V2).
    assert (cEnv s4 = env) as V4 by (rewrite (pr_env _ _ P4); exact V3).
    assert (cEnv s6 = env) as V6 by (rewrite (pr_env _ _ P6), (pr_env _ _ P5); exact V4).
    assert (eDt env = dt /\ eN0 env = eN0 env0 /\ eRho env = eRho env0 /\ eSurf env = eSurf env0 /\ forall x : V, gravity_at env x = gravity_at env0 x) as (C1 & C2 & C3 & C4 & C5).
    { unfold env, start_step. cbn [cEnv with_env]. rewrite Hc. done. }
    destruct (C07_disabled_iff_outside env0 dt s s1 i p Hsq HNL Hr H1 Hp) as (p1' & Hp1' & E1 & E2 & E3 & E4 & E5 & _).
    rewrite Hp1 in Hp1'. injection Hp1' as <-.
    assert (p1 = p) as ->.
    { destruct E5 as [E5|E5]; [|exfalso; apply Hen; congruence]. destruct p, p1; cbn in *; congruence. }
    destruct (C01_search_exact env0 dt s s1 i p Hsq HNL Hr H1 Hp1) as (l & Hl & _ & Hin); [unfold enabled, fluid in *; congruence|].
    assert (l = []) as ->.
    { destruct l as [|j l]; [done|]. exfalso. destruct (proj1 (Hin j)) as (Hij & p0 & q & Hp0 & Hq & Hq2 & Hd); [by left|].
      rewrite Hp1 in Hp0. injection Hp0 as <-. destruct (Forall2_lookup_r _ _ _ j q F1 Hq) as (q0 & Hq0 & K). cbn [start_step with_env cParts] in Hq0.
      assert (enabled q0 /\ pX q0 = pX q) as [K1 K2].
      { destruct K as [->| ->]; [done|]. by exfalso. }
      specialize (Hnear j q0 ltac:(congruence) Hq0 K1). rewrite K2 in Hnear. simpl in *. lra. }
    pose proof (reachable_inv env0 s Hsq Hr) as Hinv. destruct (inv_ok _ _ Hsq Hinv) as [Hwf Hok].
    assert (P_Search.wf s1) as W1 by (eapply wf_searched; [by apply (wf_start (dt : Rnum))|by apply (search_searched env0 dt s s1)]).
    assert (alone s1 i p) as A1.
    { split; try done; apply lookup_lt_is_Some_2; [rewrite (wf_nws _ W1)|rewrite (wf_du _ W1)]; by eapply lookup_lt_Some. }
    destruct (alone_dens s1 s2 i p A1 H2) as [A2 N2]. rewrite V1 in A2. set (p2 := set_N _ p) in A2.
    assert (lone_N env = if cSPP cfg then eN0 env0 else 0) as HLN. { unfold lone_N. rewrite C2. destruct (cSPP cfg); [|done]. apply Rmax_left. lra. }
    assert (alone s3 i p2 /\ (cECS cfg = true -> cSPP cfg = true -> cEcs s3 !! i = Some (0 : Rnum))) as [A3 HE3].
    { destruct (cECS cfg) eqn:HEC; [|by subst s3].
      split; [apply (alone_phase s2 s3 i p2); [done|done| |done]; rewrite (ecs_rest _ _ H3); apply A2|].
      intros _ HS. pose proof (ecs_at s2 s3 i p2 H3 (al_at _ _ _ A2)) as HX. rewrite (proj1 (alone_active _ _ _ A2)) in HX.
      destruct HX as (sp & _ & ->). rewrite V2. unfold p2. cbn [pN set_N]. rewrite HLN, HS, C2. f_equal. cbn.
      unfold Rdiv. rewrite Rminus_eq_0, Rmult_0_l, Rabs_R0. ring. }
    pose proof (alone_explicit s3 s4 i p2 A3 H4) as A4. cbv zeta in A4. rewrite V3, C1, C5 in A4. unfold p2 in A4. cbn [pX pU pP pN pT set_N] in A4. fold u in A4.
    destruct (alone_dens s4 s5 i _ A4 H5) as [A5 N5]. rewrite V4 in A5. unfold set_N in A5. cbn [pX pU pP pN pT] in A5. rewrite HLN in A5.
    assert (alone s6 i p6 /\ cNws s6 = cNws s5 /\ cEcs s6 = cEcs s5) as (A6 & N6 & E6).
    { destruct (cDS cfg); [|by subst s6]. pose proof (savex_rest _ _ H6) as HX.
      split; [|by rewrite HX]. eapply (alone_phase s5 s6); [exact A5|by apply savex_pr| |done]. rewrite HX. apply A5. }
    destruct (pr_ppe _ _ P16 (wf_ax _ W1) (wf_ab _ W1)) as [LX LB]. rewrite V6, C2, C3, C4, HLN.
    split; [done|]. split; [by rewrite N6|]. split; [|done].
    intros Q1 Q2. rewrite E6, (dens_rest _ _ H5). simpl. rewrite (explicit_rest _ _ H4). simpl. by apply HE3.
  Qed.

  (** A fluid particle on its own, as long as it does not leave the domain, moves freely for the whole step: no viscosity,
      no pressure, no stabilisation.  Its density is that of a surface particle.  Its pressure: zero, or in the build with
      virtual particles whatever it was before (if that was not negative): its equation is void. *)
  Theorem C62_alone env0 (dt : R) s s' i p p' :
    square_ground env0 -> sensible_constants env0 -> reachable env0 s -> forward_dt (dt : Rnum) s = Done s' ->
    cParts s !! i = Some p -> fluid p -> nobody_near (eNL env0) s i (pX p) -> cParts s' !! i = Some p' -> enabled p' ->
    let u := pU p +^ (dt : Rnum) *^ gravity_at env0 (pX p) in
    p' = mkParticle (pX p +^ (dt : Rnum) *^ u) u
           (if cExplicit cfg then 0 else if cSPP cfg then Rmax 0 (pP p) else 0)
           (if cSPP cfg then eN0 env0 else 0) Newton.
  Proof.
    intros Hsq Hsc Hr H Hp Hf Hnear Hp' Hen u.
    destruct (forward_Done (dt : Rnum) s s' H) as (s1 & s2 & s3 & s4 & s5 & s6 & s7 & HT).
    pose proof (trace_phase _ _ _ _ _ _ _ _ _ _ HT) as Hph. 
    assert (phase_rel s1 s') as P8 by (apply Hph; rewrite !elem_of_cons; tauto).
    destruct (phase_type _ _ _ _ P8 Hp') as (p1 & Hp1 & Ht).
    destruct HT as [H1 H2 H3 H4 H5 H6 H7 H8].
    destruct (alone_prefix env0 dt s s1 s2 s3 s4 s5 s6 i p p1) as (A6 & N6 & E6 & HLN & LX & LB & K1 & K2 & K3); try done; [unfold enabled in *; congruence|].
    apply (alone_implicit s6 s7) in A6; try done.
    unfold set_P in A6. cbn [pX pU pP pN pT] in A6. fold u in A6.
    assert (alone s' i (mkParticle (pX p +^ (dt : Rnum) *^ u) u (lone_P (pP p)) (if cSPP cfg then eN0 env0 else 0) (pT p))) as A8.
    { destruct (cDS cfg); [by apply (alone_stabilize s7 s')|by rewrite H8]. }
    pose proof (al_at _ _ _ A8) as HF. rewrite Hp' in HF. injection HF as ->. unfold fluid in Hf. rewrite Hf. done.
  Qed.

  (** Then it follows the ballistic curve of the time-stepping scheme. *)
  Theorem C62_trajectory env0 (dt : R) n s s' i p :
    square_ground env0 -> sensible_constants env0 -> cCentral cfg = false -> reachable env0 s ->
    cParts s !! i = Some p -> fluid p -> alone_for env0 dt i n s s' ->
    exists p', cParts s' !! i = Some p' /\ fluid p' /\
      pU p' = pU p +^ (INR n * dt : Rnum) *^ eG env0 /\
      pX p' = pX p +^ (INR n * dt : Rnum) *^ pU p +^ (INR n * (INR n + 1) / 2 * dt ^ 2 : Rnum) *^ eG env0.
  Proof.
    intros Hsq Hsc HC Hr Hp Hf HA.
    assert (reachable env0 s' /\ exists p', cParts s' !! i = Some p' /\ fluid p' /\
      pU p' = pU p +^ (INR n * dt : Rnum) *^ eG env0 /\
      pX p' = pX p +^ (INR n * dt : Rnum) *^ pU p +^ (INR n * (INR n + 1) / 2 * dt ^ 2 : Rnum) *^ eG env0) as [_ HX]; [|done].
    induction HA as [s|n s s1 s' p1 p2 HA IH Hp1 Hn H Hp2 He].
    - split; [done|]. exists p. split; [done|]. split; [done|]. split; apply coord_ext; intros k Hk; rewrite ?coord_add, ?coord_scal by done; cbn [INR]; field.
    - destruct (IH Hr Hp) as (Hr1 & q & Hq & Hfq & HU & HX). rewrite Hp1 in Hq. injection Hq as <-.
      pose proof (C62_alone env0 dt s1 s' i p1 p2 Hsq Hsc Hr1 H Hp1 Hfq Hn Hp2 He) as ->. split.
      + apply (reach_done env0 (ForwardTimeBy cfg (dt : Rnum)) s1 s' Hr1 H).
      + eexists. split; [exact Hp2|]. split; [done|]. cbn [pU pX]. unfold gravity_at. rewrite HC, HX, HU.
        split; apply coord_ext; intros k Hk; rewrite ?coord_add, ?coord_scal, ?coord_add, ?coord_scal, ?coord_add, ?coord_scal by done; rewrite S_INR; field.
  Qed.
End Alone.

(** Property theorems: the explicit phase (C23, C24, C27, C54). *)
From Coq Require Import ZifyBool.
From Verif Require Import S_Terms.
From Verif Require Import P_Force.
Open Scope R_scope.

Section Explicit.
  Context {cfg : config} {wm : wallmotion Rnum (cDim cfg)}.
  Notation d := (cDim cfg).
  Notation V := (vec Rnum d).
  Notation part := (particle Rnum d).
  Notation computer := (computer cfg wm).
  Implicit Types (s : computer) (p q : part) (env : environment Rnum cfg).

  Lemma vis_func_R env p j q :
    vis_func env (pX p) (pU p) j q =
    if decide (pT q = Dummy) then vzero else (viscosity env (edist (pX p) (pX q)) : Rnum) *^ (pU q -^ pU p).
  Proof.
    unfold vis_func. assert (is_dummy (pT q) = if decide (pT q = Dummy) then true else false) as ->.
    { destruct (decide (pT q = Dummy)) as [->|Hn]; [done|]. by destruct (pT q). }
    destruct (decide (pT q = Dummy)); [done|]. rewrite dist_edist, weight_wt. unfold viscosity.
    assert (IZR (5 - Z.of_nat (dimn d)) = 5 - INR (dimn d)) as HD by (rewrite minus_IZR, <- INR_IZR_INZ; done).
    destruct (cHL cfg); f_equal; simpl; [by rewrite HD|]. rewrite <- INR_IZR_INZ. unfold Rdiv. rewrite Rinv_mult. ring.
  Qed.

  (** The explicit phase on a fluid particle, in closed form.  (The virtual particle moves along and
      causes no viscous force; dummies are left out.) *)
  Theorem C24_explicit_phase s s' i p :
    midstep s -> cCentral cfg = false -> compute_explicit s = Some s' -> cParts s !! i = Some p -> fluid p ->
    let dt := eDt (cEnv s) in
    let u := pU p +^ (dt : Rnum) *^ (viscous s i p +^ eG (cEnv s)) in
    cParts s' !! i = Some (mkParticle (pX p +^ (dt : Rnum) *^ u) u (pP p) (pN p) (pT p)).
  Proof.
    intros Hm HC H Hp Hf dt u. assert (enabled p) as He by (unfold enabled, fluid in *; congruence).
    pose proof (explicit_at s s' i p H Hp) as HX. rewrite (proj2 (is_newton_true p) Hf) in HX.
    destruct HX as (vis & Hv & HX). rewrite HX.
    rewrite (acc_V s i p) in Hv; [|left; apply Hm|apply Hm|done|done|by eapply ms_nws_at].
    assert (vis = viscous s i p) as ->.
    { injection Hv as <-. rewrite <- (vadd_0_r (viscous s i p)). f_equal.
      - apply close_vsum_ext. intros j q _ _. apply vis_func_R.
      - unfold of_virtual. destruct (virtual s i p) as [v|] eqn:Ev; [|done].
        apply virtual_fields in Ev as (HU & HT & _). rewrite vis_func_R, HU, HT. simpl. rewrite vsub_self. apply vscal_zero. }
    unfold gravity. rewrite HC. unfold set_U, set_X. simpl.
    assert (forall (a : V) (c : R), vscalr a (c : Rnum) = (c : Rnum) *^ a) as Hs.
    { intros a c. apply coord_ext. intros k Hk. rewrite coord_scal, coord_scalr by done. ring. }
    rewrite !Hs. done.
  Qed.

  (** ** C23 *)
  Theorem C23_free_fall s s' i p :
    midstep s -> cCentral cfg = false -> compute_explicit s = Some s' -> cParts s !! i = Some p -> fluid p ->
    (forall j, ~ close (eRe (cEnv s)) s i j) ->
    let dt := eDt (cEnv s) in
    let u := pU p +^ (dt : Rnum) *^ eG (cEnv s) in
    cParts s' !! i = Some (mkParticle (pX p +^ (dt : Rnum) *^ u) u (pP p) (pN p) (pT p)).
  Proof.
    intros Hm HC H Hp Hf Hiso dt u. rewrite (C24_explicit_phase s s' i p) by done.
    assert (viscous s i p = vzero) as ->; [|by rewrite vadd_0_l].
    unfold viscous. apply close_vsum_zero. intros j q _ C. by destruct (Hiso j).
  Qed.

  (** ** C24 *)
  (** A fluid particle whose fluid and wall neighbours all have its velocity feels gravity only. *)
  Theorem C24_uniform_motion s s' i p :
    midstep s -> cCentral cfg = false -> compute_explicit s = Some s' -> cParts s !! i = Some p -> fluid p ->
    (forall j q, close (eRe (cEnv s)) s i j -> cParts s !! j = Some q -> pT q <> Dummy -> pU q = pU p) ->
    exists p', cParts s' !! i = Some p' /\ pU p' = pU p +^ (eDt (cEnv s) : Rnum) *^ eG (cEnv s).
  Proof.
    intros Hm HC H Hp Hf Hu. eexists. split; [by apply (C24_explicit_phase s s' i p)|]. simpl.
    assert (viscous s i p = vzero) as ->; [|by rewrite vadd_0_l].
    unfold viscous. apply close_vsum_zero. intros j q Hq C. destruct (decide (pT q = Dummy)); [done|].
    rewrite (Hu j q) by done. rewrite vsub_self. apply vscal_zero.
  Qed.

  Lemma viscous_cancel s k : no_walls_near_fluid s -> (k < dimn d)%nat ->
    sum_n (psize s) (fun i => at_part s i 0 (fun p => if decide (fluid p) then coord (viscous s i p) k else 0)) = 0.
  Proof.
    intros Hw Hk.
    etransitivity; [|apply (pair_sum_zero (eRe (cEnv s)) s (fun i j p q => if decide (pT q = Dummy) then 0
       else viscosity (cEnv s) (edist (pX p) (pX q)) * (coord (pU q) k - coord (pU p) k)))].
    - apply sum_n_ext. intros i Hi. unfold at_part. destruct (cParts s !! i) as [p|]; [|done].
      destruct (decide (fluid p)); [|done]. unfold viscous. rewrite coord_close_vsum by done. apply close_sum_ext.
      intros j q _ _. destruct (decide _); [by apply coord_zero|]. by rewrite coord_scal, coord_sub.
    - intros i j p q _ _ Fp Fq. unfold fluid in *. rewrite Fp, Fq. simpl. rewrite edist_sym. ring.
    - intros i j p q Hp Hq Fp Fq C. destruct (Hw i j p q Hp Fp C Hq) as [|HD]; [done|]. by rewrite HD.
  Qed.

  (** C24: the explicit phase changes the total velocity of the fluid by gravity only. *)
  Theorem C24_momentum s s' :
    midstep s -> cCentral cfg = false -> compute_explicit s = Some s' -> no_walls_near_fluid s ->
    fluid_sum s' pU = fluid_sum s pU +^ (fluid_count s * eDt (cEnv s) : Rnum) *^ eG (cEnv s).
  Proof.
    intros Hm HC H Hw. apply coord_ext. intros k Hk. rewrite coord_add, coord_scal by done.
    unfold fluid_sum. rewrite !coord_vsum_n by done.
    assert (psize s' = psize s) as -> by (apply (pr_size s s'), explicit_pr, H).
    set (dt := eDt (cEnv s)). set (g := coord (eG (cEnv s)) k).
    transitivity (sum_n (psize s) (fun i => coord (at_part s i vzero (fun p => if decide (fluid p) then pU p else vzero)) k
      + (dt * at_part s i 0 (fun p => if decide (fluid p) then coord (viscous s i p) k else 0)
         + (dt * g) * at_part s i 0 (fun p => if decide (fluid p) then 1 else 0)))).
    - apply sum_n_ext. intros i Hi. destruct (lookup_lt_is_Some_2 (cParts s) i Hi) as [p Hp]. unfold at_part. rewrite Hp.
      destruct (decide (fluid p)) as [Fp|Fp].
      + rewrite (C24_explicit_phase s s' i p Hm HC H Hp Fp). cbn [pU]. destruct (decide _) as [_|Fn]; [|by destruct Fn].
        rewrite !coord_add, coord_scal, coord_add by done. unfold dt, g. ring.
      + pose proof (explicit_at s s' i p H Hp) as HX. assert (is_newton (pT p) = false) as HN.
        { destruct (is_newton (pT p)) eqn:E; [|done]. by apply is_newton_true in E. }
        rewrite HN in HX. cbv zeta in HX. rewrite HX. destruct (decide _) as [Fn|_]; [by destruct Fp|]. rewrite coord_zero by done. ring.
    - rewrite !sum_n_plus, !sum_n_scal, viscous_cancel by done. unfold fluid_count.
      unfold g, dt. ring.
  Qed.

  (** ** C54 *)
  (** With no viscous force, the displacement in the explicit phase ... *)
  Theorem C54_displacement_bound s s' i p p' (g : R) :
    midstep s -> cCentral cfg = false -> compute_explicit s = Some s' -> cParts s !! i = Some p -> fluid p ->
    cParts s' !! i = Some p' -> viscous s i p = vzero ->
    0 <= eDt (cEnv s) -> len (eG (cEnv s)) = g ->
    len (pU p) * eDt (cEnv s) <= eMaxDx (cEnv s) -> g * eDt (cEnv s) ^ 2 <= 2 * eMaxDx (cEnv s) ->
    edist (pX p) (pX p') <= eMaxDx (cEnv s) + g * eDt (cEnv s) ^ 2 /\
    edist (pX p) (pX p') <= 3 * eMaxDx (cEnv s).
  Proof.
    intros Hm HC H Hp Hf Hp' Hv Hdt Hg Hcfl Hgr. rewrite (C24_explicit_phase s s' i p) in Hp' by done.
    injection Hp' as <-. cbn [pX]. rewrite Hv, vadd_0_l. set (dt := eDt (cEnv s)) in *. set (G := eG (cEnv s)) in *.
    assert (edist (pX p) (pX p +^ (dt : Rnum) *^ (pU p +^ (dt : Rnum) *^ G)) <= len (pU p) * dt + g * dt ^ 2) as Hd.
    { rewrite edist_len, vadd_sub, len_scal, len_scal, Rabs_left, (Rabs_right dt) by lra.
      pose proof (len_triangle (pU p) ((dt : Rnum) *^ G)) as Ht. rewrite len_scal, (Rabs_right dt), Hg in Ht by lra. nra. }
    lra.
  Qed.
  (** ... can indeed exceed MaxDx: a particle falling at the speed limit moves further than that. *)
  Theorem C54_refuted s s' i p p' (k : R) :
    midstep s -> cCentral cfg = false -> compute_explicit s = Some s' -> cParts s !! i = Some p -> fluid p ->
    cParts s' !! i = Some p' -> viscous s i p = vzero ->
    0 < eDt (cEnv s) -> eG (cEnv s) <> vzero -> 0 <= k -> pU p = (k : Rnum) *^ eG (cEnv s) ->
    len (pU p) * eDt (cEnv s) = eMaxDx (cEnv s) ->
    eMaxDx (cEnv s) < edist (pX p) (pX p').
  Proof.
    intros Hm HC H Hp Hf Hp' Hv Hdt Hg Hk HU Hcfl. rewrite (C24_explicit_phase s s' i p) in Hp' by done.
    injection Hp' as <-. cbn [pX]. rewrite Hv, vadd_0_l. set (dt := eDt (cEnv s)) in *. set (G := eG (cEnv s)) in *.
    assert (0 < len G) as HG.
    { destruct (len_nonneg G) as [|E]; [done|]. exfalso. apply Hg. by apply len_zero_iff. }
    rewrite edist_len, vadd_sub, len_scal, len_scal, Rabs_left, (Rabs_right dt) by lra. rewrite <- Hcfl, HU.
    replace ((k : Rnum) *^ G +^ (dt : Rnum) *^ G) with ((k + dt : Rnum) *^ G).
    - rewrite !len_scal. clearbody dt. simpl in dt. rewrite (Rabs_right k), (Rabs_right (k + dt)) by lra.
      assert (0 < dt * (dt * len G)) by (apply Rmult_lt_0_compat; [done|by apply Rmult_lt_0_compat]). lra.
    - apply coord_ext. intros m Hm'. rewrite coord_add, !coord_scal by done. simpl. ring.
  Qed.
End Explicit.

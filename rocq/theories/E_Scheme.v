(** Example for C61: the two falling drops of E_Real meet the hypotheses. *)
From Verif Require Import P_Neigh P_Force T_Search T_Env T_Density T_Force T_Outcome S_Outcome S_Lattice S_Scheme T_Scheme M_Main E_Real.
Open Scope R_scope.

Section Example.
  Context (e : environment Rnum rcfg) (He : ex_facts e) (eps : Rnum) (s0 : rcomputer) (Hs0 : new_computer rcfg rwall eps e tt = Some s0).
  Notation start := (start_step (ex_dt : Rnum) (ex_state s0)).
  Notation env := (cEnv start).
  Definition framed (ps : list rpart) : rcomputer := with_parts start ps.
  (** A frame: both drops at height [h], velocity [u], pressure 0. *)
  Definition pair_frame (h : R) (u : rvec) (ps : list rpart) : Prop :=
    pair_like h u (framed ps) /\ forall i p, ps !! i = Some p -> pP p = 0.

  Lemma frame_constants : eRe env = 6/5 /\ eN0 env = 4/5 /\ eDt env = ex_dt /\ eG env = ((0, -10) : rvec).
  Proof. exact (ex_constants e He eps s0 Hs0 start eq_refl). Qed.
  Lemma frame_at h u ps i p : pair_frame h u ps -> ps !! i = Some p ->
    (i < 2)%nat /\ pT p = Newton /\ pU p = u /\ pX p = ((3 + INR i, h) : rvec) /\ pP p = 0.
  Proof. intros [HP H0] Hp. destruct (pair_at h u (framed ps) i p HP Hp) as (? & ? & ? & ? & _). eauto 10. Qed.
  Lemma frame_same h u ps h' u' ps' : pair_frame h u ps -> length ps' = length ps ->
    (forall i p, ps !! i = Some p -> exists p', ps' !! i = Some p' /\ pT p' = Newton /\ pU p' = u' /\ pX p' = ((3 + INR i, h') : rvec) /\ pP p' = 0) ->
    pair_frame h' u' ps'.
  Proof.
    intros [(p & q & Hs & _) _] HL H. cbn [framed cParts with_parts] in Hs. subst ps.
    destruct (H 0%nat p eq_refl) as (p' & Hp' & T1 & U1 & X1 & P1). destruct (H 1%nat q eq_refl) as (q' & Hq' & T2 & U2 & X2 & P2).
    destruct ps' as [|a [|b [|]]]; try done. injection Hp' as ->. injection Hq' as ->. split.
    - exists p', q'. repeat (split; [done|]). rewrite X1, X2. split; f_equal; cbn; lra.
    - intros [|[|i]] x Hx; [injection Hx as <-; done|injection Hx as <-; done|done].
  Qed.
  Lemma frame_density h u ps i p : pair_frame h u ps -> ps !! i = Some p -> density env ps i p = 1/5.
  Proof.
    intros [HP _] Hp. pose proof (density_raw (framed ps) i p) as HD. rewrite (pair_density h u (framed ps) i p HP (proj1 frame_constants) Hp) in HD. exact HD.
  Qed.
  Lemma frame_friction h u ps i p : pair_frame h u ps -> ps !! i = Some p -> friction env ps i p = vzero.
  Proof.
    intros [HP _] Hp. pose proof (friction_R (framed ps) i p) as HD. rewrite (pair_viscous h u (framed ps) i p HP (proj1 frame_constants) Hp) in HD. exact HD.
  Qed.
  Lemma frame_active h u ps i p : pair_frame h u ps -> ps !! i = Some p -> fluid_or_wall p.
  Proof. intros HP Hp. destruct (frame_at h u ps i p HP Hp) as (_ & T & _). unfold fluid_or_wall, enabled. by rewrite T. Qed.

  Lemma frame_densities h u ps ps' : pair_frame h u ps -> densities env ps ps' ->
    pair_frame h u ps' /\ forall i p, ps' !! i = Some p -> pN p = 4/5.
  Proof.
    intros HP [HL HD]. assert (forall i p, ps !! i = Some p -> ps' !! i = Some (mkParticle (pX p) (pU p) (pP p) (4/5) (pT p))) as HA.
    { intros i p Hp. destruct (HD i p Hp) as (p' & Hp' & F & _). rewrite Hp'. f_equal. rewrite (F (frame_active _ _ _ _ _ HP Hp)).
      change (cSPP rcfg) with true. cbn match. rewrite (frame_density h u ps i p HP Hp). destruct frame_constants as (_ & HN & _). rewrite HN.
      rewrite Rmax_left by lra. done. }
    split.
    - apply (frame_same h u ps); [done|done|]. intros i p Hp. destruct (frame_at h u ps i p HP Hp) as (_ & ? & ? & ? & ?). eexists. split; [by apply HA|done].
    - intros i p Hp'. assert (i < length ps)%nat as Hi by (rewrite <- HL; by eapply lookup_lt_Some).
      destruct (lookup_lt_is_Some_2 ps i Hi) as [p0 Hp0]. pose proof (HA i p0 Hp0) as Hx. rewrite Hp' in Hx. injection Hx as ->. done.
  Qed.
  Lemma frame_removal ps : removal env drops ps -> ps = drops.
  Proof.
    intros [HL HR]. assert (forall i p, drops !! i = Some p -> ps !! i = Some p) as HA.
    { intros i p Hp. destruct (HR i p Hp) as (p' & Hp' & _ & F). rewrite Hp'. f_equal. apply F.
      pose proof (inv_env _ _ (reachable_inv e _ (ex_square e) (ex_reachable e eps s0 Hs0))) as Hc. apply same_constants_fields in Hc as (_ & _ & _ & _ & _ & E1 & E2 & E3).
      assert (eNL env = 36/25) as N1 by (etransitivity; [exact E1|apply He]).
      assert (forall k, coord (eMinX env) k = coord ((0, 0) : rvec) k) as N2 by (intros k; etransitivity; [exact (f_equal (fun x => coord x k) E2)|by rewrite (ef_min e He)]).
      assert (forall k, coord (eMaxX env) k = coord ((10, 10) : rvec) k) as N3 by (intros k; etransitivity; [exact (f_equal (fun x => coord x k) E3)|by rewrite (ef_max e He)]).
      assert (p = drop_at 3 3 \/ p = drop_at 4 3) as Hp2 by (destruct i as [|[|i]]; [injection Hp as <-; by left|injection Hp as <-; by right|done]).
      intros (k & Hk & [HO|(n & Hn & HO)]).
      - rewrite N2 in HO. destruct Hp2 as [-> | ->]; destruct k as [|[|k]]; cbn in HO, Hk; lra || lia.
      - rewrite N2, N3, N1 in *. assert (6 < IZR n) as Hn'. { destruct k as [|[|k]]; cbn in Hn, Hk; [lra|lra|lia]. }
        destruct Hp2 as [-> | ->]; destruct k as [|[|k]]; cbn in HO, Hk; lra || lia. }
    apply list_eq. intros i. destruct (drops !! i) as [p|] eqn:Hp; [by apply HA|]. apply lookup_ge_None. apply lookup_ge_None in Hp. by rewrite HL.
  Qed.
  Lemma frame_start : pair_frame 3 vzero drops.
  Proof.
    split.
    - exists (drop_at 3 3), (drop_at 4 3). done.
    - intros [|[|i]] p Hp; [by injection Hp as <-|by injection Hp as <-|done].
  Qed.
  Lemma frame_movement wall ps ps' : pair_frame 3 vzero ps -> movement env wall ps ps' -> pair_frame fall_z fall_u ps'.
  Proof.
    intros HP [HL HM]. apply (frame_same 3 vzero ps); [done|done|]. intros i p Hp. destruct (HM i p Hp) as (p' & Hp' & F & _). exists p'. split; [done|].
    destruct (frame_at _ _ _ _ _ HP Hp) as (Hi & Tp & Up & Xp & Pp). rewrite (F Tp). cbn [pT pU pX pP]. split; [done|].
    rewrite (frame_friction _ _ _ _ _ HP Hp). unfold gravity_at. change (cCentral rcfg) with false. cbn match.
    destruct frame_constants as (_ & _ & C3 & C4). rewrite C3, C4, Up, Xp. unfold ex_dt, fall_z, fall_u.
    split; [|split; [|done]].
    all: apply coord_ext; intros k Hk; rewrite ?coord_add, ?coord_scal, ?coord_add, ?coord_scal, ?coord_add by done.
    all: destruct k as [|[|k]]; [| |cbn in Hk; lia]; cbn -[INR]; lra.
  Qed.
  Lemma frame_rate h u ps i p : pair_frame h u ps -> ps !! i = Some p -> rate env ps i p = 0.
  Proof.
    intros HP Hp. unfold rate, below. rewrite (frame_density h u ps i p HP Hp). destruct frame_constants as (_ & -> & _).
    destruct (Rlt_dec (1/5) (4/5)); [done|lra].
  Qed.
  Lemma frame_residual h u ps c (x : nat -> R) i p : pair_frame h u ps -> (forall i, c i = 0) -> (forall i, x i = 0) -> ps !! i = Some p ->
    residual env c ps x i p = 0.
  Proof.
    intros HP Hc Hx Hp. unfold residual. rewrite (frame_rate h u ps i p HP Hp), Hc. unfold pressure_laplacian, nsum.
    rewrite sum_n_zero.
    - unfold surface_term. destruct (surface_particle _ _ _ _); rewrite ?Hx; ring.
    - intros j _. destruct (decide _); [|done]. destruct (ps !! j); [|done]. destruct (decide _); [done|]. rewrite !Hx. destruct (decide _); ring.
  Qed.
  Lemma frame_solved h u ps c (x : nat -> R) i p : pair_frame h u ps -> (forall i, c i = 0) -> solved env eps c ps x -> ps !! i = Some p -> x i = 0.
  Proof.
    intros HP Hc HS Hp. assert (has_pressure env p) as Hu by (split; [by eapply frame_active|by left]).
    destruct HS as [[HS _]|HS]; [rewrite (HS i p Hp Hu); by apply (frame_at h u ps i p HP Hp)|].
    exfalso. assert (residual2 env c ps (old_pressures ps) = 0) as HZ.
    { unfold residual2. apply sum_n_zero. intros j _. destruct (ps !! j) as [q|] eqn:Hq; [|done]. destruct (decide _); [|done].
      rewrite (frame_residual h u ps c _ j q HP Hc); [ring| |done]. intros k. unfold old_pressures. destruct (ps !! k) as [r|] eqn:Hr; [|done]. by apply (frame_at h u ps k r HP Hr). }
    rewrite HZ, Rmult_0_r in HS. assert (0 <= residual2 env c ps x); [|lra]. unfold residual2. apply sum_n_nonneg. intros j _.
    destruct (ps !! j); [|lra]. destruct (decide _); [apply pow2_ge_0|lra].
  Qed.
  Lemma frame_second h u ps1 ps2 ps4 : (exists h1 u1, pair_frame h1 u1 ps1) -> pair_frame h u ps2 -> second_half env eps ps1 ps2 ps4 -> pair_frame h u ps4.
  Proof.
    intros (h1 & u1 & HP1) HP2 (ps3 & (x & HS & HL3 & H3) & HL4 & H4).
    assert (forall i, compensations env ps1 i = 0) as Hc.
    { intros i. unfold compensations. destruct (ps1 !! i) as [p|] eqn:Hp; [|done]. unfold compensation. change (cECS rcfg) with true. cbn match. cbv zeta.
      rewrite (frame_rate h1 u1 ps1 i p HP1 Hp), Rabs_R0. ring. }
    assert (pair_frame h u ps3) as HP3.
    { apply (frame_same h u ps2); [done|done|]. intros i p Hp. destruct (H3 i p Hp) as (p' & Hp' & F & _). exists p'. split; [done|].
      rewrite (F (frame_active _ _ _ _ _ HP2 Hp)). destruct (frame_at _ _ _ _ _ HP2 Hp) as (Hi & Tp & Up & Xp & Pp). cbn [pT pU pX pP]. repeat (split; [done|]).
      destruct (decide _); [|done]. rewrite (frame_solved h u ps2 _ x i p HP2 Hc HS Hp). apply Rmax_left. lra. }
    apply (frame_same h u ps3); [done|done|]. intros i p Hp. destruct (H4 i p Hp) as (p' & Hp' & F & _). exists p'. split; [done|].
    destruct (frame_at _ _ _ _ _ HP3 Hp) as (Hi & Tp & Up & Xp & Pp). specialize (F Tp). change (cGC rcfg) with false in F. cbn match in F.
    assert (push env ps3 i p = vzero) as HZ.
    { unfold push. assert (forall q (r : R), r = 0 -> push_term env p q r = vzero) as HT.
      { intros q r ->. unfold push_term. apply coord_ext. intros k Hk. rewrite coord_scal, coord_zero by done. unfold Rdiv. ring. }
      assert (nvsum env ps3 i (fun j q => if decide (pT q = Dummy) then vzero else push_term env p q (pP q + pP p)) = vzero) as ->.
      { unfold nvsum. apply coord_ext. intros k Hk. rewrite coord_vsum_n, coord_zero by done. apply sum_n_zero. intros j _.
        destruct (decide _); [|by apply coord_zero]. destruct (ps3 !! j) as [q|] eqn:Hq; [|by apply coord_zero].
        destruct (decide _); [by apply coord_zero|]. rewrite HT; [by apply coord_zero|]. destruct (frame_at _ _ _ _ _ HP3 Hq) as (_ & _ & _ & _ & ->). rewrite Pp. ring. }
      unfold surface_term. destruct (surface_particle _ _ _ _); [|apply vadd_0_r]. rewrite HT by done. apply vadd_0_r. }
    rewrite HZ in F. rewrite F. unfold kick. cbn [pT pU pX pP]. rewrite !vscal_zero, !vadd_0_r. done.
  Qed.
  Lemma frame_displaced h u ps : pair_frame h u ps -> Rabs (3 - h) <= 12/100 -> displaced_at_most ((eNL e - eRe e) / 2) drops ps.
  Proof.
    intros [HP _] Hh. pose proof (pair_moved e He 3 vzero h u (ex_state s0) (framed ps) (ex_start e eps s0 Hs0) HP Hh) as HM.
    unfold moved_at_most in HM. rewrite (ex_parts e eps s0 Hs0) in HM. exact HM.
  Qed.
End Example.

Theorem example_scheme : exists (env0 : environment Rnum rcfg) (s s' : rcomputer),
  ex_env = Some env0 /\ square_ground env0 /\ 0 < eRe env0 /\ eRe env0 <= eNL env0 /\ reachable env0 s /\ cParts s = drops /\
  forward_dt (ex_dt : Rnum) s = Done s' /\
  let env := set_next_t (set_dt (ex_dt : Rnum) (cEnv s)) in
  let wall i := wPos rwall (wPre rwall (cWall s) (eT env) (ex_dt : Rnum)) i (eT env) (ex_dt : Rnum) in
  displacements_at_most env ((eNL env0 - eRe env0) / 2) wall (cEps s) (cParts s).
Proof.
  destruct ex_env_facts as (e & Hee & He). destruct (ex_new e He (1/1000000 : Rnum)) as [s0 Hs0].
  destruct (ex_completes e He _ s0 Hs0) as [s' Hf]. exists e, (ex_state s0), s'.
  split; [done|]. split; [apply ex_square|]. split; [rewrite (ef_re e He); lra|]. split; [rewrite (ef_re e He), (ef_nl e He); lra|].
  split; [by apply (ex_reachable e (1/1000000 : Rnum))|]. split; [by apply (ex_parts e (1/1000000 : Rnum))|]. split; [done|]. intros env wall.
  change env with (cEnv (start_step (ex_dt : Rnum) (ex_state s0))). rewrite (ex_parts e _ s0 Hs0).
  assert (Rabs (3 - fall_z) <= 12/100) as Hfall by (unfold fall_z; rewrite Rabs_pos_eq; lra).
  assert (cEps (ex_state s0) = (1/1000000 : Rnum)) as Heps.
  { pose proof Hs0 as H. unfold new_computer in H. destruct (new_grid _ _ _ _ _); [|done]. by injection H as <-. }
  split.
  - intros ps0 ps1 ps' H1 H2 H3. rewrite (frame_removal e He _ s0 Hs0 ps0 H1) in H2.
    destruct (frame_densities e He _ s0 Hs0 3 vzero drops ps1 (frame_start s0) H2) as [HP1 _].
    apply (frame_displaced e He _ s0 Hs0 fall_z fall_u); [|done]. by apply (frame_movement e He _ s0 Hs0 wall ps1).
  - intros _ ps1 ps2 ps4 (ps0 & ps' & H1 & H2 & H3 & H4) HS. rewrite (frame_removal e He _ s0 Hs0 ps0 H1) in H2.
    destruct (frame_densities e He _ s0 Hs0 3 vzero drops ps1 (frame_start s0) H2) as [HP1 _].
    pose proof (frame_movement e He _ s0 Hs0 wall ps1 ps' HP1 H3) as HP'. destruct (frame_densities e He _ s0 Hs0 _ _ ps' ps2 HP' H4) as [HP2 _].
    apply (frame_displaced e He _ s0 Hs0 fall_z fall_u); [|done]. rewrite Heps in HS. eapply (frame_second e He _ s0 Hs0 _ _ ps1 ps2); eauto.
Qed.

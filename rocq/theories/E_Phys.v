(** Examples for C67 and C68: the plus of [E_Plus], sheared. *)
From Verif Require Import P_Neigh P_Force P_Phase P_Step P_Point P_Search P_AccR T_Search T_Env T_Density T_Force T_Speed T_Grad
  T_Outcome S_Outcome S_Lattice S_Ppe M_Main T_Scheme S_Phys T_Phys E_Real E_Scene E_Plus E_Plus2.
Open Scope R_scope.

Section Shear.
  Context (x hs ecs gc ds spp mid : bool).
  Notation cfg := (plane x hs true ecs gc ds spp mid false).
  Notation V := (vec Rnum (cDim cfg)).
  Definition shear (a b : Z) : V := ((0, IZR a - 5) : V).
  Definition calm (a b : Z) : R := 0.
  Notation wm := (fixed_walls (N := Rnum) cfg (map pX (plus x hs true ecs gc ds spp mid false shear calm))).
  Notation computer := (computer cfg wm).
  Notation at_sites := (at_sites x hs true ecs gc ds spp mid false shear calm).

  Record plain (e : environment Rnum cfg) : Prop := { pl_re : eRe e = 6/5; pl_n0 : eN0 e = 4/5; pl_nu : eNu e = 1 }.
  Lemma shear_apart (s : computer) : at_sites s -> all_apart (cParts s).
  Proof.
    intros [_ HS] i j p q Hij Hp Hq _ _ E. destruct (HS i p Hp) as (ab & Hab & Xp & _). destruct (HS j q Hq) as (ab' & Hab' & Xq & _).
    rewrite Xp, Xq in E. pose proof (f_equal (fun v => coord v 0) E) as E0. pose proof (f_equal (fun v => coord v 1) E) as E1. cbn in E0, E1.
    apply eq_IZR in E0, E1. apply Hij. apply (NoDup_lookup sites i j ab); [apply (bool_decide_unpack _); vm_compute; done|done|].
    rewrite Hab'. f_equal. destruct ab, ab'. cbn in E0, E1. by subst.
  Qed.
  Lemma shear_fluid (s : computer) i p : at_sites s -> cParts s !! i = Some p -> pT p = Newton.
  Proof. intros [_ HS] Hp. by destruct (HS i p Hp) as (ab & _ & _ & T & _). Qed.
  Lemma shear_speed (s : computer) i p k : at_sites s -> cParts s !! i = Some p -> (k < 2)%nat -> -1 <= coord (pU p) k <= 1.
  Proof.
    intros [_ HS] Hp Hk. destruct (HS i p Hp) as (ab & Hab & _ & _ & -> & _). apply site_cases in Hab.
    destruct Hab as [[_ ->]|[[_ ->]|[[_ ->]|[[_ ->]|[_ ->]]]]]; (destruct k as [|[|k]]; [| |lia]); cbn; lra.
  Qed.
  Lemma shear_vc (s : computer) e i j p q : plain e -> at_sites s -> cParts s !! i = Some p -> cParts s !! j = Some q -> j ∈ adjacent i ->
    vc e p q = 9/2.
  Proof.
    intros [R1 R2 R3] HS Hp Hq Hj. unfold vc. rewrite decide_False by (by rewrite (shear_fluid s j q HS Hq)).
    rewrite (adjacent_edist _ _ _ _ _ _ _ _ _ _ _ s i j p q HS Hp Hq Hj). unfold viscous_coefficient. cbn [cHL cDim]. rewrite R1, R2, R3. cbn. lra.
  Qed.
  Lemma shear_near (s : computer) i j p : at_sites s -> cParts s !! i = Some p -> near_to (6/5) (cParts s) i j <-> j ∈ adjacent i.
  Proof. intros HS Hp. exact (at_sites_close _ _ _ _ _ _ _ _ _ _ _ s i j p HS Hp). Qed.
  Lemma shear_sum (s : computer) i p (f : nat -> particle Rnum (cDim cfg) -> R) b : at_sites s -> plain (cEnv s) -> cParts s !! i = Some p -> 0 <= b ->
    (forall j q, j ∈ adjacent i -> cParts s !! j = Some q -> Rabs (f j q) <= b) -> Rabs (nsum (cEnv s) (cParts s) i f) <= 4 * b.
  Proof.
    intros HS HE Hp Hb H. rewrite nsum_close, (pl_re _ HE), (plus_sum _ _ _ _ _ _ _ _ _ _ _ s i p) by done.
    assert (length (adjacent i) <= 4)%nat as HL by (do 5 (destruct i as [|i]; [cbn; lia|]); cbn; lia).
    assert (forall j, j ∈ adjacent i -> Rabs (at_part s j 0 (f j)) <= b) as H'.
    { intros j Hj. unfold at_part. destruct (cParts s !! j) as [q|] eqn:Hq; [by apply H|]. by rewrite Rabs_R0. }
    revert HL H'. generalize (adjacent i) as l. clear - Hb. intros l. 
    assert (forall l, (forall j, j ∈ l -> Rabs (at_part s j 0 (f j)) <= b) -> Rabs (rsum (map (fun j => at_part s j 0 (f j)) l)) <= INR (length l) * b) as HI.
    { clear l. induction l as [|j l IH]; intros H'.
      - cbn. rewrite Rabs_R0. lra.
      - cbn [map rsum foldr length]. rewrite S_INR. eapply Rle_trans; [apply Rabs_triang|]. specialize (IH ltac:(intros; apply H'; by right)).
        specialize (H' j ltac:(by left)). unfold rsum in IH. lra. }
    intros HL H'. eapply Rle_trans; [by apply HI|]. apply Rmult_le_compat_r; [done|]. apply le_INR in HL. cbn in HL. lra.
  Qed.
  Lemma shear_load (s : computer) i p : at_sites s -> plain (cEnv s) -> cParts s !! i = Some p -> viscous_load (cEnv s) (cParts s) i p <= 18.
  Proof.
    intros HS HE Hp. eapply Rle_trans; [apply RRle_abs|]. replace 18 with (4 * (9/2)) by lra. apply (shear_sum s i p); try done; [lra|].
    intros j q Hj Hq. fold (vc (cEnv s) p q). rewrite (shear_vc s (cEnv s) i j p q) by done. rewrite Rabs_right; lra.
  Qed.
  Lemma shear_friction (s : computer) i p k : at_sites s -> plain (cEnv s) -> cParts s !! i = Some p -> (k < 2)%nat ->
    Rabs (coord (friction (cEnv s) (cParts s) i p) k) <= 36.
  Proof.
    intros HS HE Hp Hk. rewrite friction_coord by done. replace 36 with (4 * 9) by lra. apply (shear_sum s i p); try done; [lra|].
    intros j q Hj Hq. rewrite (shear_vc s (cEnv s) i j p q) by done. pose proof (shear_speed s i p k HS Hp Hk). pose proof (shear_speed s j q k HS Hq Hk).
    apply Rabs_le. lra.
  Qed.
End Shear.

(** C67, in the build of the repository.  The centre is at rest, its neighbours to the left and right move down and up. *)
Notation pwall := (fixed_walls (N := Rnum) pcfg (map pX (plus false true true true false true true true false (shear false true true false true true true) (calm)))).
Theorem example_shear : exists (e : environment Rnum pcfg) (s s1 s2 s3 : computer pcfg pwall) p,
  reachable e s /\ search_neighbor (start_step (1/100 : Rnum) s) = Done s1 /\ compute_densities s1 = Some s2 /\
  midstep s2 /\ compute_explicit s2 = Some s3 /\ usual_constants (cEnv s2) /\ all_apart (cParts s2) /\
  free_fluid (cEnv s2) (cParts s2) /\ eDt (cEnv s2) = 1/100 /\
  (forall i p, cParts s2 !! i = Some p -> pT p = Newton -> eDt (cEnv s2) * viscous_load (cEnv s2) (cParts s2) i p <= 1) /\
  psize s2 = 5%nat /\ cParts s2 !! 1%nat = Some p /\ coord (pU p) 1 = 1.
Proof.
  destruct (plus_scene false true true true false true true true false (shear false true true false true true true) calm)
    as (e & s & s1 & s2 & [U1 U2 U3 U4 U5 U6 U7 U8 U9 U10 U11 U12 U13 U14 U15]).
  destruct (explicit_defined s2 U9) as [s3 E3].
  pose proof U13 as [HN HS]. unfold psize in HN. destruct (lookup_lt_is_Some_2 (cParts s2) 1) as [p Hp]; [lia|].
  assert (plain false true true false true true true (cEnv s2)) as HE.
  { rewrite U11. split; [exact (sf_re _ _ _ _ _ _ _ _ _ e U2)|exact (sf_n0 _ _ _ _ _ _ _ _ _ e U2)|exact (sf_nu _ _ _ _ _ _ _ _ _ e U2)]. }
  assert (eDt (cEnv s2) = 1/100) as Hdt by (by rewrite U11).
  assert (forall q j, cParts s2 !! j = Some q -> pT q = Newton) as HF by (intros q j; by apply (shear_fluid _ _ _ _ _ _ _ s2 j q)).
  exists e, s, s1, s2, s3, p. split; [done|]. split; [done|]. split; [done|]. split; [done|]. split; [done|]. split.
  { split; [rewrite (pl_nu _ _ _ _ _ _ _ _ HE); lra|]. split; [rewrite (pl_n0 _ _ _ _ _ _ _ _ HE); lra|].
    split; [|rewrite (pl_re _ _ _ _ _ _ _ _ HE); lra]. rewrite U11. change (0 < eLambda e).
    rewrite (C13_lambda _ _ _ _ _ _ _ _ _ _ _ _ _ U1 ltac:(lra) unit_lattice).
    assert (forall a b : Z, (a * a + b * b = 1)%Z -> znorm [a; b] = 1) as HZ.
    { intros a b H. unfold znorm. cbn [map rsum foldr]. rewrite Rplus_0_r, <- !mult_IZR, <- plus_IZR, H. apply sqrt_1. }
    cbn [map rsum foldr]. rewrite !HZ by done. rewrite wt_one, (sf_n0 _ _ _ _ _ _ _ _ _ e U2). lra. }
  split; [by apply (shear_apart _ _ _ _ _ _ _ s2)|].
  split; [intros i j p0 q _ _ _ Hq; left; by apply (HF q j)|]. split; [done|]. split.
  { intros i p0 Hp0 _. rewrite Hdt. pose proof (shear_load _ _ _ _ _ _ _ s2 i p0 U13 HE Hp0). lra. }
  split; [done|]. split; [done|]. destruct (HS 1%nat p Hp) as (ab & Hab & _ & _ & -> & _). apply (inj Some) in Hab. subst ab. cbn. lra.
Qed.

(** C68, in a build with the explicit pressure, without surface particles and stabilisation.  A whole step completes. *)
Notation mcfg := (plane true true true true false false false true false).
Notation mvec := (vec Rnum (cDim mcfg)).
Notation mshear := (shear true true true false false false true).
Notation mwall := (fixed_walls (N := Rnum) mcfg (map pX (plus true true true true false false false true false mshear calm))).
Theorem example_momentum : exists (e : environment Rnum mcfg) (s s' : computer mcfg mwall),
  square_ground e /\ 0 < eRe e /\ eRe e <= eNL e /\ reachable e s /\ forward_dt (1/100 : Rnum) s = Done s' /\
  (let env := set_next_t (set_dt (1/100 : Rnum) (cEnv s)) in
   let wall i := wPos mwall (wPre mwall (cWall s) (eT env) (1/100 : Rnum)) i (eT env) (1/100 : Rnum) in
   displacements_at_most env ((eNL e - eRe e) / 2) wall (cEps s) (cParts s)) /\
  only_fluid (cParts s) /\ psize s = 5%nat.
Proof.
  pose proof (plus_fits true true true true false false false true false mshear calm) as Hfit.
  destruct (scene_env_facts true true true true false false false true false) as (e & Hee & He).
  destruct (scene_new true true true true false false false true false (plus true true true true false false false true false mshear calm) e He (1/1000000 : Rnum)) as [s0 Hs0].
  set (ps := plus true true true true false false false true false mshear calm) in *.
  set (s := scene_state true true true true false false false true false ps s0).
  assert (reachable e s) as Hr by (by eapply scene_reachable). assert (square_ground e) as Hsq by (by left).
  assert (cParts s = ps) as HP by (by eapply scene_parts).
  destruct (C56_otherwise e (1/100 : Rnum) s Hsq Hr) as [[s' Hs']|[? _]]; [by eapply scene_locatable|by eapply scene_not_crowded| |discriminate].
  exists e, s, s'. split; [done|]. split; [rewrite (sf_re _ _ _ _ _ _ _ _ _ e He); lra|].
  split; [rewrite (sf_re _ _ _ _ _ _ _ _ _ e He), (sf_nl _ _ _ _ _ _ _ _ _ e He); lra|]. split; [done|]. split; [done|].
  assert (forall i p, ps !! i = Some p -> exists ab, sites !! i = Some ab /\ pX p = ((IZR ab.1, IZR ab.2) : mvec) /\ pT p = Newton /\
    pU p = mshear ab.1 ab.2 /\ pP p = calm ab.1 ab.2) as HA by (intros i p; by apply plus_at).
  split; [|split; [|unfold psize; by rewrite HP]].
  2:{ intros i p Hp. rewrite HP in Hp. left. destruct (HA i p Hp) as (ab & _ & _ & T & _). exact T. }
  cbv zeta. set (env := set_next_t (set_dt (1/100 : Rnum) (cEnv s))).
  assert (cEnv s = e) as Henv.
  { unfold s, scene_state, add_particles. cbn [cEnv]. pose proof Hs0 as H. unfold new_computer in H. destruct (new_grid _ _ _ _ _); [|done]. by injection H as <-. }
  split; [|discriminate]. intros ps0 ps1 ps' [L0 R0] [L1 D1] [L' M] i p p' Hp Hp' _.
  assert (forall j q, cParts s !! j = Some q -> ps0 !! j = Some q) as Hps0.
  { intros j q Hq. destruct (R0 j q Hq) as (q0 & Hq0 & _ & Hkeep). rewrite Hq0. f_equal. apply Hkeep.
    rewrite HP in Hq. destruct (proj2 Hfit q (elem_of_list_lookup_2 _ _ _ Hq)) as [_ Hb].
    assert (eNL env = 36/25) as N1 by (unfold env; rewrite Henv; exact (sf_nl _ _ _ _ _ _ _ _ _ e He)).
    assert (eMinX env = ((0, 0) : mvec)) as N2 by (unfold env; rewrite Henv; exact (sf_min _ _ _ _ _ _ _ _ _ e He)).
    assert (eMaxX env = ((10, 10) : mvec)) as N3 by (unfold env; rewrite Henv; exact (sf_max _ _ _ _ _ _ _ _ _ e He)).
    intros (k & Hk & HO). pose proof (Hb k Hk) as Hbk. rewrite N1, N2, N3 in HO.
    assert (forall k, (k < 2)%nat -> coord ((0, 0) : mvec) k = 0 /\ coord ((10, 10) : mvec) k = 10) as HC.
    { intros [|[|?]] ?; [done|done|lia]. }
    destruct (HC k Hk) as [C0 C1]. destruct HO as [HO|(n & Hn & HO)].
    - rewrite C0 in HO. lra.
    - rewrite C0, C1 in *. lra. }
  assert (forall j q, cParts s !! j = Some q -> exists n, ps1 !! j = Some (mkParticle (pX q) (pU q) (pP q) n (pT q))) as Hps1.
  { intros j q Hq. destruct (D1 j q (Hps0 j q Hq)) as (q1 & Hq1 & F & _). rewrite Hq1. rewrite HP in Hq.
    destruct (HA j q Hq) as (ab & _ & _ & T & _). eexists. f_equal. apply F. split; congruence. }
  set (t := with_parts (start_step (1/100 : Rnum) s) ps1 : computer mcfg mwall).
  assert (at_sites true true true true false false false true false mshear calm t) as HS.
  { split.
    - unfold psize, t. cbn [cParts with_parts]. rewrite L1, L0, HP. done.
    - intros j q Hq. cbn [t cParts with_parts] in Hq. destruct (lookup_lt_is_Some_2 (cParts s) j) as [q0 Hq0].
      { apply lookup_lt_Some in Hq. rewrite <- L0, <- L1. exact Hq. }
      destruct (Hps1 j q0 Hq0) as [n Hn]. rewrite Hn in Hq. injection Hq as <-. rewrite HP in Hq0. exact (HA j q0 Hq0). }
  assert (plain true true true false false false true (cEnv t)) as HE.
  { unfold t. cbn [cEnv with_parts start_step with_env]. rewrite Henv. split; [exact (sf_re _ _ _ _ _ _ _ _ _ e He)|exact (sf_n0 _ _ _ _ _ _ _ _ _ e He)|exact (sf_nu _ _ _ _ _ _ _ _ _ e He)]. }
  destruct (Hps1 i p Hp) as [n Hn]. destruct (M i _ Hn) as (p1 & Hp1 & Mv & _). rewrite Hp' in Hp1. injection Hp1 as <-.
  rewrite HP in Hp. destruct (HA i p Hp) as (ab & Hab & Xp & Tp & _). specialize (Mv Tp). cbv zeta in Mv. subst p'. cbn [pX].
  pose proof (shear_friction _ _ _ _ _ _ _ t i _ 0 HS HE Hn ltac:(lia)) as F0. pose proof (shear_friction _ _ _ _ _ _ _ t i _ 1 HS HE Hn ltac:(lia)) as F1.
  pose proof (shear_speed _ _ _ _ _ _ _ t i _ 0 HS Hn ltac:(lia)) as S0. pose proof (shear_speed _ _ _ _ _ _ _ t i _ 1 HS Hn ltac:(lia)) as S1.
  change (cEnv t) with env in F0, F1. change (cParts t) with ps1 in F0, F1. cbn [pU] in S0, S1.
  set (f := friction env ps1 i _) in *. clearbody f.
  assert (eDt env = 1/100) as Hdt by done. rewrite Hdt. assert (eG env = ((0, -10) : mvec)) as HG by (unfold env; rewrite Henv; exact (sf_g _ _ _ _ _ _ _ _ _ e He)).
  unfold gravity_at. cbn [cCentral pX pU]. rewrite HG. rewrite (sf_re _ _ _ _ _ _ _ _ _ e He), (sf_nl _ _ _ _ _ _ _ _ _ e He).
  assert (forall a b : mvec, Rabs (coord a 0 - coord b 0) <= 1/20 -> Rabs (coord a 1 - coord b 1) <= 1/20 -> edist a b <= 12/100) as HD.
  { intros [a0 a1] [b0 b1] H0 H1. cbn in H0, H1. unfold edist. cbn. apply Rabs_le_inv in H0, H1. rewrite <- (sqrt_square (12/100)) by lra.
    apply sqrt_le_1_alt. nra. }
  replace ((36/25 - 6/5) / 2) with (12/100) by lra.
  apply Rabs_le_inv in F0, F1.
  apply HD; rewrite !coord_add, !coord_scal, !coord_add, !coord_scal, !coord_add by (cbn; lia).
  - change (coord ((0, -10) : mvec) 0) with 0. apply Rabs_le. lra.
  - change (coord ((0, -10) : mvec) 1) with (-10). apply Rabs_le. lra.
Qed.

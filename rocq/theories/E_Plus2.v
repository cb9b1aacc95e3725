(** The examples with the plus of [E_Plus]. *)
From Verif Require Import P_Neigh P_Force P_Phase P_Step P_Point P_Search P_AccR T_Search T_Env T_Density T_Force T_Speed T_Grad
  T_Outcome S_Outcome S_Lattice S_Ppe M_Main E_Real E_Scene E_Plus.
Open Scope R_scope.

(** The build of the repository. *)
Notation pcfg := (plane false true true true false true true true false).
Lemma pcfg_default : pcfg = default_config.
Proof. done. Qed.
Notation pvec := (vec Rnum (cDim pcfg)).
Notation dplus := (plus false true true true false true true true false).
Notation dwall vel pr := (fixed_walls (N := Rnum) pcfg (map pX (dplus vel pr))).
Definition no_velocity (a b : Z) : pvec := vzero.
Definition no_pressure (a b : Z) : R := 0.

Lemma site_cases i (ab : Z * Z) : sites !! i = Some ab ->
  (i = 0 /\ ab = (5, 5)%Z \/ i = 1 /\ ab = (6, 5)%Z \/ i = 2 /\ ab = (4, 5)%Z \/ i = 3 /\ ab = (5, 6)%Z \/ i = 4 /\ ab = (5, 4)%Z)%nat.
Proof.
  intros H. do 5 (destruct i as [|i]; [apply (inj Some) in H; subst ab; tauto|]). apply lookup_lt_Some in H. cbn in H. lia.
Qed.

(** The hypotheses of [C14_lattice_density]: a particle with a complete lattice neighbourhood. *)
Theorem example_lattice : exists (env : environment Rnum pcfg) (s s1 s2 : computer pcfg (dwall no_velocity no_pressure)) p,
  new_env (N := Rnum) pcfg (1/100) (1/10) 10 1 1 (9/10) (6/5) 1 1 ((0, 0) : pvec) ((10, 10) : pvec) = Some env /\ reachable env s /\
  search_neighbor (start_step (1/100 : Rnum) s) = Done s1 /\ compute_densities s1 = Some s2 /\
  same_constants env (cEnv s1) /\ midstep s1 /\ cParts s1 !! 0%nat = Some p /\ fluid_or_wall p /\ in_lattice 1 (eRe env) s1 0 p /\
  psize s1 = 5%nat /\ eN0 env = 4/5.
Proof.
  destruct (plus_scene false true true true false true true true false no_velocity no_pressure) as (e & s & s1 & s2 & [U1 U2 U3 U4 U5 U6 U7 U8 U9 U10 U11 U12 U13 U14 U15']).
  destruct (lookup_lt_is_Some_2 (cParts s1) 0) as [p Hp]. { destruct U12 as [HN _]. unfold psize in HN. lia. }
  exists e, s, s1, s2, p. split; [done|]. split; [done|]. split; [done|]. split; [done|]. split; [by rewrite U10|]. split; [done|]. split; [done|].
  pose proof U12 as [HN HS]. destruct (HS 0%nat p Hp) as (ab & Hab & Xp & Tp & _). apply (inj Some) in Hab. subst ab.
  split; [split; congruence|]. split; [|split; [done|exact (sf_n0 _ _ _ _ _ _ _ _ _ e U2)]].
  assert (eRe e = 6/5) as HR by exact (sf_re _ _ _ _ _ _ _ _ _ e U2). rewrite HR.
  set (site := fun j => match j with 1%nat => [1; 0] | 2%nat => [-1; 0] | 3%nat => [0; 1] | _ => [0; -1] end%Z).
  assert (forall j, close (6/5) s1 0 j <-> j ∈ [1; 2; 3; 4]%nat) as HC by (intros j; by apply (at_sites_close _ _ _ _ _ _ _ _ _ _ _ s1 0 j p)).
  assert (forall a b : Z, (a * a + b * b = 1)%Z -> znorm [a; b] = 1) as HZ.
  { intros a b H. unfold znorm. cbn [map rsum foldr]. rewrite Rplus_0_r, <- !mult_IZR, <- plus_IZR, H. apply sqrt_1. }
  exists site. split; [|split].
  - intros j q Hj Hq. apply HC in Hj. destruct (HS j q Hq) as (ab & Hab & Xq & _). apply site_cases in Hab.
    destruct Hab as [[-> ->]|[[-> ->]|[[-> ->]|[[-> ->]|[-> ->]]]]]; [by rewrite !elem_of_cons, elem_of_nil in Hj; lia| | | |];
      (split; [done|]; split; [unfold site; rewrite HZ by done; lra|]; rewrite Xq, Xp; apply coord_ext; intros k Hk;
       destruct k as [|[|k]]; [| |cbn in Hk; lia]; cbn; lra).
  - intros j k Hj Hk. apply HC in Hj, Hk. rewrite !elem_of_cons, elem_of_nil in Hj, Hk.
    destruct Hj as [->|[->|[->|[->|[]]]]], Hk as [->|[->|[->|[->|[]]]]]; done.
  - intros z Hl Hz Hlt. pose proof (lw_all _ _ unit_lattice z Hl Hz ltac:(lra)) as HI.
    rewrite !elem_of_cons, elem_of_nil in HI. destruct HI as [->|[->|[->|[->|[]]]]]; [exists 1%nat|exists 2%nat|exists 3%nat|exists 4%nat];
      (split; [apply HC; rewrite !elem_of_cons; tauto|done]).
Qed.

(** Evaluating sums over the neighbours of the centre. *)
Ltac at_site HS k := match goal with |- context [cParts ?s !! k] =>
  let q := fresh "q" in let Hq := fresh "Hq" in destruct (lookup_lt_is_Some_2 (cParts s) k) as [q Hq]; [lia|];
  rewrite Hq; let ab := fresh in let Hab := fresh in let X := fresh "X" in let T := fresh "T" in let U := fresh "U" in let P := fresh "P" in
  destruct (HS k q Hq) as (ab & Hab & X & T & U & P); apply (inj Some) in Hab; subst ab; cbn [fst snd] in X, U, P end.

(** [C20_speed_is_derivative]: the fluid is stretched along x, the density of the centre falls at the rate 12/5. *)
Definition stretch (a b : Z) : pvec := ((IZR a - 5, 0) : pvec).
Theorem example_stretched : exists (env : environment Rnum pcfg) (s s1 s2 : computer pcfg (dwall stretch no_pressure)) p,
  reachable env s /\ search_neighbor (start_step (1/100 : Rnum) s) = Done s1 /\ compute_densities s1 = Some s2 /\
  midstep s2 /\ cParts s2 !! 0%nat = Some p /\ enabled p /\ cNws s2 !! 0%nat = Some (4/5 : Rnum) /\ eN0 (cEnv s2) <= 4/5 /\
  (forall j q, j <> 0%nat -> cParts s2 !! j = Some q -> enabled q -> pX q <> pX p /\ edist (pX p) (pX q) <> eRe (cEnv s2)) /\
  density_speed s2 0 = Some (-12/5 : Rnum).
Proof.
  destruct (plus_scene false true true true false true true true false stretch no_pressure) as (e & s & s1 & s2 & [U1 U2 U3 U4 U5 U6 U7 U8 U9 U10 U11 U12 U13 U14 U15']).
  pose proof U13 as [HN HS]. unfold psize in HN.
  destruct (lookup_lt_is_Some_2 (cParts s2) 0) as [p Hp]; [lia|].
  destruct (HS 0%nat p Hp) as (ab & Hab & Xp & Tp & Up & Pp). apply (inj Some) in Hab. subst ab. cbn [fst snd] in Xp, Up, Pp.
  assert (eRe (cEnv s2) = 6/5) as HR by (rewrite U11; exact (sf_re _ _ _ _ _ _ _ _ _ e U2)).
  assert (eN0 (cEnv s2) = 4/5) as HN0 by (rewrite U11; exact (sf_n0 _ _ _ _ _ _ _ _ _ e U2)).
  pose proof (U14 0%nat ltac:(lia)) as HW. case_decide; [|done].
  exists e, s, s1, s2, p. split; [done|]. split; [done|]. split; [done|]. split; [done|]. split; [done|].
  split; [unfold enabled; congruence|]. split; [done|]. split; [rewrite HN0; lra|].
  assert (forall j q, j <> 0%nat -> cParts s2 !! j = Some q -> edist (pX p) (pX q) = 1) as HD.
  { intros j q Hj Hq. apply (adjacent_edist _ _ _ _ _ _ _ _ _ _ _ s2 0 j p q U13 Hp Hq). destruct (HS j q Hq) as (ab & Hab & _).
    apply site_cases in Hab. cbn. rewrite !elem_of_cons. destruct Hab as [[-> _]|[[-> _]|[[-> _]|[[-> _]|[-> _]]]]]; tauto. }
  split.
  - intros j q Hj Hq _. rewrite (HD j q Hj Hq), HR. split; [|lra]. intros E. pose proof (HD j q Hj Hq) as E1. rewrite E in E1.
    rewrite (proj2 (edist_zero _ _) eq_refl) in E1. lra.
  - rewrite (density_speed_HS s2 0 p (4/5)) by (done || unfold enabled; congruence). f_equal. change (cSPP pcfg) with true. cbn [andb].
    match goal with |- (if ?b then _ else _) = _ => assert (b = false) as ->; [rewrite HN0; unfold nltb; cbn; destruct (Rlt_dec _ _); [lra|done]|] end.
    rewrite HR, (plus_sum _ _ _ _ _ _ _ _ _ _ _ s2 0 p) by done. cbn [adjacent map rsum foldr]. unfold at_part.
    at_site HS 1%nat. at_site HS 2%nat. at_site HS 3%nat. at_site HS 4%nat.
    rewrite (HD 1%nat q), (HD 2%nat q0), (HD 3%nat q1), (HD 4%nat q2) by done. rewrite Xp, Up, X, X0, X1, X2, U, U0, U15, U16. unfold stretch, inner, sum_n. cbn. lra.
Qed.

(** [C21_rigid_motion]: the plus rotates about the origin. *)
Definition rotating (a b : Z) : pvec := ((- IZR b, IZR a) : pvec).
Theorem example_rotating : exists (env : environment Rnum pcfg) (s s1 s2 : computer pcfg (dwall rotating no_pressure)) p,
  reachable env s /\ search_neighbor (start_step (1/100 : Rnum) s) = Done s1 /\ compute_densities s1 = Some s2 /\
  midstep s2 /\ cParts s2 !! 0%nat = Some p /\ enabled p /\ pU p = ((-5, 5) : pvec) /\ rigid_motion s2.
Proof.
  destruct (plus_scene false true true true false true true true false rotating no_pressure) as (e & s & s1 & s2 & [U1 U2 U3 U4 U5 U6 U7 U8 U9 U10 U11 U12 U13 U14 U15']).
  pose proof U13 as [HN HS]. unfold psize in HN.
  destruct (lookup_lt_is_Some_2 (cParts s2) 0) as [p Hp]; [lia|].
  destruct (HS 0%nat p Hp) as (ab & Hab & Xp & Tp & Up & Pp). apply (inj Some) in Hab. subst ab. cbn [fst snd] in Xp, Up, Pp.
  exists e, s, s1, s2, p. split; [done|]. split; [done|]. split; [done|]. split; [done|]. split; [done|]. split; [unfold enabled; congruence|].
  split; [done|]. exists vzero, (fun k l => match k, l with 0%nat, 1%nat => -1 | 1%nat, 0%nat => 1 | _, _ => 0 end). split.
  - intros [|[|k]] [|[|l]]; lra.
  - intros i q Hq _. destruct (HS i q Hq) as (ab & _ & Xq & _ & -> & _). rewrite Xq. unfold rotating, sum_n. cbn.
    f_equal; lra.
Qed.

(** [C50_linear_pressure]: the pressure is 3 x + 2 z; the build has gradient correction and no mid-point pressure. *)
Notation gcfg := (plane false true true true true true true false false).
Notation gvec := (vec Rnum (cDim gcfg)).
Definition slope (a b : Z) : R := 3 * IZR a + 2 * IZR b.
Notation gplus := (plus false true true true true true true false false).
Theorem example_slope : exists (env : environment Rnum gcfg)
    (s s1 s2 s' : computer gcfg (fixed_walls (N := Rnum) gcfg (map pX (gplus (fun _ _ => vzero) slope)))) p,
  reachable env s /\ search_neighbor (start_step (1/100 : Rnum) s) = Done s1 /\ compute_densities s1 = Some s2 /\
  midstep s2 /\ modify_by_gradient s2 = Some s' /\ cParts s2 !! 0%nat = Some p /\ fluid p /\ virtual s2 0 p = None /\
  (forall j q, close (eRe (cEnv s2)) s2 0 j -> cParts s2 !! j = Some q -> pT q <> Dummy /\ pP q = pP p + inner ((3, 2) : gvec) (pX q -^ pX p)) /\
  determinant (mmk (N := Rnum) (moment s2 0 p) : mat Rnum (cDim gcfg)) <> 0 /\
  exists p', cParts s' !! 0%nat = Some p' /\ pU p' = ((-3/100, -2/100) : gvec).
Proof.
  destruct (plus_scene false true true true true true true false false (fun _ _ => vzero) slope) as (e & s & s1 & s2 & [U1 U2 U3 U4 U5 U6 U7 U8 U9 U10 U11 U12 U13 U14 U15']).
  pose proof U13 as [HN HS]. unfold psize in HN.
  destruct (gradient_defined s2 U9) as [s' Hs'].
  destruct (lookup_lt_is_Some_2 (cParts s2) 0) as [p Hp]; [lia|].
  destruct (HS 0%nat p Hp) as (ab & Hab & Xp & Tp & Up & Pp). apply (inj Some) in Hab. subst ab. cbn [fst snd] in Xp, Up, Pp.
  assert (eRe (cEnv s2) = 6/5) as HR by (rewrite U11; exact (sf_re _ _ _ _ _ _ _ _ _ e U2)).
  assert (eN0 (cEnv s2) = 4/5) as HN0 by (rewrite U11; exact (sf_n0 _ _ _ _ _ _ _ _ _ e U2)).
  assert (eRho (cEnv s2) = 1) as Hrho by (rewrite U11; exact (sf_rho _ _ _ _ _ _ _ _ _ e U2)).
  assert (eDt (cEnv s2) = 1/100) as Hdt by (by rewrite U11).
  pose proof (U14 0%nat ltac:(lia)) as HW. case_decide; [|done].
  assert (virtual s2 0 p = None) as Hv.
  { unfold virtual. cbn [cSPP]. match goal with |- context [match ?o with Some _ => _ | None => _ end] => assert (o = Some (4/5)) as -> by exact HW end.
    rewrite HN0. destruct (Rlt_dec _ _); [lra|done]. }
  assert (forall j q, close (eRe (cEnv s2)) s2 0 j -> cParts s2 !! j = Some q -> pT q <> Dummy /\ pP q = pP p + inner ((3, 2) : gvec) (pX q -^ pX p)) as HL.
  { intros j q _ Hq. destruct (HS j q Hq) as (ab & _ & Xq & Tq & _ & ->). split; [congruence|]. rewrite Pp, Xq, Xp. unfold slope, inner, sum_n. cbn. lra. }
  assert (forall j q, j <> 0%nat -> cParts s2 !! j = Some q -> edist (pX p) (pX q) = 1) as HD.
  { intros j q Hj Hq. apply (adjacent_edist _ _ _ _ _ _ _ _ _ _ _ s2 0 j p q U13 Hp Hq). destruct (HS j q Hq) as (ab & Hab & _).
    apply site_cases in Hab. cbn. rewrite !elem_of_cons. destruct Hab as [[-> _]|[[-> _]|[[-> _]|[[-> _]|[-> _]]]]]; tauto. }
  assert (determinant (mmk (N := Rnum) (moment s2 0 p) : mat Rnum (cDim gcfg)) <> 0) as HM.
  { assert (forall a b, (a < 2)%nat -> (b < 2)%nat -> moment s2 0 p a b = if (a =? b)%nat then 2/5 else 0) as HM.
    { intros a b Ha Hb. unfold moment. rewrite HR, (plus_sum _ _ _ _ _ _ _ _ _ _ _ s2 0 p) by done. cbn [adjacent map rsum foldr]. unfold at_part.
      at_site HS 1%nat. at_site HS 2%nat. at_site HS 3%nat. at_site HS 4%nat.
      rewrite (HD 1%nat q), (HD 2%nat q0), (HD 3%nat q1), (HD 4%nat q2) by done. rewrite Xp, X, X0, X1, X2, wt_one.
      destruct a as [|[|a]], b as [|[|b]]; try lia; cbn; lra. }
    change (moment s2 0 p 0 0 * moment s2 0 p 1 1 - moment s2 0 p 0 1 * moment s2 0 p 1 0 <> 0). rewrite !HM by lia. cbn. lra. }
  exists e, s, s1, s2, s', p. do 9 (split; [done|]). split; [exact HM|].
  destruct (C50_linear_pressure s2 s' 0 p ((3, 2) : gvec) U8 eq_refl eq_refl Hs' Hp Tp Hv HL HM) as (p' & Hp' & HU).
  exists p'. split; [done|]. rewrite HU, Up, Hdt, Hrho, HN0.
  rewrite (U15' 0%nat p Hp). cbn. f_equal; field.
Qed.

(** [C35_refuted_not_conserved]: of the five particles only the one at (6, 5), which is at the surface, is under pressure. *)
Definition one_pressed (a b : Z) : R := if (a =? 6)%Z then 1 else 0.
Theorem example_push : exists (env : environment Rnum pcfg) (s s1 s2 s' : computer pcfg (dwall no_velocity one_pressed)) p,
  reachable env s /\ search_neighbor (start_step (1/100 : Rnum) s) = Done s1 /\ compute_densities s1 = Some s2 /\
  midstep s2 /\ modify_by_gradient s2 = Some s' /\ no_walls_near_fluid s2 /\
  0 < eDt (cEnv s2) /\ 0 < eRho (cEnv s2) /\ 0 < eN0 (cEnv s2) /\
  cParts s2 !! 1%nat = Some p /\ fluid p /\ virtual s2 1 p <> None /\ pP p <> 0 /\
  (forall j q, j <> 1%nat -> cParts s2 !! j = Some q -> fluid q -> virtual s2 j q = None \/ pP q = 0) /\
  fluid_sum s' pU <> fluid_sum s2 pU.
Proof.
  destruct (plus_scene false true true true false true true true false no_velocity one_pressed) as (e & s & s1 & s2 & [U1 U2 U3 U4 U5 U6 U7 U8 U9 U10 U11 U12 U13 U14 U15']).
  pose proof U13 as [HN HS]. unfold psize in HN.
  destruct (gradient_defined s2 U9) as [s' Hs'].
  destruct (lookup_lt_is_Some_2 (cParts s2) 1) as [p Hp]; [lia|].
  destruct (HS 1%nat p Hp) as (ab & Hab & Xp & Tp & Up & Pp). apply (inj Some) in Hab. subst ab. cbn [fst snd] in Xp, Up, Pp.
  assert (eRe (cEnv s2) = 6/5) as HR by (rewrite U11; exact (sf_re _ _ _ _ _ _ _ _ _ e U2)).
  assert (eN0 (cEnv s2) = 4/5) as HN0 by (rewrite U11; exact (sf_n0 _ _ _ _ _ _ _ _ _ e U2)).
  assert (eRho (cEnv s2) = 1) as Hrho by (rewrite U11; exact (sf_rho _ _ _ _ _ _ _ _ _ e U2)).
  assert (eDt (cEnv s2) = 1/100) as Hdt by (by rewrite U11).
  assert (no_walls_near_fluid s2) as HNW.
  { intros i j p0 q Hp0 _ _ Hq. left. by destruct (HS j q Hq) as (ab & _ & _ & HT & _). }
  assert (virtual s2 1 p <> None) as Hv.
  { pose proof (U14 1%nat ltac:(lia)) as HW. case_decide; [done|]. unfold virtual. cbn [cSPP].
    match goal with |- context [match ?o with Some _ => _ | None => _ end] => assert (o = Some (1/5)) as -> by exact HW end.
    rewrite HN0. destruct (Rlt_dec _ _); [|lra].
    assert (centroid s2 1 p = ((-1/4, 0) : pvec)) as HC.
    { apply coord_ext. intros k Hk. unfold centroid. rewrite coord_close_vsum by done. rewrite HR, (plus_sum _ _ _ _ _ _ _ _ _ _ _ s2 1 p) by done.
      cbn [adjacent map rsum foldr]. unfold at_part. at_site HS 0%nat. rewrite coord_scal, coord_sub by done.
      rewrite (adjacent_edist _ _ _ _ _ _ _ _ _ _ _ s2 1 0 p q U13 Hp Hq) by (cbn; rewrite elem_of_cons; tauto).
      rewrite wt_one, HN0, X, Xp. destruct k as [|[|k]]; [| |cbn in Hk; lia]; cbn; lra. }
    assert (len (centroid s2 1 p) = 1/4) as ->.
    { rewrite HC. unfold len, inner, sum_n. cbn. match goal with |- R_sqrt.sqrt ?x = _ => replace x with (1/4 * (1/4)) by field end. apply sqrt_square. lra. }
    destruct (Rlt_dec (/ 2 ^ 52) (1/4)) as [|H']; [done|]. exfalso. apply H'. replace (1/4) with (/ 2 ^ 2) by lra.
    apply Rinv_lt_contravar; [apply Rmult_lt_0_compat; apply pow_lt; lra|]. apply Rlt_pow; [lra|lia]. }
  assert (forall j q, j <> 1%nat -> cParts s2 !! j = Some q -> fluid q -> virtual s2 j q = None \/ pP q = 0) as HO.
  { intros j q Hj Hq _. right. destruct (HS j q Hq) as (ab & Hab & _ & _ & _ & ->). apply site_cases in Hab.
    by destruct Hab as [[-> ->]|[[-> ->]|[[-> ->]|[[-> ->]|[-> ->]]]]]. }
  assert (pP p <> 0) as HP by (rewrite Pp; cbn; lra).
  assert (0 < eDt (cEnv s2) /\ 0 < eRho (cEnv s2) /\ 0 < eN0 (cEnv s2)) as (K1 & K2 & K3) by (rewrite Hdt, Hrho, HN0; lra).
  exists e, s, s1, s2, s', p. do 14 (split; [done|]).
  exact (C35_refuted_not_conserved s2 s' 1 p U8 eq_refl Hs' HNW K1 K2 K3 Hp Tp Hv HP HO).
Qed.

(** [C51]: in an explicit build the pressure phase completes; a particle at the density 1 would get the pressure 1/4. *)
Notation xcfg := (plane true true true true false true false true false).
Notation xplus := (plus true true true true false true false true false).
Theorem example_state_equation : exists (env : environment Rnum xcfg)
    (s s1 s2 s' : computer xcfg (fixed_walls (N := Rnum) xcfg (map pX (xplus (fun _ _ => vzero) slope)))),
  reachable env s /\ search_neighbor (start_step (1/100 : Rnum) s) = Done s1 /\ compute_densities s1 = Some s2 /\
  compute_implicit s2 = Done s' /\ 0 < eC (cEnv s2) /\ 0 < eRho (cEnv s2) /\ 0 < eN0 (cEnv s2) /\
  (exists p p', cParts s2 !! 0%nat = Some p /\ pP p = 25 /\ cParts s' !! 0%nat = Some p' /\ pP p' = 0) /\
  state_pressure (cEnv s2) 1 = 1/4.
Proof.
  destruct (plus_scene true true true true false true false true false (fun _ _ => vzero) slope) as (e & s & s1 & s2 & [U1 U2 U3 U4 U5 U6 U7 U8 U9 U10 U11 U12 U13 U14 U15']).
  pose proof U13 as [HN HS]. unfold psize in HN.
  assert (eN0 (cEnv s2) = 4/5) as HN0 by (rewrite U11; exact (sf_n0 _ _ _ _ _ _ _ _ _ e U2)).
  assert (eRho (cEnv s2) = 1) as Hrho by (rewrite U11; exact (sf_rho _ _ _ _ _ _ _ _ _ e U2)).
  assert (eC (cEnv s2) = 1) as HC by (rewrite U11; exact (sf_c _ _ _ _ _ _ _ _ _ e U2)).
  assert (exists s', compute_implicit s2 = Done s') as [s' Hs'].
  { destruct (compute_implicit s2) as [s'|x s'|] eqn:E; [eauto| |by destruct (implicit_defined s2 U9)].
    by destruct (implicit_Throw _ _ _ E) as (_ & ? & _). }
  destruct (lookup_lt_is_Some_2 (cParts s2) 0) as [p Hp]; [lia|].
  destruct (HS 0%nat p Hp) as (ab & Hab & Xp & Tp & Up & Pp). apply (inj Some) in Hab. subst ab. cbn [fst snd] in Xp, Up, Pp.
  destruct (C51_explicit_phase s2 s' 0 p eq_refl Hs' Hp) as (p' & Hp' & HP').
  exists e, s, s1, s2, s'. do 4 (split; [done|]). split; [rewrite HC; lra|]. split; [rewrite Hrho; lra|]. split; [rewrite HN0; lra|].
  assert (forall n, state_pressure (cEnv s2) n = 1 ^ 2 * Rmax 0 (1 * n / (4/5) - 1)) as HSP.
  { intros n. unfold state_pressure. rewrite HC, Hrho, HN0. done. }
  split.
  - exists p, p'. split; [done|]. split; [rewrite Pp; unfold slope; lra|]. split; [done|]. rewrite HP', HSP, (U15' 0%nat p Hp).
    cbn [decide]. case_decide; [|done]. rewrite Rmax_left; lra.
  - rewrite HSP, Rmax_right; lra.
Qed.

(** Example for C36: two fluid particles at the distance 4/5, which is less than L_0 - MaxDx = 9/10. *)
From Verif Require Import P_Neigh P_Force P_Phase P_Step P_Point P_Search P_AccR T_Search T_Env T_Density T_Force T_Stab
  T_Outcome S_Outcome S_Lattice S_Ppe M_Main E_Real E_Scene E_Plus2.
Open Scope R_scope.

Notation ppart := (particle Rnum (cDim pcfg)).
Definition overlap : list ppart :=
  [mkParticle ((3, 3) : pvec) (vzero : pvec) 0 0 Newton; mkParticle ((19/5, 3) : pvec) (vzero : pvec) 0 0 Newton].
Notation owall := (fixed_walls (N := Rnum) pcfg (map pX overlap)).
Notation ocomputer := (computer pcfg owall).

Definition place_of (i : nat) : pvec := match i with 0%nat => ((3, 3) : pvec) | _ => ((19/5, 3) : pvec) end.
Lemma overlap_edist i j : (i < 2)%nat -> (j < 2)%nat -> i <> j -> edist (place_of i) (place_of j) = 4/5.
Proof.
  intros Hi Hj Hn. unfold edist, sum_n. destruct i as [|[|i]], j as [|[|j]]; try lia; cbn;
    match goal with |- R_sqrt.sqrt ?x = _ => replace x with (4/5 * (4/5)) by field end; apply sqrt_square; lra.
Qed.

Theorem example_overlap : exists (env : environment Rnum pcfg) (s s1 s2 s3 s' : ocomputer),
  reachable env s /\ search_neighbor (start_step (1/100 : Rnum) s) = Done s1 /\ compute_densities s1 = Some s2 /\
  save_x s2 = Some s3 /\ midstep s3 /\ length (cOrigX s3) = psize s3 /\ stabilize s3 = Some s' /\
  (forall i j p q, close (eRe (cEnv s3)) s3 i j -> cParts s3 !! i = Some p -> cParts s3 !! j = Some q ->
     fluid p /\ fluid q /\ overlapping (cEnv s3) p q /\ saved s3 i <> saved s3 j) /\
  close (eRe (cEnv s3)) s3 0 1 /\
  exists p q, cParts s' = [p; q] /\ pX p = ((3 - 1/16, 3) : pvec) /\ pX q = ((19/5 + 1/16, 3) : pvec) /\
    pU p = ((-25/4, 0) : pvec) /\ pU q = ((25/4, 0) : pvec).
Proof.
  destruct (scene_env_facts false true true true false true true true false) as (e & Hee & He).
  destruct (scene_new false true true true false true true true false overlap e He (1/1000000 : Rnum)) as [s0 Hs0].
  assert (fits false true true true false true true true false overlap) as Hfit.
  { split; [cbn; lia|]. intros p Hp. repeat (apply elem_of_cons in Hp as [->|Hp]; [split; [done|]; intros [|[|k]] Hk; cbn; (lra || lia)|]).
    by apply elem_of_nil in Hp. }
  destruct (scene false true true true false true true true false overlap Hfit e He _ s0 Hs0 (1/100)) as (s1 & s2 & [U1 U2 U3 U4 U5 U6 U7 U8 U9 U10 U11]).
  set (s := scene_state false true true true false true true true false overlap s0) in *.
  destruct (savex_defined s2 U6) as [s3 H3]. pose proof (savex_pr _ _ H3) as P3. pose proof (wf_phase _ _ P3 U6) as W3.
  destruct (stabilize_defined s3 W3) as [s' H'].
  assert (cParts s3 = cParts s2) as E3 by (by rewrite (savex_rest _ _ H3)).
  assert (psize s3 = 2%nat) as N3 by (unfold psize in *; by rewrite E3).
  assert (forall i p, cParts s3 !! i = Some p -> (i < 2)%nat /\ pX p = place_of i /\ pU p = vzero /\ pT p = Newton) as HP.
  { intros i p Hp. rewrite E3 in Hp. assert (i < 2)%nat as Hi by (change 2%nat with (length overlap); rewrite <- U9; by apply lookup_lt_Some in Hp). split; [done|].
    destruct (lookup_lt_is_Some_2 overlap i) as [p0 Hp0]; [done|]. destruct (U11 i p0 Hp0) as (n & Hn & _). rewrite Hn in Hp. injection Hp as <-.
    destruct i as [|[|i]]; [| |lia]; apply (inj Some) in Hp0; subst p0; done. }
  assert (cEnv s3 = set_next_t (set_dt (1/100 : Rnum) e)) as En by (by rewrite (pr_env _ _ P3), U8).
  assert (eRe (cEnv s3) = 6/5) as HR by (rewrite En; exact (sf_re _ _ _ _ _ _ _ _ _ e He)).
  assert (eN0 (cEnv s3) = 4/5) as HN0 by (rewrite En; exact (sf_n0 _ _ _ _ _ _ _ _ _ e He)).
  assert (eDt (cEnv s3) = 1/100) as Hdt by (by rewrite En).
  assert (limit2 (cEnv s3) = 81/100) as HL2.
  { unfold limit2. assert (eL0 (cEnv s3) = 1) as -> by (rewrite En; exact (sf_l0 _ _ _ _ _ _ _ _ _ e He)).
    assert (eMaxDx (cEnv s3) = 1/10) as -> by (rewrite En; exact (sf_dx _ _ _ _ _ _ _ _ _ e He)). lra. }
  assert (0 < eNL e /\ 0 < eRe e) as [HNL HRe] by (rewrite (sf_nl _ _ _ _ _ _ _ _ _ e He), (sf_re _ _ _ _ _ _ _ _ _ e He); lra).
  assert (midstep s3) as M3.
  { assert (cParts s = overlap) as Hs by (by eapply scene_parts).
    apply (phase_midstep e (1/100 : Rnum) s s1 s3 ltac:(by left) HNL HRe); [by eapply scene_reachable|done|by eapply phase_rel_trans; [apply (dens_pr _ _ U2)|]|].
    intros i p p' Hp Hp' _. destruct (HP i p' Hp') as (Hi & -> & _). rewrite Hs in Hp.
    destruct i as [|[|i]]; [| |lia]; apply (inj Some) in Hp; subst p; cbn [pX place_of]; rewrite (proj2 (edist_zero _ _) eq_refl);
      rewrite (sf_nl _ _ _ _ _ _ _ _ _ e He), (sf_re _ _ _ _ _ _ _ _ _ e He); lra. }
  assert (forall i j p q, i <> j -> cParts s3 !! i = Some p -> cParts s3 !! j = Some q -> edist (pX p) (pX q) = 4/5) as HD.
  { intros i j p q Hij Hp Hq. destruct (HP i p Hp) as (Hi & -> & _), (HP j q Hq) as (Hj & -> & _). by apply overlap_edist. }
  assert (forall i p, cParts s3 !! i = Some p -> saved s3 i = place_of i) as HSv.
  { intros i p Hp. destruct (HP i p Hp) as (_ & <- & _ & HT). unfold saved. rewrite E3 in Hp.
    rewrite (savex_at s2 s3 i p H3 Hp); [done|]. by rewrite HT. }
  assert (place_of 0 <> place_of 1) as Hpl by (intros [= E]; lra).
  assert (forall i j p q, i <> j -> cParts s3 !! i = Some p -> cParts s3 !! j = Some q -> overlapping (cEnv s3) p q) as HOv.
  { intros i j p q Hij Hp Hq. destruct (HP j q Hq) as (_ & _ & _ & HT). split; [congruence|]. rewrite (HD i j p q) by done. rewrite HL2. lra. }
  assert (forall i j p q, close (eRe (cEnv s3)) s3 i j -> cParts s3 !! i = Some p -> cParts s3 !! j = Some q ->
     fluid p /\ fluid q /\ overlapping (cEnv s3) p q /\ saved s3 i <> saved s3 j) as HA.
  { intros i j p q [Hij _] Hp Hq. destruct (HP i p Hp) as (Hi & _ & _ & Tp), (HP j q Hq) as (Hj & _ & _ & Tq). split; [done|]. split; [done|]. split; [by apply (HOv i j)|].
    rewrite (HSv i p Hp), (HSv j q Hq). destruct i as [|[|i]], j as [|[|j]]; try lia; [done|]. intros E. by apply Hpl. }
  destruct (lookup_lt_is_Some_2 (cParts s3) 0) as [p Hp]; [unfold psize in N3; lia|].
  destruct (lookup_lt_is_Some_2 (cParts s3) 1) as [q Hq]; [unfold psize in N3; lia|].
  assert (forall i j p q, i <> j -> cParts s3 !! i = Some p -> cParts s3 !! j = Some q -> close (6/5) s3 i j) as HCl.
  { intros i j p0 q0 Hij Hp0 Hq0. split; [done|]. exists p0, q0. split; [done|]. split; [done|]. destruct (HP j q0 Hq0) as (_ & _ & _ & HT).
    split; [unfold enabled; congruence|]. rewrite (HD i j) by done. lra. }
  assert (length (cOrigX s3) = psize s3) as HLO by exact (wf_origx s3 W3).
  exists e, s, s1, s2, s3, s'. split; [by eapply scene_reachable|]. do 6 (split; [done|]). split; [exact HA|]. split; [rewrite HR; by apply (HCl 0%nat 1%nat p q)|].
  pose proof (C36_stabilisation_phase s3 s' 0 p M3 HLO H' Hp) as K0. pose proof (C36_stabilisation_phase s3 s' 1 q M3 HLO H' Hq) as K1.
  destruct (HP 0%nat p Hp) as (_ & Xp & Up & Tp), (HP 1%nat q Hq) as (_ & Xq & Uq & Tq). specialize (K0 Tp). specialize (K1 Tq). cbv zeta in K0, K1.
  assert (stab_sum s3 0 p = ((1/10, 0) : pvec)) as S0.
  { apply coord_ext. intros k Hk. unfold stab_sum. rewrite coord_close_vsum by done. rewrite HR. unfold close_sum. rewrite N3. unfold sum_n. cbn [seq map rsum foldr].
    destruct (decide (close (6/5) s3 0 0)) as [[? _]|_]; [done|]. destruct (decide (close (6/5) s3 0 1)) as [_|N]; [|by destruct N; apply (HCl 0%nat 1%nat p q)].
    unfold at_part. rewrite Hq. destruct (decide (overlapping (cEnv s3) p q)) as [_|N]; [|by destruct N; apply (HOv 0%nat 1%nat)].
    rewrite (HSv 0%nat p Hp), (HSv 1%nat q Hq), Xp, Xq, HL2.
    assert (place_of 1 -^ place_of 0 = ((4/5, 0) : pvec)) as -> by (cbn; f_equal; lra).
    rewrite ds_term_R by (intros [= E]; lra).
    assert (len ((4/5, 0) : pvec) = 4/5) as ->.
    { unfold len, inner, sum_n. cbn. match goal with |- R_sqrt.sqrt ?x = _ => replace x with (4/5 * (4/5)) by field end. apply sqrt_square. lra. }
    assert (inner ((4/5, 0) : pvec) ((4/5, 0) : pvec) = 16/25) as HI by (unfold inner, sum_n; cbn; lra).
    assert (perpendicular ((4/5, 0) : pvec) ((4/5, 0) : pvec) = ((0, 0) : pvec)) as ->.
    { unfold perpendicular. rewrite HI. cbn. f_equal; lra. }
    rewrite HI. assert (inner ((0, 0) : pvec) ((0, 0) : pvec) = 0) as -> by (unfold inner, sum_n; cbn; lra).
    replace (81/100 - 0) with (9/10 * (9/10)) by lra. rewrite sqrt_square by lra. rewrite coord_scal by done.
    destruct k as [|[|k]]; [| |cbn in Hk; lia]; cbn; lra. }
  assert (stab_sum s3 1 q = ((-1/10, 0) : pvec)) as S1.
  { apply coord_ext. intros k Hk. unfold stab_sum. rewrite coord_close_vsum by done. rewrite HR. unfold close_sum. rewrite N3. unfold sum_n. cbn [seq map rsum foldr].
    destruct (decide (close (6/5) s3 1 1)) as [[? _]|_]; [done|]. destruct (decide (close (6/5) s3 1 0)) as [_|N]; [|by destruct N; apply (HCl 1%nat 0%nat q p)].
    unfold at_part. rewrite Hp. destruct (decide (overlapping (cEnv s3) q p)) as [_|N]; [|by destruct N; apply (HOv 1%nat 0%nat)].
    rewrite (HSv 0%nat p Hp), (HSv 1%nat q Hq), Xp, Xq, HL2.
    assert (place_of 0 -^ place_of 1 = ((-4/5, 0) : pvec)) as -> by (cbn; f_equal; lra).
    rewrite ds_term_R by (intros [= E]; lra).
    assert (len ((-4/5, 0) : pvec) = 4/5) as ->.
    { unfold len, inner, sum_n. cbn. match goal with |- R_sqrt.sqrt ?x = _ => replace x with (4/5 * (4/5)) by field end. apply sqrt_square. lra. }
    assert (inner ((-4/5, 0) : pvec) ((-4/5, 0) : pvec) = 16/25) as HI by (unfold inner, sum_n; cbn; lra).
    assert (perpendicular ((-4/5, 0) : pvec) ((-4/5, 0) : pvec) = ((0, 0) : pvec)) as ->.
    { unfold perpendicular. rewrite HI. cbn. f_equal; lra. }
    rewrite HI. assert (inner ((0, 0) : pvec) ((0, 0) : pvec) = 0) as -> by (unfold inner, sum_n; cbn; lra).
    replace (81/100 - 0) with (9/10 * (9/10)) by lra. rewrite sqrt_square by lra. rewrite coord_scal by done.
    destruct k as [|[|k]]; [| |cbn in Hk; lia]; cbn; lra. }
  rewrite S0, Hdt, HN0, Up, Xp in K0. rewrite S1, Hdt, HN0, Uq, Xq in K1.
  assert (length (cParts s') = 2%nat) as HL'. { pose proof (pr_size _ _ (stabilize_pr _ _ H')) as X. unfold psize in X, N3. congruence. }
  destruct (cParts s') as [|p' [|q' [|]]]; try done. apply (inj Some) in K0, K1. subst p' q'. eexists _, _. split; [reflexivity|]. cbn.
  split; [f_equal; lra|]. split; [f_equal; lra|]. split; f_equal; lra.
Qed.

(** C77: cases that meet the hypotheses, and the unit of length. *)
From Verif Require Import P_Neigh P_Force P_Phase P_Step P_Point P_Search P_AccR T_Search T_Env T_Density T_Force T_Stab
  T_Outcome S_Outcome S_Lattice S_Ppe M_Main E_Real E_Scene E_Plus2 E_Overlap P_Sim T_Shift S_Scale P_Scale T_Scale.
Open Scope R_scope.

(** Millimetres for metres, milliseconds for seconds, grams per cubic centimetre for kilograms per cubic metre. *)
Definition milli : units := mkUnits 1000 1000 (1/1000).
Lemma milli_proper : proper milli.
Proof. unfold proper, milli. cbn. lra. Qed.

Lemma lopsided_two {wm} (t : computer pcfg wm) i j p q :
  cParts t !! i = Some p -> cParts t !! j = Some q -> i <> j -> neighbor_list t i = Some [j] ->
  edist (pX p) (pX q) = 4/5 -> eRe (cEnv t) = 6/5 -> eN0 (cEnv t) = 4/5 -> lopsided t i = 1/2.
Proof.
  intros Hp Hq Hij HL HD HR HN. unfold lopsided. rewrite Hp, HL. cbn [map]. rewrite Hq, decide_False by congruence.
  rewrite HD, HR, HN. assert (wt (4/5) (6/5) = 1/2) as ->.
  { unfold wt. repeat (destruct (Rlt_dec _ _)); lra. }
  match goal with |- len (vsum [?x]) / _ = _ => assert (vsum [x] = x) as -> by (apply coord_ext; intros k Hk; rewrite coord_vsum by done; cbn [map rsum foldr]; lra) end.
  rewrite len_scal, <- edist_len. rewrite edist_sym, HD, !Rabs_pos_eq by lra. lra.
Qed.
Lemma clear_two {wm} (t : computer pcfg wm) p q :
  cParts t = [p; q] -> neighbor_list t 0 = Some [1%nat] -> neighbor_list t 1 = Some [0%nat] ->
  edist (pX p) (pX q) = 4/5 -> eRe (cEnv t) = 6/5 -> eN0 (cEnv t) = 4/5 -> clear_cut milli t.
Proof.
  intros HP L0 L1 HD HR HN i p0 Hp0 _ _. assert (lopsided t i = 1/2) as ->.
  { destruct i as [|[|i]]; [| |by rewrite HP in Hp0].
    - by eapply (lopsided_two t 0 1 p q); rewrite ?HP.
    - eapply (lopsided_two t 1 0 q p); rewrite ?HP; try done. by rewrite edist_sym. }
  assert (1 < 2 ^ 52) by lra. assert (/ 2 ^ 52 < 1/2).
  { apply (Rmult_lt_reg_l (2 ^ 52)); [lra|]. rewrite Rinv_r by lra. lra. }
  cbn [in_length milli]. lra.
Qed.

(** The two overlapping particles, with virtual surface particles: the states after the search and after the movement are clear-cut. *)
Theorem example_scale : exists (env : environment Rnum pcfg) (s : ocomputer),
  square_ground env /\ reachable env s /\ proper milli /\ cSPP pcfg = true /\ cParts s = overlap /\
  (exists t1 t2, passes (1/100) s t1 /\ passes (1/100) s t2 /\ lopsided t1 0 = 1/2 /\ lopsided t2 0 = 1/2 /\ cParts t1 <> cParts t2) /\
  (forall t, passes (1/100) s t -> clear_cut milli t).
Proof.
  destruct (scene_env_facts false true true true false true true true false) as (e & Hee & He).
  destruct (scene_new false true true true false true true true false overlap e He (1/1000000 : Rnum)) as [s0 Hs0].
  assert (fits false true true true false true true true false overlap) as Hfit.
  { split; [cbn; lia|]. intros p Hp. repeat (apply elem_of_cons in Hp as [->|Hp]; [split; [done|]; intros [|[|k]] Hk; cbn; (lra || lia)|]).
    by apply elem_of_nil in Hp. }
  destruct (scene false true true true false true true true false overlap Hfit e He _ s0 Hs0 (1/100)) as (s1 & s2 & [U1 U2 U3 U4 U5 U6 U7 U8 U9 U10 U11]).
  set (s := scene_state false true true true false true true true false overlap s0) in *.
  assert (square_ground e) as Hsq by (by left).
  assert (reachable e s) as Hr by (by eapply scene_reachable).
  assert (0 < eNL e /\ 0 < eRe e) as [HNL HRe] by (rewrite (sf_nl _ _ _ _ _ _ _ _ _ e He), (sf_re _ _ _ _ _ _ _ _ _ e He); lra).
  assert (forall i j p q, cParts s1 !! i = Some p -> cParts s1 !! j = Some q -> i <> j -> close (eNL e) s1 i j) as HCl.
  { intros i j p q Hp Hq Hij. split; [done|]. exists p, q. do 2 (split; [done|]). rewrite (sf_nl _ _ _ _ _ _ _ _ _ e He). rewrite U3 in Hp, Hq.
    destruct i as [|[|i]], j as [|[|j]]; try done; apply (inj Some) in Hp, Hq; subst p q; (split; [done|]).
    - change (edist (place_of 0) (place_of 1) < 36/25). rewrite overlap_edist by lia. lra.
    - change (edist (place_of 1) (place_of 0) < 36/25). rewrite overlap_edist by lia. lra. }
  assert (forall i j p q, cParts s1 !! i = Some p -> cParts s1 !! j = Some q -> i <> j -> neighbor_list s1 i = Some [j]) as HNb.
  { intros i j p q Hp Hq Hij.
    destruct (C01_search_exact e (1/100 : Rnum) s s1 i p Hsq HNL Hr U1 Hp) as (l & HL & Hnd & Hl).
    { rewrite U3 in Hp. destruct i as [|[|i]]; try done; apply (inj Some) in Hp; by subst p. }
    rewrite HL. f_equal. assert (forall k, k ∈ l -> k = j) as Hk.
    { intros k (Hik & p' & q' & _ & Hq' & _)%Hl. apply lookup_lt_Some in Hp, Hq, Hq'. rewrite U3 in Hp, Hq, Hq'. cbn in Hp, Hq, Hq'. lia. }
    assert (j ∈ l) as Hj by (apply Hl; by eapply HCl).
    destruct l as [|a [|b l]]; [by apply elem_of_nil in Hj|by rewrite (Hk a) by constructor|].
    pose proof (Hk a ltac:(constructor)) as Ea. pose proof (Hk b ltac:(constructor; constructor)) as Eb. subst a b.
    apply list.NoDup_cons in Hnd as [Hnd _]. destruct Hnd. constructor. }
  assert (neighbor_list s1 0 = Some [1%nat]) as L0 by (eapply (HNb 0%nat 1%nat); rewrite ?U3; done).
  assert (neighbor_list s1 1 = Some [0%nat]) as L1 by (eapply (HNb 1%nat 0%nat); rewrite ?U3; done).
  assert (eRe (cEnv s1) = 6/5) as HR by (rewrite U7; exact (sf_re _ _ _ _ _ _ _ _ _ e He)).
  assert (eN0 (cEnv s1) = 4/5) as HN0 by (rewrite U7; exact (sf_n0 _ _ _ _ _ _ _ _ _ e He)).
  destruct (ecs_defined s2 U6) as [s3 H3]. pose proof (ecs_pr _ _ H3) as P3. pose proof (wf_phase _ _ P3 U6) as W3.
  destruct (explicit_defined s3 W3) as [s4 H4]. pose proof (explicit_pr _ _ H4) as P4. pose proof (dens_pr _ _ U2) as P2.
  assert (phase_rel s1 s3) as P13 by (by eapply phase_rel_trans). assert (phase_rel s1 s4) as P14 by (by eapply phase_rel_trans).
  assert (cParts s3 = cParts s2) as E3 by (by rewrite (ecs_rest _ _ H3)).
  destruct (U11 0%nat _ eq_refl) as (n0 & Hp0 & _). destruct (U11 1%nat _ eq_refl) as (n1 & Hp1 & _). rewrite <- E3 in Hp0, Hp1.
  assert (forall i p, cParts s3 !! i = Some p -> pU p = vzero /\ exists p1, cParts s1 !! i = Some p1 /\ pX p = pX p1) as HU.
  { intros i p Hp. assert (i < 2)%nat as Hi. { apply lookup_lt_Some in Hp. rewrite E3 in Hp. unfold psize in U9. rewrite U9 in Hp. done. }
    rewrite U3. destruct i as [|[|i]]; [rewrite Hp0 in Hp|rewrite Hp1 in Hp|lia]; injection Hp as <-; (split; [done|]; eexists; split; [reflexivity|done]). }
  assert (midstep s3) as M3.
  { assert (cParts s = overlap) as Hs by (by eapply scene_parts).
    apply (phase_midstep e (1/100 : Rnum) s s1 s3 Hsq HNL HRe Hr U1 P13).
    intros i p p' Hp Hp' _. destruct (HU i p' Hp') as (_ & p1 & Hp1' & ->). rewrite Hs in Hp. rewrite U3, Hp in Hp1'. injection Hp1' as <-.
    rewrite (proj2 (edist_zero _ _) eq_refl), (sf_nl _ _ _ _ _ _ _ _ _ e He), (sf_re _ _ _ _ _ _ _ _ _ e He). lra. }
  assert (forall i p, cParts s3 !! i = Some p -> viscous s3 i p = vzero) as HV.
  { intros i p Hp. unfold viscous. apply close_vsum_zero. intros j q Hq C. destruct (decide (pT q = Dummy)); [done|].
    rewrite (proj1 (HU i p Hp)), (proj1 (HU j q Hq)). rewrite vsub_self. apply vscal_zero. }
  pose proof (C24_explicit_phase s3 s4 0 _ M3 eq_refl H4 Hp0 eq_refl) as X0. pose proof (C24_explicit_phase s3 s4 1 _ M3 eq_refl H4 Hp1 eq_refl) as X1.
  cbv zeta in X0, X1. rewrite (HV _ _ Hp0), (proj1 (HU _ _ Hp0)) in X0. rewrite (HV _ _ Hp1), (proj1 (HU _ _ Hp1)) in X1.
  assert (cEnv s3 = cEnv s1) as E31 by apply P13.
  assert (eDt (cEnv s3) = 1/100 /\ eG (cEnv s3) = ((0, -10) : pvec)) as [Hdt Hg].
  { rewrite E31, U7. split; [done|]. exact (sf_g _ _ _ _ _ _ _ _ _ e He). }
  assert (length (cParts s4) = 2%nat) as HL4 by (pose proof (pr_size _ _ P14) as X; unfold psize in X; rewrite X, U3; done).
  assert (forall t, passes (1/100) s t -> t = s1 \/ t = s4) as HP0.
  { intros t (t1 & Ht1 & Ht). rewrite U1 in Ht1. injection Ht1 as <-. destruct Ht as [->|(t2 & t3 & K2 & K3 & K4)]; [by left|right].
    change (compute_ecs t2 = Some t3) in K3. congruence. }
  assert (passes (1/100) s s1) as HP1 by (exists s1; split; [exact U1|by left]).
  assert (passes (1/100) s s4) as HP4 by (exists s1; split; [exact U1|right; exists s2, s3; split; [exact U2|split; [exact H3|exact H4]]]).
  assert (forall t, passes (1/100) s t -> exists p q, cParts t = [p; q] /\ neighbor_list t 0 = Some [1%nat] /\ neighbor_list t 1 = Some [0%nat] /\
    edist (pX p) (pX q) = 4/5 /\ eRe (cEnv t) = 6/5 /\ eN0 (cEnv t) = 4/5) as HP.
  { intros t [->| ->]%HP0.
    { eexists _, _. split; [exact U3|]. split_and!; try done. exact (overlap_edist 0 1 ltac:(lia) ltac:(lia) ltac:(lia)). }
    destruct (cParts s4) as [|p [|q [|]]] eqn:HPt; try done. apply (inj Some) in X0, X1. exists p, q. split; [done|].
    assert (forall i, neighbor_list s4 i = neighbor_list s1 i) as HNl by (intros i; unfold neighbor_list; by rewrite (pr_nb _ _ P14)).
    rewrite !HNl, (pr_env _ _ P14). split_and!; try done.
    subst p q. cbn [pX]. rewrite !edist_len. match goal with |- len (?a +^ ?c -^ (?b +^ ?c)) = _ => assert (a +^ c -^ (b +^ c) = a -^ b) as -> end.
    { apply coord_ext. intros k Hk. rewrite !coord_sub, !coord_add by done. lra. }
    rewrite <- edist_len. exact (overlap_edist 0 1 ltac:(lia) ltac:(lia) ltac:(lia)). }
  exists e, s. do 2 (split; [done|]). split; [apply milli_proper|]. split; [done|]. split; [by eapply scene_parts|]. split.
  2:{ intros t Ht. destruct (HP t Ht) as (p & q & A1 & A2 & A3 & A4 & A5 & A6). by eapply clear_two. }
  exists s1, s4. split; [done|]. split; [done|].
  assert (forall t, passes (1/100) s t -> lopsided t 0 = 1/2) as HLo.
  { intros t Ht. destruct (HP t Ht) as (p & q & A1 & A2 & A3 & A4 & A5 & A6). by eapply (lopsided_two t 0 1 p q); rewrite ?A1. }
  split; [by apply HLo|]. split; [by apply HLo|]. intros E. rewrite <- E, U3 in X0. apply (inj Some) in X0.
  apply (f_equal pU) in X0. cbn [pU] in X0. apply (f_equal (fun v : pvec => v.2)) in X0. rewrite Hdt, Hg in X0. cbn in X0. lra.
Qed.

(** Property theorems: parts of a step of the program, seen from outside (C20, C22, C36). *)
From Coq Require Import ZifyBool.
From Verif Require Import S_Terms.
From Verif Require Import S_Scheme S_Ppe P_Ppe P_Force T_Force T_Speed T_Ppe T_Solve T_Grad T_Stab T_Rest T_Shift T_Scheme.
Open Scope R_scope.

Section Step.
  Context {cfg : config} {wm : wallmotion Rnum (cDim cfg)}.
  Notation d := (cDim cfg).
  Notation V := (vec Rnum d).
  Notation part := (particle Rnum d).
  Notation computer := (computer cfg wm).
  Implicit Types (s t : computer) (p q v : part) (env : environment Rnum cfg).

  Lemma trace_prefix (dt : R) s s1 s2 s3 s4 s5 s6 s7 s8 : step_trace (dt : Rnum) s s1 s2 s3 s4 s5 s6 s7 s8 -> step_prefix (dt : Rnum) s s1 s2 s3 s4 s5 s6.
  Proof. intros [H1 H2 H3 H4 H5 H6 H7 H8]. by split. Qed.

  Record prefix_facts (dt : R) s s1 s2 s3 s4 s5 s6 : Prop := {
    pf_env : forall x, x ∈ [s1; s2; s3; s4; s5; s6] -> cEnv x = step_env dt s /\ phase_rel s1 x;
    pf_m1 : midstep s1; pf_m2 : midstep s2; pf_m3 : midstep s3; pf_r2 : recorded s2;
    pf_p3 : cParts s3 = cParts s2; pf_p6 : cParts s6 = cParts s5;
  }.
  Lemma prefix_facts_hold env0 (dt : R) s s1 s2 s3 s4 s5 s6 :
    square_ground env0 -> 0 < eRe env0 -> eRe env0 <= eNL env0 -> reachable env0 s -> step_prefix (dt : Rnum) s s1 s2 s3 s4 s5 s6 ->
    prefix_facts dt s s1 s2 s3 s4 s5 s6.
  Proof.
    intros Hsq HRe HNL' Hr [H1 H2 H3 H4 H5 H6]. assert (0 < eNL env0) as HNL by (simpl in *; lra).
    destruct (search_frame (start_step (dt : Rnum) s) s1) as [Eq1 F1]; [by rewrite H1|].
    assert (cEnv s1 = step_env dt s) as E1 by (by rewrite Eq1).
    assert (moved_at_most ((eNL env0 - eRe env0) / 2) s s1) as V1.
    { intros i p p' Hp Hp' _. assert (pX p' = pX p) as ->.
      { destruct (Forall2_lookup_l _ _ _ i p F1 Hp) as (p1 & Hp1 & K). rewrite Hp' in Hp1. injection Hp1 as <-. by destruct K as [->| ->]. }
      rewrite (proj2 (edist_zero (pX p) (pX p)) eq_refl). simpl in *. lra. }
    pose proof (phase_midstep env0 dt s s1 s1 Hsq HNL HRe Hr H1 (phase_rel_refl s1) V1) as M1.
    pose proof (dens_same s1 s2 H2) as S2. pose proof (dens_pr _ _ H2) as P2.
    pose proof (midstep_same s1 s2 S2 P2 M1) as M2. pose proof (dens_recorded s1 s2 M1 H2) as Rec2.
    assert (cParts s3 = cParts s2 /\ phase_rel s2 s3) as (A3 & P3).
    { destruct (cECS cfg).
      - rewrite (ecs_rest _ _ H3). split; [done|]. rewrite <- (ecs_rest _ _ H3). by apply ecs_pr.
      - subst s3. split; [done|]. apply phase_rel_refl. }
    assert (midstep s3) as M3. { apply (midstep_same s2); [|done|done]. intros i. by rewrite A3. }
    assert (cParts s6 = cParts s5 /\ phase_rel s5 s6) as (A6 & P6).
    { destruct (cDS cfg).
      - rewrite (savex_rest _ _ H6). split; [done|]. rewrite <- (savex_rest _ _ H6). by apply savex_pr.
      - subst s6. split; [done|]. apply phase_rel_refl. }
    assert (phase_rel s1 s3) as Q3 by (by eapply phase_rel_trans).
    assert (phase_rel s1 s4) as Q4 by (eapply phase_rel_trans; [exact Q3|by apply explicit_pr]).
    assert (phase_rel s1 s5) as Q5 by (eapply phase_rel_trans; [exact Q4|by apply dens_pr]).
    assert (phase_rel s1 s6) as Q6 by (by eapply phase_rel_trans).
    split; try done. intros x Hx. assert (phase_rel s1 x) as Qx; [|split; [by rewrite (pr_env _ _ Qx)|done]].
    rewrite !elem_of_cons in Hx. pose proof (phase_rel_refl s1). destruct Hx as [->|[->|[->|[->|[->|[->|Hx]]]]]]; try done. by apply elem_of_nil in Hx.
  Qed.

  Record late_facts (dt : R) s s2 s4 s5 s6 : Prop := {
    lf_m4 : midstep s4; lf_m5 : midstep s5; lf_m6 : midstep s6; lf_r5 : recorded s5; lf_r6 : recorded s6;
    lf_c6 : compensated (compensations (step_env dt s) (cParts s2)) s6;
  }.
  Lemma late_facts_hold env0 (dt : R) s s1 s2 s3 s4 s5 s6 :
    square_ground env0 -> 0 < eRe env0 -> eRe env0 <= eNL env0 -> reachable env0 s -> step_prefix (dt : Rnum) s s1 s2 s3 s4 s5 s6 ->
    moved_at_most ((eNL env0 - eRe env0) / 2) s s4 -> late_facts dt s s2 s4 s5 s6.
  Proof.
    intros Hsq HRe HNL' Hr HT V4. pose proof (prefix_facts_hold env0 dt s s1 s2 s3 s4 s5 s6 Hsq HRe HNL' Hr HT) as [HE M1 M2 M3 Rec2 A3 A6].
    destruct HT as [H1 H2 H3 H4 H5 H6]. assert (0 < eNL env0) as HNL by (simpl in *; lra).
    assert (forall x, x ∈ [s1; s2; s3; s4; s5; s6] -> cEnv x = step_env dt s) as He by (intros x Hx; by apply HE).
    assert (phase_rel s1 s4) as P4 by (apply HE; rewrite !elem_of_cons; tauto).
    pose proof (phase_midstep env0 dt s s1 s4 Hsq HNL HRe Hr H1 P4 V4) as M4.
    pose proof (dens_same s4 s5 H5) as S5. pose proof (midstep_same s4 s5 S5 (dens_pr _ _ H5) M4) as M5. pose proof (dens_recorded s4 s5 M4 H5) as Rec5.
    assert (cNws s6 = cNws s5 /\ cEcs s6 = cEcs s5 /\ phase_rel s5 s6) as (N6 & C6 & P6).
    { destruct (cDS cfg).
      - rewrite (savex_rest _ _ H6). split; [done|]. split; [done|]. rewrite <- (savex_rest _ _ H6). by apply savex_pr.
      - subst s6. split; [done|]. split; [done|]. apply phase_rel_refl. }
    assert (same_places s5 s6) as S6 by (intros i; by rewrite A6).
    assert (cEnv s6 = cEnv s5) as E6 by (rewrite !He; [done|..]; rewrite !elem_of_cons; tauto).
    split; try done.
    - by apply (midstep_same s5).
    - by apply (recorded_same s5).
    - apply (compensated_step (step_env dt s) s2 s3); try done.
      + apply He. rewrite !elem_of_cons. tauto.
      + rewrite C6, (dens_rest _ _ H5). simpl. by rewrite (explicit_rest _ _ H4).
      + assert (phase_rel s2 s3) as P3. { destruct (cECS cfg); [by apply ecs_pr|]. subst s3. apply phase_rel_refl. }
        eapply phase_rel_trans; [exact P3|]. eapply phase_rel_trans; [by apply explicit_pr|]. eapply phase_rel_trans; [by apply dens_pr|done].
  Qed.

  (** ** C20: the source of the pressure equation, whichever source term the build selects, in terms of the particles:
      [s5] holds them after the movement, [s2] before it, the correction [compensations] being taken from there. *)
  Theorem C20_source env0 (dt : R) s s1 s2 s3 s4 s5 s6 t i p :
    square_ground env0 -> 0 < eRe env0 -> eRe env0 <= eNL env0 -> reachable env0 s -> step_prefix (dt : Rnum) s s1 s2 s3 s4 s5 s6 ->
    moved_at_most ((eNL env0 - eRe env0) / 2) s s4 -> set_ppe s6 = Some t ->
    cParts s5 !! i = Some p -> unknown (cEnv s) p ->
    let env := step_env dt s in
    el (cBv t) i = - (eRho (cEnv s) / (eN0 (cEnv s) * dt)) * (rate env (cParts s5) i p + compensations env (cParts s2) i).
  Proof.
    intros Hsq HRe HNL Hr HT V4 H Hp Hu env.
    pose proof (prefix_facts_hold env0 dt s s1 s2 s3 s4 s5 s6 Hsq HRe HNL Hr HT) as HF.
    pose proof (late_facts_hold env0 dt s s1 s2 s3 s4 s5 s6 Hsq HRe HNL Hr HT V4) as HL.
    destruct (pf_env _ _ _ _ _ _ _ _ HF s6 ltac:(rewrite !elem_of_cons; tauto)) as [E6 _].
    rewrite <- (pf_p6 _ _ _ _ _ _ _ _ HF) in *.
    assert (unknown (cEnv s6) p) as Hu6 by (rewrite E6; exact Hu).
    etransitivity; [apply (C30_right_hand_side s6 t i p (rate (cEnv s6) (cParts s6) i p) (compensations env (cParts s2) i) H Hp Hu6)|].
    - apply rate_speed; [apply (lf_m6 _ _ _ _ _ _ HL)|apply (lf_r6 _ _ _ _ _ _ HL)|done|apply Hu].
    - apply (lf_c6 _ _ _ _ _ _ HL i p Hp). apply Hu.
    - rewrite E6. done.
  Qed.
  (** Without the HS source term it is the deviation of the density from the reference value, per time step, and without
      error compensation nothing is added. *)
  Theorem C20_standard_source env0 (dt : R) s s1 s2 s3 s4 s5 s6 t i p :
    cHS cfg = false -> cECS cfg = false ->
    square_ground env0 -> 0 < eRe env0 -> eRe env0 <= eNL env0 -> reachable env0 s -> step_prefix (dt : Rnum) s s1 s2 s3 s4 s5 s6 ->
    moved_at_most ((eNL env0 - eRe env0) / 2) s s4 -> set_ppe s6 = Some t ->
    cParts s5 !! i = Some p -> unknown (cEnv s) p ->
    el (cBv t) i = - (eRho (cEnv s) / (eN0 (cEnv s) * dt)) * ((pN p - eN0 (cEnv s)) / dt).
  Proof.
    intros HS HE Hsq HRe HNL Hr HT V4 H Hp Hu. pose proof (C20_source env0 dt s s1 s2 s3 s4 s5 s6 t i p Hsq HRe HNL Hr HT V4 H Hp Hu) as HX. cbv zeta in HX.
    rewrite HX. unfold rate, compensations, compensation. rewrite HS, HE. destruct (cParts s2 !! i); simpl; ring.
  Qed.

  (** ** C22 *)
  Theorem C22_step env0 (dt : R) s s1 s2 s3 s4 s5 s6 i p :
    cSPP cfg = true -> cECS cfg = true -> 0 < eN0 (cEnv s) ->
    square_ground env0 -> 0 < eRe env0 -> eRe env0 <= eNL env0 -> reachable env0 s -> step_prefix (dt : Rnum) s s1 s2 s3 s4 s5 s6 ->
    cParts s2 !! i = Some p -> fluid_or_wall p ->
    let v := rate (step_env dt s) (cParts s2) i p in
    exists e : R, cEcs s6 !! i = Some (e : Rnum) /\
      0 <= e /\ (v <= 0 -> e = 0) /\ (0 <= v -> e = 2 * ((pN p - eN0 (cEnv s)) / eN0 (cEnv s)) * v).
  Proof.
    intros HS HE HN Hsq HRe HNL Hr HT Hp Hf v.
    pose proof (prefix_facts_hold env0 dt s s1 s2 s3 s4 s5 s6 Hsq HRe HNL Hr HT) as HF.
    destruct HF as [HEn M1 M2 M3 Rec2 A3 A6].
    destruct HT as [H1 H2 H3 H4 H5 H6]. rewrite HE in H3.
    destruct (HEn s1 ltac:(rewrite !elem_of_cons; tauto)) as [E1 _].
    destruct (HEn s2 ltac:(rewrite !elem_of_cons; tauto)) as [E2 _].
    exists (compensation (step_env dt s) (cParts s2) i p). split.
    { assert (cEcs s6 = cEcs s3) as ->.
      { transitivity (cEcs s5); [destruct (cDS cfg); [by rewrite (savex_rest _ _ H6)|by subst s6]|].
        rewrite (dens_rest _ _ H5). simpl. by rewrite (explicit_rest _ _ H4). }
      rewrite <- E2. by apply (compensation_ecs s2 s3). }
    assert (eN0 (cEnv s) <= pN p) as Hge.
    { destruct (same_places_at s2 s1 i p (same_places_sym _ _ (dens_same s1 s2 H2)) Hp) as (p1 & Hp1 & HX & HTy).
      pose proof (dens_at _ _ i p1 H2 Hp1) as HD. rewrite HTy, (proj2 (is_active_true p) Hf), HS in HD. destruct HD as (n & _ & Hn & _).
      rewrite Hp in Hn. injection Hn as ->. cbn [pN set_N]. rewrite nmax_R, E1. apply Rmax_r. }
    unfold compensation. rewrite HE. fold v. cbv zeta. change (eN0 (step_env dt s)) with (eN0 (cEnv s)). set (n0 := eN0 (cEnv s)) in *.
    set (err := (pN p - n0) / n0).
    assert (0 <= err) as Herr by (unfold err; apply Rmult_le_pos; [lra|left; by apply Rinv_0_lt_compat]).
    rewrite (Rabs_right err) by lra. split; [|split].
    - unfold Rabs. destruct (Rcase_abs v); nra.
    - intros L. unfold Rabs. destruct (Rcase_abs v); [ring|]. assert (v = 0) as -> by lra. ring.
    - intros L. rewrite Rabs_right by lra. ring.
  Qed.

  (** ** C36: the stabilisation in a completed step.  [s5] holds the particles before the pressure phase, [s7] those after it. *)
  Lemma saved_before env0 (dt : R) s s1 s2 s3 s4 s5 s6 s7 s8 : cDS cfg = true ->
    square_ground env0 -> 0 < eRe env0 -> eRe env0 <= eNL env0 -> reachable env0 s -> step_trace (dt : Rnum) s s1 s2 s3 s4 s5 s6 s7 s8 ->
    length (cOrigX s7) = psize s7 /\ cEnv s7 = step_env dt s /\ stabilize s7 = Some s8 /\
    forall j q, cParts s7 !! j = Some q -> fluid_or_wall q -> saved s7 j = place (cParts s5) j.
  Proof.
    intros HDS Hsq HRe HNL Hr HT. pose proof (trace_phase _ _ _ _ _ _ _ _ _ _ HT) as Hph.
    assert (phase_rel s1 s7) as P7 by (apply Hph; rewrite !elem_of_cons; tauto).
    assert (cEnv s7 = step_env dt s) as E7 by (apply (trace_env _ _ _ _ _ _ _ _ _ _ _ HT); rewrite !elem_of_cons; tauto).
    pose proof (prefix_facts_hold env0 dt s s1 s2 s3 s4 s5 s6 Hsq HRe HNL Hr (trace_prefix _ _ _ _ _ _ _ _ _ _ HT)) as HF.
    pose proof (pf_p6 _ _ _ _ _ _ _ _ HF) as A6.
    destruct HT as [H1 H2 H3 H4 H5 H6 H7 H8]. rewrite HDS in H6, H8.
    split; [|split; [done|split; [done|]]].
    - pose proof (reachable_inv env0 s Hsq Hr) as Hinv. destruct (inv_ok _ _ Hsq Hinv) as [Hwf Hok].
      assert (P_Search.wf s1) as W1 by (eapply wf_searched; [by apply (wf_start (dt : Rnum))|by apply (search_searched env0 dt s s1)]).
      apply (wf_origx s7). by eapply wf_phase.
    - intros j q Hq Hf. unfold saved, place. rewrite (implicit_origx s6 s7 H7).
      assert (phase_rel s6 s7) as P67 by (apply implicit_pr; by rewrite H7).
      pose proof (f_equal (fun l => l !! j) (pr_types _ _ P67)) as HTy. cbv beta in HTy. rewrite !list_lookup_fmap, Hq, A6 in HTy.
      destruct (cParts s5 !! j) as [q5|] eqn:Hq5; [|done]. injection HTy as HTy.
      rewrite (savex_at s5 s6 j q5 H6 Hq5); [done|]. apply is_active_true. unfold fluid_or_wall, enabled in *. by rewrite <- HTy.
  Qed.
  Theorem C36_step env0 (dt : R) s s1 s2 s3 s4 s5 s6 s7 s8 : cDS cfg = true ->
    square_ground env0 -> 0 < eRe env0 -> eRe env0 <= eNL env0 -> reachable env0 s -> step_trace (dt : Rnum) s s1 s2 s3 s4 s5 s6 s7 s8 ->
    moved_at_most ((eNL env0 - eRe env0) / 2) s s7 ->
    stabilisation (step_env dt s) (cParts s5) (cParts s7) (cParts s8).
  Proof.
    intros HDS Hsq HRe HNL Hr HT V7. destruct (saved_before env0 dt s s1 s2 s3 s4 s5 s6 s7 s8 HDS Hsq HRe HNL Hr HT) as (L & E7 & H8 & HS).
    assert (midstep s7) as M7.
    { apply (C11_midstep env0 (dt : Rnum) s s1 s2 s3 s4 s5 s6 s7 s8 s7); [done|simpl in *; lra|done|done|done|rewrite !elem_of_cons; tauto|done]. }
    rewrite <- E7. by apply stabilisation_phase.
  Qed.
  (** Momentum: if fluid overlaps only with fluid, and no two overlapping fluid particles were at the same place before the
      pressure phase. *)
  Theorem C36_step_momentum env0 (dt : R) s s1 s2 s3 s4 s5 s6 s7 s8 : cDS cfg = true ->
    square_ground env0 -> 0 < eRe env0 -> eRe env0 <= eNL env0 -> reachable env0 s -> step_trace (dt : Rnum) s s1 s2 s3 s4 s5 s6 s7 s8 ->
    moved_at_most ((eNL env0 - eRe env0) / 2) s s7 ->
    (forall i j p q, i <> j -> cParts s7 !! i = Some p -> cParts s7 !! j = Some q -> fluid p -> fluid_or_wall q ->
       edist (pX p) (pX q) < eRe (cEnv s) -> edist (pX p) (pX q) ^ 2 < (eL0 (cEnv s) - eMaxDx (cEnv s)) ^ 2 ->
       fluid q /\ place (cParts s5) i <> place (cParts s5) j) ->
    fluid_sum s8 pU = fluid_sum s7 pU.
  Proof.
    intros HDS Hsq HRe HNL Hr HT V7 Hno. destruct (saved_before env0 dt s s1 s2 s3 s4 s5 s6 s7 s8 HDS Hsq HRe HNL Hr HT) as (L & E7 & H8 & HS).
    assert (midstep s7) as M7.
    { apply (C11_midstep env0 (dt : Rnum) s s1 s2 s3 s4 s5 s6 s7 s8 s7); [done|simpl in *; lra|done|done|done|rewrite !elem_of_cons; tauto|done]. }
    apply (C36_momentum s7 s8 M7 L H8).
    - intros i j p q (Hij & p' & q' & Hp' & Hq' & He & Hd) Hp Hq Fp Fq [O1 O2]. rewrite Hp in Hp'. injection Hp' as <-. rewrite Hq in Hq'. injection Hq' as <-.
      rewrite E7 in Hd, O2. destruct (Hno i j p q Hij Hp Hq Fp (conj He O1) Hd O2) as [F _]. done.
    - intros i j p q (Hij & p' & q' & Hp' & Hq' & He & Hd) Hp Hq Fp Fq [O1 O2]. rewrite Hp in Hp'. injection Hp' as <-. rewrite Hq in Hq'. injection Hq' as <-. rewrite (HS i p Hp), (HS j q Hq) by (unfold fluid_or_wall, enabled, fluid in *; by rewrite ?Fp, ?Fq).
      rewrite E7 in O2, Hd. apply (Hno i j p q Hij Hp Hq Fp); [unfold fluid_or_wall, enabled, fluid in *; by rewrite Fq|done|done].
  Qed.
End Step.

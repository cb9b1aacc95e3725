(** Property theorems: the pressure equation and its solution (C29-C34). *)
From Coq Require Import ZifyBool.
From Verif Require Import S_Terms.
From Verif Require Import M_NumF P_Ppe P_Force T_Speed.
Local Close Scope R_scope.

(** ** C29 *)
Section Symmetric.
  Context {N : num} {cfg : config} {wm : wallmotion N (cDim cfg)}.
  Notation d := (cDim cfg).
  Notation computer := (computer cfg wm).
  Implicit Types (s : computer).

  Lemma prefix_phase dt s s1 s2 s3 s4 s5 s6 : step_prefix dt s s1 s2 s3 s4 s5 s6 -> phase_rel s1 s6.
  Proof.
    intros [H1 H2 H3 H4 H5 H6].
    assert (phase_rel s1 s2) as P2 by (by apply dens_pr).
    assert (phase_rel s1 s3) as P3.
    { eapply phase_rel_trans; [exact P2|]. destruct (cECS cfg); [by apply ecs_pr|subst; apply phase_rel_refl]. }
    assert (phase_rel s1 s4) as P4 by (eapply phase_rel_trans; [exact P3|]; by apply explicit_pr).
    assert (phase_rel s1 s5) as P5 by (eapply phase_rel_trans; [exact P4|]; by apply dens_pr).
    eapply phase_rel_trans; [exact P5|]. destruct (cDS cfg); [by apply savex_pr|subst; apply phase_rel_refl].
  Qed.
  Lemma phase_type_N s s' i p' : phase_rel s s' -> cParts s' !! i = Some p' -> exists p, cParts s !! i = Some p /\ pT p' = pT p.
  Proof.
    intros H Hp'. pose proof (pr_types _ _ H) as HT.
    assert ((pT <$> cParts s') !! i = Some (pT p')) as E by (by rewrite list_lookup_fmap, Hp').
    rewrite HT, list_lookup_fmap in E. destruct (cParts s !! i) as [p|]; [|done]. injection E as E. eauto.
  Qed.
  Lemma phase_list s s' i : phase_rel s s' -> neighbor_list s' i = neighbor_list s i.
  Proof. intros H. unfold neighbor_list. by rewrite (pr_nb _ _ H). Qed.

  Lemma prefix_symmetric env0 dt s s1 s2 s3 s4 s5 s6 t i j :
    (forall x y : vec N d, dist x y = dist y x) -> (forall x y : vec N d, vdot (x -^ y) (x -^ y) = vdot (y -^ x) (y -^ x)) ->
    square_ground env0 -> reachable env0 s -> step_prefix dt s s1 s2 s3 s4 s5 s6 -> set_ppe s6 = Some t ->
    elem (cA t) i j = elem (cA t) j i.
  Proof.
    intros Hd Hv Hsq Hr HP Ht. pose proof (prefix_phase _ _ _ _ _ _ _ _ HP) as H6.
    pose proof (search_searched env0 dt s s1 Hsq Hr (sp_search _ _ _ _ _ _ _ _ HP)) as S1.
    pose proof (reachable_inv env0 s Hsq Hr) as Hinv. destruct (inv_ok _ _ Hsq Hinv) as [Hwf Hok].
    assert (P_Search.wf s1) as W1 by (eapply wf_searched; [by apply (wf_start dt)|done]).
    assert (P_Search.wf s6) as W6 by (by eapply wf_phase).
    assert (forall i p, cParts s6 !! i = Some p -> enabled p -> exists p1, cParts s1 !! i = Some p1 /\ enabled p1) as Hback.
    { intros k p Hp He. destruct (phase_type_N s1 s6 k p H6 Hp) as (p1 & Hp1 & HT). exists p1. split; [done|]. unfold enabled in *. congruence. }
    assert (forall i p, cParts s1 !! i = Some p -> enabled p -> exists p1, cParts s6 !! i = Some p1 /\ enabled p1) as Hforw.
    { intros k p Hp He. destruct (lookup_lt_is_Some_2 (cParts s6) k) as [p6 Hp6].
      { change (k < psize s6)%nat. rewrite (pr_size _ _ H6). by eapply lookup_lt_Some. }
      destruct (phase_type_N s1 s6 k p6 H6 Hp6) as (p1 & Hp1 & HT). rewrite Hp in Hp1. injection Hp1 as <-.
      exists p6. split; [done|]. unfold enabled in *. congruence. }
    apply (matrix_symmetric s6 t i j Hd Hv Ht (wf_ax _ W6) (wf_ab _ W6)).
    - intros k p Hp He. destruct (Hback k p Hp He) as (p1 & Hp1 & He1). apply is_disabled_false in He1.
      rewrite (phase_list s1 s6 k H6), (found_list _ _ S1 k p1 Hp1 He1). eexists. split; [done|].
      intros m Hm. apply found_enabled in Hm as (_ & q & Hq & HD). apply is_disabled_false in HD. by eapply Hforw.
    - intros k p m q l l' Hp Hep Hq Heq Hl Hl' Hin. rewrite (phase_list s1 s6 k H6) in Hl. rewrite (phase_list s1 s6 m H6) in Hl'.
      destruct (Hback k p Hp Hep) as (p1 & Hp1 & He1). destruct (Hback m q Hq Heq) as (q1 & Hq1 & Heq1).
      destruct (neighbours_symmetric env0 dt s s1 k m p1 q1 l l' Hd Hsq Hr (sp_search _ _ _ _ _ _ _ _ HP) Hp1 He1 Hq1 Heq1 Hl Hl') as [_ HI].
      by apply HI.
  Qed.
End Symmetric.

(** The matrix assembled in a step is symmetric: over the reals, ... *)
Theorem C29_symmetric_real cfg (wm : wallmotion Rnum (cDim cfg)) env0 dt (s s1 s2 s3 s4 s5 s6 t : computer cfg wm) i j :
  square_ground env0 -> reachable env0 s -> step_prefix dt s s1 s2 s3 s4 s5 s6 -> set_ppe s6 = Some t ->
  elem (cA t) i j = elem (cA t) j i.
Proof.
  apply prefix_symmetric; intros x y; [rewrite !dist_edist; apply edist_sym|].
  rewrite !vdot_inner, <- !len_sqr, <- !edist_len. by rewrite edist_sym.
Qed.
(** ... and bit for bit in binary64. *)
Theorem C29_symmetric_binary64 cfg (wm : wallmotion F64num (cDim cfg)) env0 dt (s s1 s2 s3 s4 s5 s6 t : computer cfg wm) i j :
  square_ground env0 -> reachable env0 s -> step_prefix dt s s1 s2 s3 s4 s5 s6 -> set_ppe s6 = Some t ->
  elem (cA t) i j = elem (cA t) j i.
Proof. apply prefix_symmetric; intros x y; [apply f64_dist_sym|apply f64_vdot_sym]. Qed.

Open Scope R_scope.

Lemma dim_bound (e : dim) : 0 < INR (dimn e) < 5.
Proof. destruct e; simpl; lra. Qed.

(** ** C30 *)
Section Structure.
  Context {cfg : config} {wm : wallmotion Rnum (cDim cfg)}.
  Notation d := (cDim cfg).
  Notation V := (vec Rnum d).
  Notation part := (particle Rnum d).
  Notation computer := (computer cfg wm).
  Implicit Types (s t : computer) (p q : part) (env : environment Rnum cfg).

  Global Instance fluid_or_wall_dec p : Decision (fluid_or_wall p).
  Proof. unfold fluid_or_wall. apply _. Defined.
  Lemma excluded_unknown env p : ppe_excluded env p = false <-> unknown env p.
  Proof.
    unfold ppe_excluded, unknown, is_surface. rewrite orb_false_iff, negb_false_iff, is_active_true. apply and_iff_compat_l.
    destruct (cSPP cfg); [simpl; tauto|]. cbn [negb andb]. destruct (_ <?. _) eqn:E.
    - apply Rltb_true in E. split; [done|]. intros [?|H]; [done|]. simpl in *. lra.
    - apply Rltb_false in E. split; [by right|done].
  Qed.
  Lemma excluded_unknown' env p : ppe_excluded env p = true <-> ~ unknown env p.
  Proof. rewrite <- excluded_unknown. destruct (ppe_excluded env p); split; intros; [done|done|done|]. by destruct H. Qed.
  Lemma coef_laplacian env (r : R) : ppe_coef env r = laplacian env r.
  Proof.
    unfold ppe_coef, laplacian. destruct (cHL cfg).
    - simpl. rewrite minus_IZR, <- INR_IZR_INZ. replace (r * (r * (r * 1))) with (r * r * r) by ring. unfold Rdiv. rewrite !Rinv_mult. ring.
    - rewrite weight_wt. simpl. rewrite mult_IZR, <- INR_IZR_INZ. unfold Rdiv. rewrite !Rinv_mult. ring.
  Qed.
  Lemma column_unknown env q : enabled q -> (column env q = true <-> unknown env q).
  Proof.
    intros He. rewrite <- excluded_unknown, is_surface_column. apply is_disabled_false in He. rewrite He. simpl. rewrite andb_true_r, negb_false_iff. done.
  Qed.

  (** Equations of dummies, disabled and (without virtual particles) surface particles: x_i = 0. *)
  Theorem C30_excluded_rows s t i p :
    set_ppe s = Some t -> cParts s !! i = Some p -> ~ unknown (cEnv s) p ->
    (forall j, elem (cA t) i j = if (j =? i)%nat then 1 else 0) /\ cBv t !! i = Some (0 : Rnum) /\ cXv t !! i = Some (0 : Rnum).
  Proof.
    intros H Hp Hu. apply excluded_unknown' in Hu. split; [intros j; by apply (elem_excluded s t i p j)|].
    destruct (set_ppe_at s t i p H Hp) as ((v & Hv & Hb & Hx) & _). unfold rhs_value in Hv. rewrite Hu in Hv. injection Hv as <-. done.
  Qed.

  Lemma ppe_acc_diag s i p a : midstep s -> cParts s !! i = Some p -> enabled p ->
    acc s i ppe_zero ppe_plus (ppe_func (cEnv s) (pX p)) = Some a ->
    a.2 = - (close_sum (eRe (cEnv s)) s i (fun j q => if decide (pT q = Dummy) then 0 else laplacian (cEnv s) (edist (pX p) (pX q)))
             + of_virtual s i p 0 (fun v => laplacian (cEnv s) (edist (pX p) (pX v)))).
  Proof.
    intros Hm Hp He Ha.
    assert (forall j q, (ppe_func (cEnv s) (pX p) j q).2 = - (if decide (pT q = Dummy) then 0 else laplacian (cEnv s) (edist (pX p) (pX q)))) as Hf.
    { intros j q. unfold ppe_func. destruct (decide (pT q = Dummy)) as [->|Hn]; [simpl; lra|].
      assert (is_dummy (pT q) = false) as -> by (by destruct (pT q)). cbn [snd]. rewrite dist_edist, coef_laplacian. done. }
    destruct (acc_list s i p ppe_zero ppe_plus (ppe_func (cEnv s) (pX p)) (Rlt_le _ _ (ms_re s Hm)) (ms_cover s Hm) Hp He (ms_nws_at s i p Hm Hp)) as (l & Hl & E).
    pose proof (eq_trans (eq_sym Ha) E) as E'. injection E' as ->. clear E Ha.
    assert (forall (l : list nat) (z : mrow (N := Rnum) * R), (foldl (ppe_plus (N := Rnum)) z (map (fun j => at_part s j ppe_zero (ppe_func (cEnv s) (pX p) (Z.of_nat j))) l)).2
      = z.2 - rsum (map (fun j => at_part s j 0 (fun q => if decide (pT q = Dummy) then 0 else laplacian (cEnv s) (edist (pX p) (pX q)))) l)) as Hfold.
    { clear l Hl. induction l as [|j l IH]; intros z; [unfold rsum; simpl; lra|]. simpl map. cbn [foldl]. rewrite IH. unfold rsum at 2. cbn [foldr]. fold (rsum (map (fun j => at_part s j 0 (fun q => if decide (pT q = Dummy) then 0 else laplacian (cEnv s) (edist (pX p) (pX q)))) l)).
      unfold ppe_plus at 1. cbn [snd]. unfold at_part at 1 3. destruct (cParts s !! j) as [q|].
      - rewrite Hf. simpl nadd. lra.
      - simpl. lra. }
    rewrite <- (close_sum_filter _ _ _ (fun j q => if decide (pT q = Dummy) then 0 else laplacian (cEnv s) (edist (pX p) (pX q)))).
    rewrite <- (rsum_perm _ _ (Permutation_map _ Hl)). unfold of_virtual. destruct (virtual s i p) as [v|] eqn:Ev.
    - cbn [snd ppe_plus]. rewrite Hfold, Hf. apply virtual_fields in Ev as (_ & HT & _). rewrite HT. simpl. lra.
    - rewrite Hfold. simpl. lra.
  Qed.

  (** Equations of the unknowns. *)
  Theorem C30_rows s t i p :
    midstep s -> set_ppe s = Some t -> cParts s !! i = Some p -> unknown (cEnv s) p ->
    (forall j, j <> i -> elem (cA t) i j =
       if decide (coupled s i j) then at_part s j 0 (fun q => laplacian (cEnv s) (edist (pX p) (pX q))) else 0) /\
    elem (cA t) i i = - (sum_n (psize s) (fun j => if decide (coupled s i j) then at_part s j 0 (fun q => laplacian (cEnv s) (edist (pX p) (pX q))) else 0)
                         + leak s i p) /\
    cXv t !! i = Some (pP p).
  Proof.
    intros Hm H Hp Hu. assert (enabled p) as He by apply Hu. pose proof (proj2 (excluded_unknown _ _) Hu) as Hx.
    destruct (ms_cover s Hm i p Hp He) as (l & Hl & Hnd & Hin & Hall). split; [|split].
    - intros j Hji. rewrite (elem_other s t i p l j H Hp Hx Hl Hji). destruct (decide (coupled s i j)) as [[HC HU]|HC].
      + pose proof HC as (_ & p' & q & Hp' & Hq & Heq & Hd). rewrite Hp in Hp'. injection Hp' as <-.
        rewrite bool_decide_true by (by apply Hall). unfold in_radius. rewrite Hq. cbv zeta.
        pose proof (proj2 (sq_test (pX p) (pX q) _ (Rlt_le _ _ (ms_re s Hm))) Hd) as Hsq. destruct (_ <?. _) eqn:Hlt; [|exfalso; simpl in Hsq, Hlt; congruence]. simpl andb. cbv iota.
        unfold at_part in *. rewrite Hq in HU |- *. rewrite (proj2 (column_unknown _ _ Heq) HU). by rewrite dist_edist, coef_laplacian.
      + destruct (bool_decide (j ∈ l)) eqn:Hj; [|done]. apply bool_decide_eq_true in Hj. destruct (Hin j Hj) as (_ & q & Hq & Heq).
        unfold in_radius. rewrite Hq. cbv zeta. destruct (_ <?. _) eqn:Hd; [|done]. simpl andb. cbv iota.
        destruct (column (cEnv s) q) eqn:Hc; [|done]. exfalso. apply HC. split.
        * split; [done|]. exists p, q. apply sq_test in Hd; [done|left; apply Hm].
        * unfold at_part. rewrite Hq. by apply column_unknown.
    - destruct (set_ppe_at s t i p H Hp) as (_ & es & Hes & _). unfold row_entries in Hes. rewrite Hx in Hes.
      destruct (acc s i ppe_zero ppe_plus _) as [a|] eqn:Ea; [|done].
      rewrite (elem_diag s t i p a H Hp Hx Ea), (ppe_acc_diag s i p a Hm Hp He Ea). f_equal. unfold leak. rewrite <- Rplus_assoc. f_equal.
      unfold close_sum. rewrite <- sum_n_plus. apply sum_n_ext. intros j Hj.
      destruct (decide (close (eRe (cEnv s)) s i j)) as [C|C].
      + pose proof C as (_ & p' & q & Hp' & Hq & Heq & Hd). rewrite Hp in Hp'. injection Hp' as <-.
        assert (coupled s i j <-> unknown (cEnv s) q) as HC by (unfold coupled, at_part; rewrite Hq; tauto).
        destruct (decide (coupled s i j)) as [HU|HU]; unfold at_part; rewrite Hq; rewrite HC in HU.
        * destruct (decide (pT q = Dummy)) as [HD|HD]; [by destruct HU as [[_ ?] _]|].
          destruct (decide (_ /\ ~ unknown _ q)) as [HF|_]; [tauto|lra].
        * destruct (decide (pT q = Dummy)) as [HD|HD]; destruct (decide (_ /\ ~ unknown _ q)) as [HF|HF]; try lra.
          -- by destruct HF as [[_ ?] _].
          -- exfalso. apply HF. split; [by split|done].
      + destruct (decide (coupled s i j)) as [HU|HU]; [by destruct HU|lra].
    - destruct (set_ppe_at s t i p H Hp) as ((v & Hv & Hb & HX) & _). unfold rhs_value in Hv. rewrite Hx in Hv.
      destruct (density_speed s i); [|done]. cbn [mbind option_bind] in Hv. destruct (cECS cfg).
      + destruct (cEcs s !! i); [|done]. injection Hv as <-. done.
      + injection Hv as <-. done.
  Qed.

  (** The right-hand side. *)
  Theorem C30_right_hand_side s t i p (v e : R) :
    set_ppe s = Some t -> cParts s !! i = Some p -> unknown (cEnv s) p ->
    density_speed s i = Some (v : Rnum) -> (if cECS cfg then cEcs s !! i = Some (e : Rnum) else e = 0) ->
    el (cBv t) i = - (eRho (cEnv s) / (eN0 (cEnv s) * eDt (cEnv s))) * (v + e).
  Proof.
    intros H Hp Hu Hv He. pose proof (proj2 (excluded_unknown _ _) Hu) as Hx.
    destruct (set_ppe_at s t i p H Hp) as ((w & Hw & Hb & _) & _). unfold rhs_value in Hw. rewrite Hx, Hv in Hw. cbn [mbind option_bind] in Hw.
    etransitivity; [exact (nth_lookup_Some (cBv t : list R) i 0 w.1 Hb)|]. destruct (cECS cfg).
    - rewrite He in Hw. injection Hw as <-. simpl. unfold Rdiv. ring.
    - injection Hw as <-. subst e. simpl. unfold Rdiv. ring.
  Qed.

  Lemma laplacian_pos env (r : R) : 0 < eN0 env -> (cHL cfg = false -> 0 < eLambda env) -> 0 < r < eRe env -> 0 < laplacian env r.
  Proof.
    intros Hn Hl [H0 H1]. unfold laplacian. destruct (dim_bound d) as [D1 D2]. destruct (cHL cfg).
    - apply Rdiv_lt_0_compat; apply Rmult_lt_0_compat; try lra. by apply pow_lt.
    - specialize (Hl eq_refl). apply Rmult_lt_0_compat; [apply Rdiv_lt_0_compat; [lra|by apply Rmult_lt_0_compat]|]. apply wt_pos_iff; lra.
  Qed.
  Lemma apart_edist s i j p q : apart s -> i <> j -> cParts s !! i = Some p -> cParts s !! j = Some q -> enabled p -> enabled q -> 0 < edist (pX p) (pX q).
  Proof.
    intros HA Hij Hp Hq Hep Heq. pose proof (edist_nonneg (pX p) (pX q)) as H. destruct (Rle_lt_or_eq_dec _ _ H) as [L|L]; [done|].
    exfalso. symmetry in L. apply edist_zero in L. by apply (HA i j p q).
  Qed.
  Lemma virtual_dist s i p v : 0 < eRe (cEnv s) -> virtual s i p = Some v -> 0 < edist (pX p) (pX v) < eRe (cEnv s).
  Proof.
    intros Hre. unfold virtual. destruct (cSPP cfg); [|done]. destruct (cNws s !! i) as [n|]; [|done]. destruct (Rlt_dec _ _) as [L|]; [|done].
    destruct (Rlt_dec _ _) as [C|]; [|done]. intros [= <-]. set (c := centroid s i p) in *. set (re := eRe (cEnv s)) in *.
    assert (0 < len c) as Hl by (pose proof (Rinv_0_lt_compat (2 ^ 52) ltac:(lra)); lra). rewrite edist_len. cbn [pX].
    set (w := eN0 (cEnv s) - n). assert (0 < w) as Hw by (unfold w; simpl in *; lra).
    replace (pX p -^ (pX p -^ (re / (w + 1) / len c : Rnum) *^ c)) with ((re / (w + 1) / len c : Rnum) *^ c)
      by (apply coord_ext; intros k Hkd; rewrite !coord_sub by done; ring).
    assert (0 < re / (w + 1)) as Hk by (apply Rdiv_lt_0_compat; lra).
    assert (0 < re / (w + 1) / len c) by (by apply Rdiv_lt_0_compat).
    rewrite len_scal, Rabs_right by lra. replace (re / (w + 1) / len c * len c) with (re / (w + 1)) by (field; split; lra).
    split; [done|]. apply (Rmult_lt_reg_r (w + 1)); [lra|]. unfold Rdiv. rewrite Rmult_assoc, Rinv_l by lra. change (re * 1 < re * (w + 1)). assert (0 < re * w) by (by apply Rmult_lt_0_compat). lra.
  Qed.
  Lemma coupled_inv s i j : coupled s i j -> exists p q, i <> j /\ cParts s !! i = Some p /\ cParts s !! j = Some q /\ unknown (cEnv s) q /\ edist (pX p) (pX q) < eRe (cEnv s).
  Proof.
    intros [(Hij & p & q & Hp & Hq & Heq & Hd) HU]. exists p, q. unfold at_part in HU. rewrite Hq in HU. done.
  Qed.

  (** Off the diagonal: never negative, positive exactly for the unknowns in the radius; the diagonal outweighs them. *)
  Theorem C30_sign s t i p j :
    midstep s -> apart s -> 0 < eN0 (cEnv s) -> (cHL cfg = false -> 0 < eLambda (cEnv s)) ->
    set_ppe s = Some t -> cParts s !! i = Some p -> unknown (cEnv s) p -> j <> i ->
    0 <= elem (cA t) i j /\ (0 < elem (cA t) i j <-> coupled s i j).
  Proof.
    intros Hm Hap Hn Hl H Hp Hu Hji. destruct (C30_rows s t i p Hm H Hp Hu) as (HR & _ & _). rewrite (HR j Hji).
    destruct (decide (coupled s i j)) as [C|C]; [|split; [lra|split; [lra|done]]].
    destruct (coupled_inv s i j C) as (p' & q & Hij & Hp' & Hq & HU & Hd). rewrite Hp in Hp'. injection Hp' as <-. rewrite (at_part_eq s j q) by done.
    assert (0 < laplacian (cEnv s) (edist (pX p) (pX q))); [|split; [lra|done]]. apply laplacian_pos; [done|done|]. split; [|done].
    eapply (apart_edist s i j); try done; [apply Hu|apply HU].
  Qed.
  Lemma leak_terms s i p j q : midstep s -> apart s -> 0 < eN0 (cEnv s) -> (cHL cfg = false -> 0 < eLambda (cEnv s)) ->
    cParts s !! i = Some p -> enabled p -> close (eRe (cEnv s)) s i j -> cParts s !! j = Some q -> 0 < laplacian (cEnv s) (edist (pX p) (pX q)).
  Proof.
    intros Hm Hap Hn Hl Hp He C Hq. pose proof C as (Hij & p' & q' & Hp' & Hq' & Heq & Hd). rewrite Hp in Hp'. injection Hp' as <-. rewrite Hq in Hq'. injection Hq' as <-.
    apply laplacian_pos; [done|done|]. split; [|done]. by eapply (apart_edist s i j).
  Qed.
  Lemma leak_nonneg s i p : midstep s -> apart s -> 0 < eN0 (cEnv s) -> (cHL cfg = false -> 0 < eLambda (cEnv s)) ->
    cParts s !! i = Some p -> enabled p -> 0 <= leak s i p /\ (at_surface s i p -> 0 < leak s i p).
  Proof.
    intros Hm Hap Hn Hl Hp He. unfold leak.
    assert (forall j, (j < psize s)%nat -> 0 <= (if decide (close (eRe (cEnv s)) s i j) then
      at_part s j 0 (fun q => if decide (fluid_or_wall q /\ ~ unknown (cEnv s) q) then laplacian (cEnv s) (edist (pX p) (pX q)) else 0) else 0)) as H1.
    { intros j _. destruct (decide _) as [C|]; [|lra]. unfold at_part. destruct (cParts s !! j) as [q|] eqn:Hq; [|lra]. destruct (decide _); [|lra].
      left. by apply (leak_terms s i p j q). }
    pose proof (sum_n_nonneg _ _ H1) as H2.
    assert (forall v, virtual s i p = Some v -> 0 < laplacian (cEnv s) (edist (pX p) (pX v))) as H4.
    { intros v Ev. apply laplacian_pos; [done|done|]. by apply (virtual_dist s i p v (ms_re s Hm)). }
    assert (0 <= of_virtual s i p 0 (fun v => laplacian (cEnv s) (edist (pX p) (pX v)))) as H3.
    { unfold of_virtual. destruct (virtual s i p) as [v|]; [left; by apply H4|lra]. }
    unfold close_sum. cbv beta. match goal with |- 0 <= ?a + ?b /\ _ => remember (a : R) as S1 eqn:E1; remember (b : R) as S2 eqn:E2 end.
    assert (0 <= S1) as B1 by (rewrite E1; exact H2). assert (0 <= S2) as B2 by (first [exact H3|rewrite E2; exact H3]).
    split; [lra|]. intros [Hv|(j & q & C & Hq & HF & HU)].
    - assert (0 < S2); [|lra]. rewrite E2. unfold of_virtual. destruct (virtual s i p) as [v|]; [|done]. exact (H4 v eq_refl).
    - assert (0 < laplacian (cEnv s) (edist (pX p) (pX q))) as H5 by (by apply (leak_terms s i p j q)).
      assert (j < psize s)%nat as Hj by (by eapply lookup_lt_Some). assert (0 < S1); [|lra]. rewrite E1. 
      eapply Rlt_le_trans; [|apply (sum_n_ge _ _ j H1 Hj)]. rewrite decide_True by done. rewrite (at_part_eq s j q) by done. by rewrite decide_True by done.
  Qed.
  Theorem C30_diagonal s t i p :
    midstep s -> apart s -> 0 < eN0 (cEnv s) -> (cHL cfg = false -> 0 < eLambda (cEnv s)) ->
    set_ppe s = Some t -> cParts s !! i = Some p -> unknown (cEnv s) p ->
    sum_n (psize s) (fun j => if (j =? i)%nat then 0 else elem (cA t) i j) <= - elem (cA t) i i /\
    (at_surface s i p -> sum_n (psize s) (fun j => if (j =? i)%nat then 0 else elem (cA t) i j) < - elem (cA t) i i).
  Proof.
    intros Hm Hap Hn Hl H Hp Hu. destruct (C30_rows s t i p Hm H Hp Hu) as (HR & HD & _). rewrite HD.
    destruct (leak_nonneg s i p Hm Hap Hn Hl Hp) as [L1 L2]; [apply Hu|].
    rewrite (sum_n_ext _ _ (fun j => if decide (coupled s i j) then at_part s j 0 (fun q => laplacian (cEnv s) (edist (pX p) (pX q))) else 0)).
    - split; [lra|]. intros HS. specialize (L2 HS). lra.
    - intros j Hj. destruct (Nat.eqb_spec j i) as [->|Hji]; [|by apply HR]. destruct (decide _) as [[(Hii & _) _]|]; [done|done].
  Qed.
End Structure.

(** ** C31 *)
Section Form.
  Lemma quad_form (n : nat) (o : nat -> nat -> R) (l : nat -> R) (E : nat -> Prop) `{forall i, Decision (E i)} (A : list (mrow (N := Rnum))) x :
    (forall i j, (i < n)%nat -> (j < n)%nat -> o i j = o j i) ->
    (forall i, (i < n)%nat -> o i i = 0) ->
    (forall i j, (i < n)%nat -> E i -> o i j = 0) ->
    (forall i, (i < n)%nat -> E i -> el x i = 0) ->
    (forall i j, (i < n)%nat -> (j < n)%nat -> ~ E i -> (elem A i j : R) = if (j =? i)%nat then - (sum_n n (o i) + l i) else o i j) ->
    quad n A x = - (/ 2 * sum_n n (fun i => sum_n n (fun j => o i j * (el x i - el x j) ^ 2)))
                 - sum_n n (fun i => if decide (E i) then 0 else l i * el x i ^ 2).
  Proof.
    intros Ho Hd HoE HxE HA.
    assert (quad n A x = sum_n n (fun i => sum_n n (fun j => o i j * (el x i * (el x j - el x i)))) - sum_n n (fun i => if decide (E i) then 0 else l i * el x i ^ 2)) as ->.
    { unfold quad. rewrite <- sum_n_sub. apply sum_n_ext. intros i Hi. destruct (decide (E i)) as [HE|HE].
      - rewrite (HxE i Hi HE). rewrite (sum_n_zero n (fun j => o i j * _)) by (intros j _; rewrite (HoE i j Hi HE); ring). ring.
      - unfold mat_vec. rewrite (sum_n_ext n (fun j => elem A i j * el x j) (fun j => (o i j * el x j) + (if (j =? i)%nat then (- (sum_n n (o i) + l i) - o i i) * el x j else 0))).
        2:{ intros j Hj. rewrite (HA i j Hi Hj HE). destruct (Nat.eqb_spec j i) as [->|]; ring. }
        rewrite sum_n_plus, (sum_n_delta n i (fun j => (- (sum_n n (o i) + l i) - o i i) * el x j)) by done.
        rewrite (sum_n_ext n (fun j => o i j * (el x i * (el x j - el x i))) (fun j => el x i * (o i j * el x j) - el x i ^ 2 * o i j)) by (intros; ring).
        rewrite sum_n_sub, !sum_n_scal. rewrite (Hd i Hi). ring. }
    enough (sum_n n (fun i => sum_n n (fun j => o i j * (el x i * (el x j - el x i)))) + / 2 * sum_n n (fun i => sum_n n (fun j => o i j * (el x i - el x j) ^ 2)) = 0) by lra.
    rewrite <- sum_n_scal, <- sum_n_plus.
    rewrite (sum_n_ext n _ (fun i => sum_n n (fun j => / 2 * o i j * (el x j ^ 2 - el x i ^ 2)))).
    - apply sum_n_antisym. intros i j Hi Hj. rewrite (Ho i j Hi Hj). ring.
    - intros i Hi. rewrite <- sum_n_scal, <- sum_n_plus. apply sum_n_ext. intros j Hj. field.
  Qed.
End Form.

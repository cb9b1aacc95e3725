(** Example in exact arithmetic: two fluid particles side by side fall for one step.  It shows that the hypotheses of
    the theorems over the reals are met by reachable states and that the step completes. *)
From Verif Require Import P_Neigh P_Force T_Search T_Env T_Density T_Force T_Solve T_Outcome S_Outcome S_Lattice S_Ppe M_Main.
Open Scope R_scope.

Notation rcfg := default_config.
Notation rvec := (vec Rnum (cDim rcfg)).
Notation rpart := (particle Rnum (cDim rcfg)).
Definition drop_at (x z : R) : rpart := mkParticle (N := Rnum) (d := cDim rcfg) ((x, z) : rvec) (vzero : rvec) 0 0 Newton.
Definition drops : list rpart := [drop_at 3 3; drop_at 4 3].
Definition rwall := fixed_walls (N := Rnum) rcfg (map pX drops).
Notation rcomputer := (computer rcfg rwall).

(** l_0 = 1, R_e = 6/5, Courant number 1/10, g = 10, domain 10 x 10. *)
Definition ex_env : option (environment Rnum rcfg) :=
  new_env (N := Rnum) rcfg (1/100) (1/10) 10 1 1 (9/10) (6/5) 1 1 ((0, 0) : rvec) ((10, 10) : rvec).

Lemma sqrt_lt_sq a b : 0 <= b -> R_sqrt.sqrt a < b -> a < b * b.
Proof.
  intros Hb H. destruct (Rle_dec (b * b) a) as [Hab|]; [|lra]. exfalso.
  assert (b <= R_sqrt.sqrt a); [|lra]. rewrite <- (sqrt_Rsqr b) by done. apply sqrt_le_1_alt. unfold Rsqr. lra.
Qed.
Lemma unit_lattice : lattice_within D2 (6/5) [[1; 0]; [-1; 0]; [0; 1]; [0; -1]]%Z.
Proof.
  split.
  - repeat constructor; rewrite ?elem_of_cons, ?elem_of_nil; intros; naive_solver.
  - intros z Hz. repeat (apply elem_of_cons in Hz as [->|Hz]; [done|]). by apply elem_of_nil in Hz.
  - intros z Hl Hnz Hlt. destruct z as [|x [|y [|]]]; try done. unfold znorm in *. cbn [map rsum foldr] in *.
    apply sqrt_lt_sq in Hlt; [|lra]. rewrite <- !mult_IZR, Rplus_0_r, <- plus_IZR in Hlt.
    assert (x * x + y * y < 2)%Z as Hlt2 by (apply lt_IZR; lra).
    assert (x * x + y * y <> 0)%Z as Hnz2.
    { intros E. apply Hnz. rewrite Rplus_0_r, <- !mult_IZR, <- plus_IZR, E. apply sqrt_0. }
    assert (-1 <= x <= 1)%Z as Hx by nia. assert (-1 <= y <= 1)%Z as Hy by nia.
    assert (x = -1 \/ x = 0 \/ x = 1)%Z as [->|[->| ->]] by lia; assert (y = -1 \/ y = 0 \/ y = 1)%Z as [->|[->| ->]] by lia;
      try (exfalso; lia); rewrite !elem_of_cons; tauto.
Qed.
Lemma wt_one : wt 1 (6/5) = 1/5.
Proof. unfold wt. destruct (Rlt_dec 0 1); [|lra]. destruct (Rlt_dec 1 (6/5)); lra. Qed.

Record ex_facts (e : environment Rnum rcfg) : Prop := {
  ef_re : eRe e = 6/5; ef_nl : eNL e = 36/25; ef_l0 : eL0 e = 1; ef_n0 : eN0 e = 4/5; ef_g : eG e = ((0, -10) : rvec);
  ef_min : eMinX e = ((0, 0) : rvec); ef_max : eMaxX e = ((10, 10) : rvec);
  ef_dx : eMaxDx e = 1/10; ef_dt : 0 < eMaxDt e }.

Lemma ex_env_facts : exists e, ex_env = Some e /\ ex_facts e.
Proof.
  destruct (C13_constructor_defined (cfg := rcfg) (1/100) (1/10) 10 1 1 (9/10) (6/5) 1 1
    ((0, 0) : rvec) ((10, 10) : rvec) ltac:(lra)) as [e He].
  exists e. split; [exact He|].
  assert (eN0 e = 4/5) as HN.
  { destruct (C13_reference_density _ _ _ _ _ _ _ _ _ _ _ _ _ He ltac:(lra) unit_lattice) as [_ ->].
    assert (forall a b : Z, (a * a + b * b = 1)%Z -> znorm [a; b] = 1) as HZ.
    { intros a b H. unfold znorm. cbn [map rsum foldr]. rewrite Rplus_0_r, <- !mult_IZR, <- plus_IZR, H. apply sqrt_1. }
    cbn [map rsum foldr]. rewrite !HZ by done. rewrite wt_one. lra. }
  pose proof (C15_limits _ _ _ _ _ _ _ _ _ _ _ _ He) as (_ & _ & HD & _).
  unfold new_env in He. destruct (nceil _); [|done]. destruct (_ || _)%bool; [done|]. injection He as <-.
  split; cbn -[nmin]; try lra; try done.
  cbn -[nmin] in HD. destruct HD as [HD|HD]; rewrite HD; [lra|]. apply sqrt_lt_R0. lra.
Qed.

Lemma ceil_R (x : R) z : IZR z - 1 < x <= IZR z -> (Z.abs z < 2 ^ 62)%Z -> nceil (x : Rnum) = Some z.
Proof.
  intros H Hz. cbn. rewrite (Zceil_imp z x) by (rewrite minus_IZR; lra). unfold to_index.
  rewrite (proj2 (Z.leb_le _ _)) by lia. by rewrite (proj2 (Z.ltb_lt _ _)) by lia.
Qed.
Lemma floor_R (x : R) z : IZR z <= x < IZR z + 1 -> (Z.abs z < 2 ^ 62)%Z -> nfloor (x : Rnum) = Some z.
Proof.
  intros H Hz. cbn. rewrite (Zfloor_imp z x) by (rewrite plus_IZR; lra). unfold to_index.
  rewrite (proj2 (Z.leb_le _ _)) by lia. by rewrite (proj2 (Z.ltb_lt _ _)) by lia.
Qed.
Lemma floor_defined (x : R) : Rabs x < 1000000 -> exists z, nfloor (x : Rnum) = Some z.
Proof.
  intros H. apply Rabs_def2 in H as [H1 H2]. exists (Zfloor x). pose proof (Zfloor_lb x). pose proof (Zfloor_ub x).
  apply floor_R; [lra|]. assert (-1000002 < Zfloor x < 1000002)%Z; [|lia]. split; apply lt_IZR; lra.
Qed.

Section Step.
  Context (e : environment Rnum rcfg) (He : ex_facts e).

  Lemma ex_square : square_ground e.
  Proof. by left. Qed.
  Lemma ex_new eps : exists s0, new_computer rcfg rwall eps e tt = Some s0.
  Proof.
    assert (forall k, (k < 2)%nat -> ceil_div (tget D2 (eMaxX e) k -. tget D2 (eMinX e) k) (eNL e) = Some 7%Z) as H1.
    { intros k Hk. unfold ceil_div. rewrite (ef_nl e He), (ef_min e He), (ef_max e He).
      apply ceil_R; [|done]. destruct k as [|[|k]]; [| |lia].
      - change (7 - 1 < (10 - 0) / (36/25) <= 7). lra.
      - change (7 - 1 < (10 - 0) / (36/25) <= 7). lra. }
    assert (ceil_div (eNL e) (eL0 e) = Some 2%Z) as H2.
    { unfold ceil_div. rewrite (ef_nl e He), (ef_l0 e He). apply ceil_R; [|done]. change (2 - 1 < 36/25 / 1 <= 2). lra. }
    unfold new_computer, new_grid. change (cDim rcfg) with D2. cbn [dimn seq mapM].
    rewrite (H1 0%nat), (H1 1%nat), H2 by lia. cbn [mret option_ret mbind option_bind fmap option_fmap option_map].
    eexists. reflexivity.
  Qed.

  Context (eps : Rnum) (s0 : rcomputer) (Hs0 : new_computer rcfg rwall eps e tt = Some s0).
  Definition ex_state : rcomputer := add_particles drops s0.
  Lemma ex_parts : cParts ex_state = drops.
  Proof.
    assert (cParts s0 = []) as H0. { pose proof Hs0 as H. unfold new_computer in H. destruct (new_grid _ _ _ _ _); [|done]. by injection H as <-. }
    unfold ex_state, add_particles. cbn [cParts]. by rewrite H0.
  Qed.
  Lemma ex_reachable : reachable e ex_state.
  Proof. apply (reach_done e (AddParticles rcfg drops) s0); [by eapply reach_new|done]. Qed.
  Lemma ex_part i p : cParts ex_state !! i = Some p -> (i = 0%nat /\ p = drop_at 3 3) \/ (i = 1%nat /\ p = drop_at 4 3).
  Proof. rewrite ex_parts. destruct i as [|[|i]]; cbn; intros [= <-]; auto. Qed.
  Lemma ex_locatable : locatable e ex_state.
  Proof.
    intros i p k Hp _ Hk. unfold block_number. rewrite (ef_nl e He), (ef_min e He). change (cDim rcfg) with D2 in *. cbn in Hk.
    apply floor_defined. destruct (ex_part i p Hp) as [[-> ->]|[-> ->]]; destruct k as [|[|k]]; try lia; cbn; apply Rabs_def1; lra.
  Qed.
  Lemma ex_not_crowded : ~ crowded e ex_state.
  Proof.
    intros (b & js & _ & _ & Hnd & Hjs & c & Hc & Hlt).
    assert (capacity e = Some 9%Z) as HC.
    { unfold capacity. rewrite (ef_nl e He), (ef_l0 e He). assert (nceil ((36/25 : Rnum) /. (1 : Rnum)) = Some 2%Z) as E.
      { apply ceil_R; [|done]. change (2 - 1 < 36/25 / 1 <= 2). lra. }
      by rewrite E. }
    rewrite HC in Hc. injection Hc as <-.
    assert (length js <= length [0; 1])%nat; [|simpl in *; lia].
    apply submseteq_length, NoDup_submseteq; [done|]. intros j Hj. destruct (Hjs j Hj) as (p & Hp & _).
    rewrite !elem_of_cons. destruct (ex_part j p Hp) as [[-> _]|[-> _]]; auto.
  Qed.

  (** *** The phases *)
  Definition ex_dt : R := 1/100.
  Lemma ex_search : exists s1, search_neighbor (start_step (ex_dt : Rnum) ex_state) = Done s1.
  Proof.
    destruct (search_outcome e (ex_dt : Rnum) ex_state ex_square ex_reachable ex_locatable) as [[? _]|[_ ?]]; [|done].
    by destruct ex_not_crowded.
  Qed.
  Lemma ex_constants (s : rcomputer) : cEnv s = cEnv (start_step (ex_dt : Rnum) ex_state) ->
    eRe (cEnv s) = 6/5 /\ eN0 (cEnv s) = 4/5 /\ eDt (cEnv s) = ex_dt /\ eG (cEnv s) = ((0, -10) : rvec).
  Proof.
    intros ->. pose proof (inv_env _ _ (reachable_inv e _ ex_square ex_reachable)) as Hc. unfold same_constants in Hc.
    cbn -[ex_state]. rewrite Hc. cbn -[ex_state]. by destruct He.
  Qed.
  (** Two particles at distance 1, otherwise alone. *)
  Definition pair_like (h : R) (u : rvec) (s : rcomputer) : Prop :=
    exists p q, cParts s = [p; q] /\ pT p = Newton /\ pT q = Newton /\ pU p = u /\ pU q = u /\
      pX p = ((3, h) : rvec) /\ pX q = ((4, h) : rvec).
  Lemma pair_dist (h : R) : edist ((3, h) : rvec) ((4, h) : rvec) = 1.
  Proof.
    unfold edist. cbn. replace (_ + _) with (1 * 1) by ring. apply sqrt_square. lra.
  Qed.
  Lemma pair_dist' (h : R) : edist ((4, h) : rvec) ((3, h) : rvec) = 1.
  Proof. rewrite edist_sym. apply pair_dist. Qed.
  Definition other (i : nat) : nat := (1 - i)%nat.
  Lemma pair_at h u (s : rcomputer) i p : pair_like h u s -> cParts s !! i = Some p ->
    (i < 2)%nat /\ pT p = Newton /\ pU p = u /\ pX p = ((3 + INR i, h) : rvec) /\
    exists q, cParts s !! other i = Some q /\ pT q = Newton /\ pU q = u /\ pX q = ((3 + INR (other i), h) : rvec).
  Proof.
    intros (p0 & q0 & Hs & Tp & Tq & Up & Uq & Xp & Xq) Hp. rewrite Hs in Hp |- *.
    assert (3 + INR 0 = 3) as E0 by (cbn; lra). assert (3 + INR 1 = 4) as E1 by (cbn; lra).
    destruct i as [|[|i]]; cbn in Hp; simplify_eq; cbn [other Nat.sub]; rewrite ?E0, ?E1.
    - split; [lia|]. do 3 (split; [done|]). exists q0. done.
    - split; [lia|]. do 3 (split; [done|]). exists p0. done.
  Qed.
  Lemma pair_distance h i : (i < 2)%nat -> edist ((3 + INR i, h) : rvec) ((3 + INR (other i), h) : rvec) = 1.
  Proof.
    assert (3 + INR 0 = 3) as E0 by (cbn; lra). assert (3 + INR 1 = 4) as E1 by (cbn; lra).
    destruct i as [|[|i]]; cbn [other Nat.sub]; intros; [| |lia]; rewrite E0, E1; [apply pair_dist|apply pair_dist'].
  Qed.
  Lemma pair_close h u (s : rcomputer) i p j : pair_like h u s -> cParts s !! i = Some p ->
    close (6/5) s i j <-> j = other i.
  Proof.
    intros HP Hp. destruct (pair_at h u s i p HP Hp) as (Hi & Tp & Up & Xp & q & Hq & Tq & Uq & Xq). split.
    - intros (Hne & p' & q' & _ & Hq' & _). destruct (pair_at h u s j q' HP Hq') as (Hj & _). unfold other. lia.
    - intros ->. split; [unfold other; lia|]. exists p, q. split; [done|]. split; [done|]. split; [unfold enabled; congruence|].
      rewrite Xp, Xq, pair_distance by done. lra.
  Qed.
  Lemma pair_sum h u (s : rcomputer) i p f : pair_like h u s -> cParts s !! i = Some p ->
    close_sum (6/5) s i f = at_part s (other i) 0 (f (other i)).
  Proof.
    intros HP Hp. assert (psize s = 2%nat) as HN. { destruct HP as (p0 & q0 & Hs & _). unfold psize. by rewrite Hs. }
    unfold close_sum. rewrite HN. unfold sum_n. cbn [seq map rsum foldr].
    pose proof (pair_close h u s i p 0%nat HP Hp) as C0. pose proof (pair_close h u s i p 1%nat HP Hp) as C1.
    destruct (pair_at h u s i p HP Hp) as (Hi & _). destruct (decide (close (6/5) s i 0)) as [D0|D0], (decide (close (6/5) s i 1)) as [D1|D1].
    - apply C0 in D0. apply C1 in D1. lia.
    - apply C0 in D0. rewrite <- D0. lra.
    - apply C1 in D1. rewrite <- D1. lra.
    - exfalso. assert (i = 0 \/ i = 1)%nat as [->| ->] by lia; [by apply D1, C1|by apply D0, C0].
  Qed.
  Lemma pair_vsum h u (s : rcomputer) i p f : pair_like h u s -> cParts s !! i = Some p ->
    close_vsum (6/5) s i f = at_part s (other i) vzero (f (other i)).
  Proof.
    intros HP Hp. assert (psize s = 2%nat) as HN. { destruct HP as (p0 & q0 & Hs & _). unfold psize. by rewrite Hs. }
    assert (forall v : rvec, vsum [v; vzero] = v /\ vsum [vzero; v] = v) as HV.
    { intros [v1 v2]. unfold vsum. cbn. split; f_equal; ring. }
    unfold close_vsum. rewrite HN. unfold vsum_n. cbn [seq map].
    pose proof (pair_close h u s i p 0%nat HP Hp) as C0. pose proof (pair_close h u s i p 1%nat HP Hp) as C1.
    destruct (pair_at h u s i p HP Hp) as (Hi & _). destruct (decide (close (6/5) s i 0)) as [D0|D0], (decide (close (6/5) s i 1)) as [D1|D1].
    - apply C0 in D0. apply C1 in D1. lia.
    - apply C0 in D0. rewrite <- D0. apply HV.
    - apply C1 in D1. rewrite <- D1. apply HV.
    - exfalso. assert (i = 0 \/ i = 1)%nat as [->| ->] by lia; [by apply D1, C1|by apply D0, C0].
  Qed.
  Lemma pair_density h u (s : rcomputer) i p : pair_like h u s -> eRe (cEnv s) = 6/5 -> cParts s !! i = Some p -> raw_density s i p = 1/5.
  Proof.
    intros HP HR Hp. unfold raw_density. rewrite HR, (pair_sum h u s i p) by done. unfold at_part.
    destruct (pair_at h u s i p HP Hp) as (Hi & Tp & Up & Xp & q & Hq & Tq & Uq & Xq). rewrite Hq, Xp, Xq, pair_distance by done. apply wt_one.
  Qed.
  Lemma pair_viscous h u (s : rcomputer) i p : pair_like h u s -> eRe (cEnv s) = 6/5 -> cParts s !! i = Some p -> viscous s i p = vzero.
  Proof.
    intros HP HR Hp. unfold viscous. rewrite HR, (pair_vsum h u s i p) by done. unfold at_part.
    destruct (pair_at h u s i p HP Hp) as (Hi & Tp & Up & Xp & q & Hq & Tq & Uq & Xq). rewrite Hq.
    destruct (decide _); [done|]. rewrite Up, Uq. apply coord_ext. intros k Hk. rewrite coord_scal, coord_sub by done.
    rewrite Rminus_diag_eq by done. rewrite Rmult_0_r. destruct k as [|[|k]]; done.
  Qed.
  Lemma pair_virtual h u (s : rcomputer) i p : pair_like h u s -> eRe (cEnv s) = 6/5 -> eN0 (cEnv s) = 4/5 ->
    cParts s !! i = Some p -> cNws s !! i = Some (1/5 : Rnum) -> virtual s i p <> None.
  Proof.
    intros HP HR HN0 Hp Hn. unfold virtual. change (cSPP rcfg) with true. cbn match.
    match goal with |- match ?o with Some _ => _ | None => _ end <> _ => assert (o = Some (1/5)) as -> by exact Hn end.
    rewrite HN0. destruct (Rlt_dec _ _); [|lra].
    assert (len (centroid s i p) = 1/4) as ->.
    { unfold centroid. rewrite HR, HN0, (pair_vsum h u s i p) by done. unfold at_part.
      destruct (pair_at h u s i p HP Hp) as (Hi & Tp & Up & Xp & q & Hq & Tq & Uq & Xq).
      rewrite Hq, Xp, Xq, pair_distance, wt_one by done. unfold len, inner. cbn [dimn cDim rcfg sum_n seq map rsum foldr].
      assert (3 + INR 0 = 3) as E0 by (cbn; lra). assert (3 + INR 1 = 4) as E1 by (cbn; lra).
      destruct i as [|[|i]]; [| |lia]; cbn [other Nat.sub]; rewrite E0, E1; cbn.
      all: match goal with |- R_sqrt.sqrt ?x = _ => replace x with (1/4 * (1/4)) by field end; apply sqrt_square; lra. }
    destruct (Rlt_dec (/ 2 ^ 52) (1/4)) as [|H]; [done|]. exfalso. apply H. replace (1/4) with (/ 2 ^ 2) by lra.
    apply Rinv_lt_contravar; [apply Rmult_lt_0_compat; apply pow_lt; lra|]. apply Rlt_pow; [lra|lia].
  Qed.

  Definition fall_u : rvec := ((0, -1/10) : rvec).
  Definition fall_z : R := 3 - 1/1000.
  Lemma pair_same_parts h u (s s' : rcomputer) : pair_like h u s ->
    (forall i p, cParts s !! i = Some p -> exists n, cParts s' !! i = Some (set_N n p)) -> psize s' = psize s -> pair_like h u s'.
  Proof.
    intros (p & q & Hs & H) HK HN. unfold psize in HN. rewrite Hs in HN, HK. cbn in HN.
    destruct (cParts s') as [|p' [|q' [|]]] eqn:E; cbn in HN; try lia.
    destruct (HK 0%nat p eq_refl) as [n Hn]. destruct (HK 1%nat q eq_refl) as [m Hm]. cbn in Hn, Hm. injection Hn as ->. injection Hm as ->.
    exists (set_N n p), (set_N m q). done.
  Qed.
  Lemma pair_at_0 h u (s : rcomputer) : pair_like h u s -> psize s = 2%nat.
  Proof. intros (p0 & q0 & Hs & _). unfold psize. by rewrite Hs. Qed.
  Lemma ex_start : pair_like 3 vzero ex_state.
  Proof. exists (drop_at 3 3), (drop_at 4 3). rewrite ex_parts. done. Qed.
  Lemma pair_moved h u h' u' (s s' : rcomputer) : pair_like h u s -> pair_like h' u' s' -> Rabs (h - h') <= 12/100 ->
    moved_at_most ((eNL e - eRe e) / 2) s s'.
  Proof.
    intros HP HP' Hh i p p' Hp Hp' _. rewrite (ef_nl e He), (ef_re e He).
    destruct (pair_at _ _ _ _ _ HP Hp) as (_ & _ & _ & Xp & _). destruct (pair_at _ _ _ _ _ HP' Hp') as (_ & _ & _ & Xp' & _).
    rewrite Xp, Xp'. unfold edist. cbn -[INR]. match goal with |- R_sqrt.sqrt ?x <= _ => replace x with (Rsqr (h - h')) by (unfold Rsqr; ring) end.
    rewrite sqrt_Rsqr_abs. lra.
  Qed.

  Record ex_trace (s1 s2 s3 s4 s5 s6 : rcomputer) : Prop := {
    et_mid : forall s, s ∈ [s1; s2; s3; s4; s5; s6] -> midstep s;
    et_env : forall s, s ∈ [s1; s2; s3; s4; s5; s6] -> cEnv s = cEnv (start_step (ex_dt : Rnum) ex_state);
    et_before : forall s, s ∈ [s1; s2; s3] -> pair_like 3 vzero s;
    et_after : forall s, s ∈ [s4; s5; s6] -> pair_like fall_z fall_u s;
    et_nws : forall i, (i < 2)%nat -> cNws s6 !! i = Some (1/5 : Rnum) }.

  Lemma ex_prefix s1 s2 s3 s4 s5 s6 : step_prefix (ex_dt : Rnum) ex_state s1 s2 s3 s4 s5 s6 -> ex_trace s1 s2 s3 s4 s5 s6.
  Proof.
    intros HT. pose proof HT as [H1 H2 H3 H4 H5 H6]. change (cECS rcfg) with true in H3. change (cDS rcfg) with true in H6. cbn match in H3, H6.
    assert (0 < eNL e) as HNL by (rewrite (ef_nl e He); lra). assert (0 < eRe e) as HRe by (rewrite (ef_re e He); lra).
    assert (forall s, s ∈ [s1; s2; s3; s4; s5; s6] -> moved_at_most ((eNL e - eRe e) / 2) ex_state s -> midstep s) as HM.
    { intros s Hs. by apply (C11_before_solver e (ex_dt : Rnum) ex_state s1 s2 s3 s4 s5 s6 s ex_square HNL HRe ex_reachable HT). }
    assert (pair_like 3 vzero s1) as P1.
    { apply (pair_same_parts 3 vzero ex_state s1 ex_start).
      - intros i p Hp. exists (pN p). rewrite (C07_upper_margin e (ex_dt : Rnum) ex_state s1 i p ex_square HNL ex_reachable H1 Hp).
        + by destruct p.
        + destruct (pair_at _ _ _ _ _ ex_start Hp) as (_ & HT' & _). unfold enabled. congruence.
        + intros k Hk. rewrite (ef_min e He), (ef_max e He), (ef_nl e He).
          destruct (pair_at _ _ _ _ _ ex_start Hp) as (Hi & _ & _ & -> & _). assert (0 <= INR i <= 1) as Hi'.
          { split; [apply pos_INR|]. replace 1 with (INR 1) by done. apply le_INR. lia. }
          destruct k as [|[|k]]; [| |cbn in Hk; lia]; cbn -[INR]; lra.
      - pose proof (search_searched e (ex_dt : Rnum) ex_state s1 ex_square ex_reachable H1) as S1.
        unfold psize. by rewrite (se_parts _ _ S1), fmap_length. }
    assert (cEnv s1 = cEnv (start_step (ex_dt : Rnum) ex_state)) as E1.
    { pose proof (search_searched e (ex_dt : Rnum) ex_state s1 ex_square ex_reachable H1) as S1. by rewrite (se_rest _ _ S1). }
    assert (pair_like 3 vzero s2) as P2.
    { apply (pair_same_parts 3 vzero s1 s2 P1); [|by apply (pr_size _ _ (dens_pr _ _ H2))].
      intros i p Hp. destruct (dens_keep _ _ _ _ H2 Hp) as (n & Hn & _). eauto. }
    assert (cEnv s2 = cEnv (start_step (ex_dt : Rnum) ex_state)) as E2 by (by rewrite (pr_env _ _ (dens_pr _ _ H2))).
    assert (pair_like 3 vzero s3) as P3 by (by rewrite (ecs_rest _ _ H3)).
    assert (cEnv s3 = cEnv (start_step (ex_dt : Rnum) ex_state)) as E3 by (by rewrite (pr_env _ _ (ecs_pr _ _ H3))).
    assert (forall s, pair_like 3 vzero s -> moved_at_most ((eNL e - eRe e) / 2) ex_state s) as M0.
    { intros s Ps. apply (pair_moved 3 vzero 3 vzero); [apply ex_start|done|]. rewrite Rminus_diag_eq, Rabs_R0 by done. lra. }
    assert (midstep s3) as M3 by (apply HM; [do 2 right; left|by apply M0]).
    destruct (ex_constants s3 E3) as (C1 & C2 & C3 & C4).
    assert (pair_like fall_z fall_u s4) as P4.
    { assert (forall i p, cParts s3 !! i = Some p -> cParts s4 !! i =
        Some (mkParticle ((3 + INR i, fall_z) : rvec) fall_u (pP p) (pN p) (pT p))) as HA.
      { intros i p Hp. destruct (pair_at _ _ _ _ _ P3 Hp) as (Hi & Tp & Up & Xp & _).
        pose proof (C24_explicit_phase s3 s4 i p M3 eq_refl H4 Hp Tp) as HX. cbv zeta in HX. rewrite HX. clear HX.
        rewrite (pair_viscous _ _ _ _ _ P3 C1 Hp), C3, C4, Up, Xp. unfold ex_dt, fall_z, fall_u. do 2 f_equal.
        all: apply coord_ext; intros k Hk; rewrite ?coord_add, ?coord_scal, ?coord_add, ?coord_scal, ?coord_add by done.
        all: destruct k as [|[|k]]; [| |cbn in Hk; lia]; cbn -[INR]; lra. }
      destruct P3 as (p & q & Hs & Tp & Tq & _). pose proof (HA 0%nat p ltac:(by rewrite Hs)) as A0. pose proof (HA 1%nat q ltac:(by rewrite Hs)) as A1.
      assert (psize s4 = 2%nat) as HN by (rewrite (pr_size _ _ (explicit_pr _ _ H4)); unfold psize; by rewrite Hs).
      unfold psize in HN. destruct (cParts s4) as [|p' [|q' [|]]] eqn:E4p; cbn in HN; try lia. cbn -[INR] in A0, A1. injection A0 as ->. injection A1 as ->.
      unfold pair_like. rewrite E4p. eexists _, _. split; [reflexivity|]. cbn -[INR fall_u fall_z]. repeat (split; [done|]). split; f_equal; cbn; lra. }
    assert (cEnv s4 = cEnv (start_step (ex_dt : Rnum) ex_state)) as E4 by (by rewrite (pr_env _ _ (explicit_pr _ _ H4))).
    assert (forall s, pair_like fall_z fall_u s -> moved_at_most ((eNL e - eRe e) / 2) ex_state s) as M1.
    { intros s Ps. apply (pair_moved 3 vzero fall_z fall_u); [apply ex_start|done|]. unfold fall_z. rewrite Rabs_pos_eq; lra. }
    assert (midstep s4) as M4 by (apply HM; [do 3 right; left|by apply M1]).
    assert (pair_like fall_z fall_u s5) as P5.
    { apply (pair_same_parts _ _ s4 s5 P4); [|by apply (pr_size _ _ (dens_pr _ _ H5))].
      intros i p Hp. destruct (dens_keep _ _ _ _ H5 Hp) as (n & Hn & _). eauto. }
    assert (cEnv s5 = cEnv (start_step (ex_dt : Rnum) ex_state)) as E5 by (by rewrite (pr_env _ _ (dens_pr _ _ H5))).
    assert (pair_like fall_z fall_u s6) as P6 by (by rewrite (savex_rest _ _ H6)).
    assert (cEnv s6 = cEnv (start_step (ex_dt : Rnum) ex_state)) as E6 by (by rewrite (pr_env _ _ (savex_pr _ _ H6))).
    split.
    - intros s Hs. apply HM; [done|]. repeat (apply elem_of_cons in Hs as [->|Hs]; [by auto|]). by apply elem_of_nil in Hs.
    - intros s Hs. repeat (apply elem_of_cons in Hs as [->|Hs]; [done|]). by apply elem_of_nil in Hs.
    - intros s Hs. repeat (apply elem_of_cons in Hs as [->|Hs]; [done|]). by apply elem_of_nil in Hs.
    - intros s Hs. repeat (apply elem_of_cons in Hs as [->|Hs]; [done|]). by apply elem_of_nil in Hs.
    - intros i Hi. rewrite (savex_rest _ _ H6). cbn.
      destruct (lookup_lt_is_Some_2 (cParts s4) i) as [p Hp]. { pose proof (pair_at_0 _ _ _ P4) as X. unfold psize in X. lia. }
      destruct (pair_at _ _ _ _ _ P4 Hp) as (_ & Tp & _). destruct (ex_constants s4 E4) as (D1 & _).
      destruct (dens_active s4 s5 i p M4 H5 Hp ltac:(split; congruence)) as [_ HN].
      rewrite (pair_density _ _ _ _ _ P4 D1 Hp) in HN. exact HN.
  Qed.

  (** The step completes. *)
  Lemma ex_completes : exists s', forward_dt (ex_dt : Rnum) ex_state = Done s'.
  Proof.
    apply (C56_completes rcfg rwall e ex_dt ex_state ex_square ex_reachable ex_locatable ex_not_crowded).
    - split; [rewrite (ef_n0 e He); lra|done].
    - intros s1 s2 s3 s4 s5 s6 HT. destruct (ex_prefix _ _ _ _ _ _ HT) as [HM HE HB HA HN].
      pose proof (HA s6 ltac:(do 2 right; left)) as P6. pose proof (HE s6 ltac:(do 5 right; left)) as E6.
      destruct (ex_constants s6 E6) as (D1 & D2 & _). split; [apply HM; do 5 right; left|]. split.
      + intros i j p q Hij Hp Hq _ _ Hx. destruct (pair_at _ _ _ _ _ P6 Hp) as (_ & _ & _ & Xp & _).
        destruct (pair_at _ _ _ _ _ P6 Hq) as (_ & _ & _ & Xq & _). rewrite Xp, Xq in Hx. apply Hij, INR_eq.
        apply (f_equal fst) in Hx. cbn -[INR] in Hx. lra.
      + intros i p Hp Hu. eapply sc_here; [done|done|]. left. apply (pair_virtual fall_z fall_u s6 i p P6 D1 D2 Hp). apply HN.
        by destruct (pair_at _ _ _ _ _ P6 Hp).
  Qed.
End Step.

(** All in one: a reachable state and a completed step that meet the hypotheses of the theorems about steps and phases
    (C01, C07, C11, C18, C19, C22-C25, C27-C38, C52, C55, C56): what a step starts from, its intermediate states, the particles in them,
    and that the solver has real work to do (unknowns, coupled with each other, at the free surface). *)
Theorem example_two_drops : exists (env0 : environment Rnum rcfg) (s s1 s2 s3 s4 s5 s6 s7 s' : rcomputer),
  ex_env = Some env0 /\ square_ground env0 /\ 0 < eNL env0 /\ 0 < eRe env0 /\ 0 < eMaxDx env0 /\ 0 < eMaxDt env0 /\
  reachable env0 s /\ cParts s = drops /\ positive_constants env0 /\
  step_prefix (ex_dt : Rnum) s s1 s2 s3 s4 s5 s6 /\ step_trace (ex_dt : Rnum) s s1 s2 s3 s4 s5 s6 s7 s' /\
  forward_dt (ex_dt : Rnum) s = Done s' /\
  (forall t, t ∈ [s1; s2; s3; s4; s5; s6] -> midstep t /\ moved_at_most ((eNL env0 - eRe env0) / 2) s t /\ no_walls_near_fluid t /\
     apart t /\ eDt (cEnv t) = ex_dt) /\
  (forall t i p, t ∈ [s1; s2; s3] -> cParts t !! i = Some p -> pX p = ((3 + INR i, 3) : rvec) /\ pU p = vzero) /\
  (forall t i p, t ∈ [s4; s5; s6] -> cParts t !! i = Some p -> pX p = ((3 + INR i, fall_z) : rvec) /\ pU p = fall_u) /\
  (forall i p, cParts s6 !! i = Some p -> fluid p /\ unknown (cEnv s6) p /\ virtual s6 i p <> None /\ surface_connected s6 i /\
     exists j, coupled s6 i j).
Proof.
  destruct ex_env_facts as (e & Hee & He). destruct (ex_new e He (1/1000000 : Rnum)) as [s0 Hs0].
  destruct (ex_completes e He _ s0 Hs0) as [s' Hf]. pose proof Hf as (s1 & s2 & s3 & s4 & s5 & s6 & s7 & HT)%forward_Done.
  assert (step_prefix (ex_dt : Rnum) (ex_state s0) s1 s2 s3 s4 s5 s6) as HPre by (destruct HT; by split).
  destruct (ex_prefix e He _ s0 Hs0 _ _ _ _ _ _ HPre) as [HM HE HB HA HN].
  exists e, (ex_state s0), s1, s2, s3, s4, s5, s6, s7, s'.
  split; [done|]. split; [by left|]. split; [rewrite (ef_nl e He); lra|]. split; [rewrite (ef_re e He); lra|].
  split; [rewrite (ef_dx e He); lra|]. split; [apply He|]. split; [by apply (ex_reachable e (1/1000000 : Rnum))|].
  split; [by apply (ex_parts e (1/1000000 : Rnum))|]. split; [split; [rewrite (ef_n0 e He); lra|done]|].
  split; [done|]. split; [done|]. split; [done|].
  assert (forall t, t ∈ [s1; s2; s3; s4; s5; s6] -> exists h u, pair_like h u t /\ Rabs (3 - h) <= 12/100) as HPL.
  { intros t Ht. assert (t ∈ [s1; s2; s3] \/ t ∈ [s4; s5; s6]) as [H|H] by (revert Ht; rewrite !elem_of_cons, elem_of_nil; tauto).
    - exists 3, vzero. split; [by apply HB|]. rewrite Rminus_diag_eq, Rabs_R0 by done. lra.
    - exists fall_z, fall_u. split; [by apply HA|unfold fall_z; rewrite Rabs_pos_eq; lra]. }
  split; [|split; [|split]].
  - intros t Ht. split; [by apply HM|]. destruct (HPL t Ht) as (h & u & HP & Hh).
    split; [by apply (pair_moved e He 3 vzero h u); [apply (ex_start e (1/1000000 : Rnum))|..]|]. split; [|split].
    + intros i j p q Hp _ _ Hq. left. by destruct (pair_at _ _ _ _ _ HP Hq) as (_ & ? & _).
    + intros i j p q Hij Hp Hq _ _ Hx. destruct (pair_at _ _ _ _ _ HP Hp) as (_ & _ & _ & Xp & _).
      destruct (pair_at _ _ _ _ _ HP Hq) as (_ & _ & _ & Xq & _). rewrite Xp, Xq in Hx. apply Hij, INR_eq.
      apply (f_equal fst) in Hx. cbn -[INR] in Hx. lra.
    + by rewrite (HE t Ht).
  - intros t i p Ht Hp. by destruct (pair_at _ _ _ _ _ (HB t Ht) Hp) as (_ & _ & ? & ? & _).
  - intros t i p Ht Hp. by destruct (pair_at _ _ _ _ _ (HA t Ht) Hp) as (_ & _ & ? & ? & _).
  - intros i p Hp. pose proof (HA s6 ltac:(do 2 right; left)) as P6. pose proof (HE s6 ltac:(do 5 right; left)) as E6.
    destruct (ex_constants e He _ s0 Hs0 s6 E6) as (D1 & D2 & _). destruct (pair_at _ _ _ _ _ P6 Hp) as (Hi & Tp & _ & _ & q & Hq & Tq & _).
    assert (unknown (cEnv s6) p) as Hu by (split; [split; congruence|by left]).
    assert (virtual s6 i p <> None) as Hv by (apply (pair_virtual fall_z fall_u s6 i p P6 D1 D2 Hp), HN, Hi).
    split; [done|]. split; [done|]. split; [done|]. split; [eapply sc_here; [done|done|by left]|].
    exists (other i). split; [rewrite D1; by apply (pair_close fall_z fall_u s6 i p)|]. unfold at_part. rewrite Hq. split; [split; congruence|by left].
Qed.

(** Property theorems: the first step of the central-gravity scene (C73). *)
From Coq Require Import ZifyBool.
From Verif Require Import S_Terms.
From Verif Require Import S_Frame S_Outcome S_Bench S_Mirror P_Real P_Lattice T_Env T_Life T_Search T_Outcome T_Rest T_Scheme T_Step T_Frame P_Bench P_Surf P_Central T_Bench S_Script T_Script S_Central.
Open Scope R_scope.

Section Env.
  Context (hs hl ecs gc ds mid : bool).
  Notation cfg := (plane false hs hl ecs gc ds true mid true).
  Context (maxDt g rho nu surf c l_0 : R) (minX maxX : vec Rnum D2) (env : environment Rnum cfg).
  Context (Henv : new_env (N := Rnum) cfg maxDt (1/10) g rho nu surf (24/10) c l_0 minX maxX = Some env) (Hl : 0 < l_0).

  Lemma central_n0 : 95/10 <= eN0 env <= 10 /\ 0 < eLambda env.
  Proof.
    destruct (C13_reference_density (cfg := cfg) _ _ _ _ _ _ _ _ _ _ _ _ _ Henv Hl lattice24) as [_ HN].
    pose proof (C13_lambda (cfg := cfg) _ _ _ _ _ _ _ _ _ _ _ _ _ Henv Hl lattice24) as HL.
    assert (14/10 <= wt (znorm [1; 0]%Z) (24/10)) as W1.
    { rewrite (znorm_two 1 0 1) by done. rewrite sqrt_1. unfold wt. destruct (Rlt_dec 0 1); [|lra]. destruct (Rlt_dec 1 (24/10)); lra. }
    assert (95/10 <= eN0 env <= 10) as HB.
    { rewrite HN. cbn [map rsum foldr].
      repeat match goal with |- context [znorm [?x; ?y]] => let n := eval vm_compute in (x * x + y * y)%Z in rewrite (znorm_two x y n) by done end.
      pose proof (sqrt_between 1 1 1 ltac:(lra) ltac:(lra) ltac:(lra)) as S1. pose proof (wt_between _ 1 1 ltac:(lra) S1 ltac:(lra)).
      pose proof (sqrt_between 2 (141/100) (142/100) ltac:(lra) ltac:(lra) ltac:(lra)) as S2. pose proof (wt_between _ (141/100) (142/100) ltac:(lra) S2 ltac:(lra)).
      pose proof (sqrt_between 4 2 2 ltac:(lra) ltac:(lra) ltac:(lra)) as S4. pose proof (wt_between _ 2 2 ltac:(lra) S4 ltac:(lra)).
      pose proof (sqrt_between 5 (223/100) (224/100) ltac:(lra) ltac:(lra) ltac:(lra)) as S5. pose proof (wt_between _ (223/100) (224/100) ltac:(lra) S5 ltac:(lra)).
      lra. }
    split; [done|]. rewrite HL. apply Rdiv_lt_0_compat; [|lra].
    cbn [map rsum foldr]. rewrite (znorm_two 1 0 1) by done. rewrite sqrt_1 in *.
    match goal with |- 0 < ?a + ?b => assert (0 < a); [|assert (0 <= b); [|lra]] end.
    - apply Rmult_lt_0_compat; [nra|]. rewrite (znorm_two 1 0 1), sqrt_1 in W1 by done. lra.
    - repeat (apply Rplus_le_le_0_compat; [apply Rmult_le_pos; [apply pow2_ge_0|apply wt_nonneg]|]). lra.
  Qed.
  Lemma central_constants : eT env = 0 /\ eL0 env = l_0 /\ eRe env = 24/10 * l_0 /\ eNL env = 288/100 * l_0 /\ eMinX env = minX /\ eMaxX env = maxX /\
    coord (eG env) 0 = 0 /\ coord (eG env) 1 = - g /\ eMaxDx env = 1/10 * l_0.
  Proof.
    destruct (C15_constants cfg _ _ _ _ _ _ _ _ _ _ _ _ Henv) as (H1 & _ & H2 & _ & _ & _ & _ & H3 & H4 & H7 & H5 & H6 & _ & HG).
    repeat split; try done.
    - rewrite H6. change (24/10 * l_0 * (1 + 1/10 * 2) = 288/100 * l_0). lra.
    - apply (HG 0%nat). cbn. lia.
    - apply (HG 1%nat). cbn. lia.
  Qed.
  Lemma central_dt : 0 < maxDt -> 0 < g -> 0 < eMaxDt env /\ g * (eMaxDt env) ^ 2 <= 2/10 * l_0.
  Proof.
    intros HD Hg. destruct (C15_gravity (cfg := cfg) _ _ _ _ _ _ _ _ _ _ _ _ Henv eq_refl Hg ltac:(lra) ltac:(lra) ltac:(lra)) as [H1 H2].
    destruct central_constants as (_ & _ & _ & _ & _ & _ & _ & _ & HX). rewrite HX in H2. split; [|lra].
    destruct (C15_limits (cfg := cfg) _ _ _ _ _ _ _ _ _ _ _ _ Henv) as (_ & _ & [->| ->] & _); [done|].
    cbn [cExplicit plane]. apply sqrt_lt_R0. apply Rdiv_lt_0_compat; [lra|done].
  Qed.
End Env.

Lemma len_plane (x : vec Rnum D2) : len x = R_sqrt.sqrt (coord x 0 ^ 2 + coord x 1 ^ 2).
Proof. unfold len, inner, sum_n. cbn [dimn seq map rsum foldr]. f_equal. ring. Qed.
Section Central.
  Context (hs hl ecs gc ds mid : bool).
  Notation cfg := (plane false hs hl ecs gc ds true mid true).
  Notation part := (particle Rnum D2).
  Context (maxDt g rho nu surf c l_0 : R) (minX maxX : vec Rnum D2) (env : environment Rnum cfg).
  Context (Henv : new_env (N := Rnum) cfg maxDt (1/10) g rho nu surf (24/10) c l_0 minX maxX = Some env).
  Context (sites : list site) (cond : M_Main.condition (N := Rnum)).
  Context (HD : 0 < maxDt) (Hg : 0 < g) (Hfine : / 10 ^ 12 <= l_0) (Hone : one_each sites) (Hsome : sites <> []).
  Context (w h : Z) (Hw : (1 <= w)%Z) (Hh : (0 <= h)%Z) (Hshape : forall t a b, holds sites t a b <-> block_shape w h t a b).
  Context (Hin : in_domain l_0 sites minX maxX) (Hsize : small_domain l_0 minX maxX).
  Notation ps := (placed (N := Rnum) l_0 sites).
  Notation wm := (fixed_walls (N := Rnum) cfg (map pX ps)).
  Notation computer := (computer cfg wm).

  Lemma Hl : 0 < l_0.
  Proof. assert (0 < / 10 ^ 12) by (apply Rinv_0_lt_compat; lra). lra. Qed.
  Lemma placed_at i t a b : sites !! i = Some (t, a, b) -> ps !! i = Some (site_particle (N := Rnum) l_0 (t, a, b)).
  Proof. intros H. unfold placed. by rewrite list_lookup_fmap, H. Qed.
  Lemma placed_inv i p : ps !! i = Some p -> exists t a b, sites !! i = Some (t, a, b) /\ p = site_particle (N := Rnum) l_0 (t, a, b).
  Proof. intros H. apply list_lookup_fmap_Some in H as ([[t a] b] & -> & H). eauto. Qed.
  Lemma placed_length : length ps = length sites.
  Proof. apply map_length. Qed.

  Lemma span_bound k : (k < 2)%nat ->
    Rabs ((coord maxX k - coord minX k) / (288/100 * l_0)) < 10 ^ 12 /\ -2 < (coord maxX k - coord minX k) / (288/100 * l_0).
  Proof.
    intros Hk. pose proof Hl as Hl. destruct sites as [|[[t a] b] l'] eqn:E; [done|].
    destruct (Hin t a b) as [H1 H2]; [by left|]. destruct Hsize as [H3 H4].
    assert (forall u : R, -(576/100) * l_0 < u <= 10 ^ 9 * l_0 -> Rabs (u / (288/100 * l_0)) < 10 ^ 12 /\ -2 < u / (288/100 * l_0)) as HA.
    { intros u [Hu1 Hu2]. assert (0 < 288/100 * l_0) as Hp by lra. split; [apply Rabs_def1|].
      - apply Rmult_lt_reg_r with (288/100 * l_0); [done|]. replace (u / (288/100 * l_0) * (288/100 * l_0)) with u by (field; lra). lra.
      - apply Rmult_lt_reg_r with (288/100 * l_0); [done|]. replace (u / (288/100 * l_0) * (288/100 * l_0)) with u by (field; lra). lra.
      - apply Rmult_lt_reg_r with (288/100 * l_0); [done|]. replace (u / (288/100 * l_0) * (288/100 * l_0)) with u by (field; lra). lra. }
    destruct k as [|[|k]]; [| |lia]; apply HA; lra.
  Qed.
  Lemma first_new : exists s : computer, initial cond env ps s.
  Proof.
    pose proof Hl as Hl. destruct (central_constants _ _ _ _ _ _ _ _ _ _ _ _ _ _ _ _ Henv) as (_ & E1 & _ & E2 & E3 & E4 & _).
    unfold initial. assert (is_Some (new_computer cfg wm (coEps cond) env tt)) as [s0 Hs0]; [|eauto].
    unfold new_computer, new_grid, ceil_div. change (cDim cfg) with D2. cbn [dimn seq mapM]. rewrite E1, E2, E3, E4.
    destruct (span_bound 0 ltac:(lia)) as [B0 C0]. destruct (span_bound 1 ltac:(lia)) as [B1 C1].
    destruct (ceil_known _ B0) as (z0 & H0 & D0). destruct (ceil_known _ B1) as (z1 & H1 & D1).
    assert (-2 < z0)%Z as Z0 by (apply lt_IZR; lra). assert (-2 < z1)%Z as Z1 by (apply lt_IZR; lra).
    assert (nceil ((288/100 * l_0 : Rnum) /. (l_0 : Rnum)) = Some 3%Z) as H2.
    { change (to_index (Zceil (288/100 * l_0 / l_0)) = Some 3%Z). replace (288/100 * l_0 / l_0) with (288/100) by (field; lra).
      rewrite (Zceil_imp 3) by (change (3 - 1)%Z with 2%Z; lra). done. }
    change (nceil ((tget D2 maxX 0 -. tget D2 minX 0) /. (288/100 * l_0 : Rnum)) = Some z0) in H0.
    change (nceil ((tget D2 maxX 1 -. tget D2 minX 1) /. (288/100 * l_0 : Rnum)) = Some z1) in H1.
    rewrite H0, H1, H2. cbn [mret option_ret mbind option_bind fmap option_fmap option_map].
    assert (forallb (Z.leb 0) [z0 + 2; z1 + 2]%Z && (0 <=? (3 + 1) ^ Z.of_nat 2)%Z = true)%bool as ->.
    { cbn [forallb]. rewrite !(proj2 (Z.leb_le _ _)) by lia. done. }
    by eexists.
  Qed.

  Context (s : computer) (Hs : initial cond env ps s).
  Lemma first_square : square_ground env.
  Proof. by left. Qed.
  Lemma first_reachable : reachable env s.
  Proof. by apply (initial_reachable cond env ps s). Qed.
  Lemma first_parts : cParts s = ps.
  Proof. by apply (initial_reachable cond env ps s). Qed.
  Lemma first_env : cEnv s = env.
  Proof.
    destruct Hs as (s0 & H0 & ->). unfold new_computer in H0. destruct (new_grid _ _ _ _ _); [|done]. by injection H0 as <-.
  Qed.
  Lemma first_enabled i (p : part) : ps !! i = Some p -> pT p <> Disabled.
  Proof.
    intros H. apply placed_inv in H as (t & a & b & H & ->). destruct Hone as [_ Hty].
    assert (holds sites t a b) as Hho by (by eapply elem_of_list_lookup_2). cbn [site_particle pT].
    destruct (Hty t a b Hho) as [->|[-> | ->]]; done.
  Qed.
  (** Nobody is outside the grid. *)
  Lemma first_inside i p k : ps !! i = Some p -> (k < 2)%nat ->
    coord minX k <= coord (pX p) k < coord maxX k + 576/100 * l_0.
  Proof.
    intros H Hk. apply placed_inv in H as (t & a & b & H & ->). destruct (Hin t a b) as [H1 H2]; [by eapply elem_of_list_lookup_2|].
    assert (coord (pX (site_particle (N := Rnum) l_0 (t, a, b))) 0 = IZR a * l_0) as E0 by done.
    assert (coord (pX (site_particle (N := Rnum) l_0 (t, a, b))) 1 = IZR b * l_0) as E1 by done.
    destruct k as [|[|k]]; [| |lia]; [rewrite E0|rewrite E1]; lra.
  Qed.
  Lemma first_locatable : locatable env s.
  Proof.
    pose proof Hl as Hl. destruct (central_constants _ _ _ _ _ _ _ _ _ _ _ _ _ _ _ _ Henv) as (_ & E1 & _ & E2 & E3 & E4 & _).
    intros i p k Hp _ Hk. rewrite first_parts in Hp. unfold block_number. rewrite E2, E3. cbn in Hk.
    apply (floor_known ((coord (pX p) k - coord minX k) / (288/100 * l_0))).
    pose proof (first_inside i p k Hp ltac:(lia)) as H1. destruct Hsize as [H3 H4].
    assert (forall u : R, 0 <= u <= (10 ^ 9 + 6) * l_0 -> Rabs (u / (288/100 * l_0)) < 10 ^ 12) as HA.
    { intros u [Hu1 Hu2]. assert (0 < 288/100 * l_0) as Hpos by lra. apply Rabs_def1; apply Rmult_lt_reg_r with (288/100 * l_0); try done;
        replace (u / (288/100 * l_0) * (288/100 * l_0)) with u by (field; lra); lra. }
    apply HA. change (cDim cfg) with D2. destruct k as [|[|k]]; [| |lia]; lra.
  Qed.
  Lemma first_not_crowded : ~ crowded env s.
  Proof.
    pose proof Hl as Hl. destruct (central_constants _ _ _ _ _ _ _ _ _ _ _ _ _ _ _ _ Henv) as (_ & E1 & _ & E2 & _).
    destruct (search_outcome env (0 : Rnum) s first_square first_reachable first_locatable) as [[_ [s1 H]]|[H _]]; [|done].
    exfalso. revert H. apply (C48_lattice_never_overflows env (0 : Rnum) s vzero l_0 first_square first_reachable); [rewrite E2; lra|rewrite E1; lra|rewrite E1; lra|].
    exists (fun i k => match sites !! i with Some (t, a, b) => match k with O => a | _ => b end | None => 0%Z end). split.
    - intros i p k Hp _ Hk. rewrite first_parts in Hp. apply placed_inv in Hp as (t & a & b & Hsi & ->). rewrite Hsi. cbn in Hk.
      destruct k as [|[|k]]; [| |lia]; [change (IZR a * l_0 = 0 + l_0 * IZR a)|change (IZR b * l_0 = 0 + l_0 * IZR b)]; lra.
    - intros i j p q Hp _ Hq _ HE. rewrite first_parts in Hp, Hq.
      apply placed_inv in Hp as (t & a & b & Hsi & _). apply placed_inv in Hq as (t' & a' & b' & Hsj & _).
      rewrite Hsi, Hsj in HE. pose proof (HE 0%nat ltac:(cbn; lia)) as Ea. pose proof (HE 1%nat ltac:(cbn; lia)) as Eb. cbn in Ea, Eb. subst a' b'.
      by eapply (same_cell sites Hone).
  Qed.

  (** ** The first half of the first step *)
  Notation dt := (eMaxDt env).
  Notation env1 := (env_of_step (dt : R) s).
  Notation wall := (walls_of_step (dt : R) s).
  Lemma first_wall i t a b : sites !! i = Some (t, a, b) -> wall i = pX (site_particle (N := Rnum) l_0 (t, a, b)).
  Proof.
    intros H. unfold walls_of_step. cbn [wPos fixed_walls]. apply nth_lookup_Some. rewrite list_lookup_fmap, (placed_at _ _ _ _ H). done.
  Qed.
  Lemma first_removal (ps0 : list part) : removal env1 ps ps0 -> ps0 = ps.
  Proof.
    pose proof Hl as Hl. destruct (central_constants _ _ _ _ _ _ _ _ _ _ _ _ _ _ _ _ Henv) as (_ & E1 & _ & E2 & E3 & E4 & _).
    intros [Hlen H]. apply list_eq. intros i. destruct (ps !! i) as [p|] eqn:Hp.
    - destruct (H i p Hp) as (p' & Hp' & _ & Hno). rewrite Hno in Hp'; [done|]. intros (k & Hk & Hout).
      change (eMinX env1) with (eMinX (cEnv s)) in Hout. change (eMaxX env1) with (eMaxX (cEnv s)) in Hout. change (eNL env1) with (eNL (cEnv s)) in Hout.
      rewrite first_env, E2, E3, E4 in Hout. change (cDim cfg) with D2 in Hout. cbn in Hk. pose proof (first_inside i p k Hp Hk) as [H1 H2].
      destruct Hout as [Hout|(n & [_ Hn] & Hout)]; [exact (Rlt_irrefl _ (Rle_lt_trans _ _ _ H1 Hout))|].
      assert (coord maxX k - coord minX k <= IZR n * (288/100 * l_0)) as Hn2.
      { apply (Rmult_le_compat_r (288/100 * l_0)) in Hn; [|lra].
        replace ((coord maxX k - coord minX k) / (288/100 * l_0) * (288/100 * l_0)) with (coord maxX k - coord minX k) in Hn by (field; lra). exact Hn. }
      assert (coord minX k + (IZR n + 2) * (288/100 * l_0) <= coord (pX p) k) as Hout2 by exact Hout. lra.
    - apply lookup_ge_None. apply lookup_ge_None in Hp. etransitivity; [|exact Hp]. exact (Nat.eq_le_incl _ _ Hlen).
  Qed.
  Notation sg := (g * dt ^ 2 / l_0).
  Lemma densities_kept (e : environment Rnum cfg) (a b : list part) i p : densities e a b -> a !! i = Some p ->
    exists p', b !! i = Some p' /\ pX p' = pX p /\ pU p' = pU p /\ pT p' = pT p.
  Proof.
    intros [_ H] Hp. destruct (H i p Hp) as (p' & Hp' & H1 & H2). exists p'. split; [done|].
    destruct (fluid_or_wall_dec (cfg := cfg) p) as [Hf|Hf]; [by rewrite H1|by rewrite H2].
  Qed.
  Lemma first_moved (ps0 ps1 ps' : list part) i t a b : removal env1 ps ps0 -> densities env1 ps0 ps1 -> movement env1 wall ps1 ps' ->
    sites !! i = Some (t, a, b) ->
    exists p', ps' !! i = Some p' /\ pT p' = t /\ coord (pX p') 0 = l_0 * (IZR a - pull sg a a b) /\ coord (pX p') 1 = l_0 * (IZR b - pull sg b a b).
  Proof.
    pose proof Hl as Hl. destruct (central_constants _ _ _ _ _ _ _ _ _ _ _ _ _ _ _ _ Henv) as (_ & EL & _ & _ & _ & _ & G0 & G1 & _).
    intros HR HDn HM Hsi. apply first_removal in HR as ->. pose proof (placed_at _ _ _ _ Hsi) as Hp.
    destruct (densities_kept _ _ _ _ _ HDn Hp) as (p1 & Hp1 & X1 & U1 & T1).
    assert (t = Newton) as ->. { assert (holds sites t a b) as HH by (by eapply elem_of_list_lookup_2). by apply Hshape in HH as [-> _]. }
    assert (forall j q, ps1 !! j = Some q -> pU q = vzero) as HU.
    { intros j q Hq. assert (j < length ps)%nat as Hj.
      { destruct HDn as [HL _]. apply lookup_lt_Some in Hq. exact (eq_ind _ (fun n => (j < n)%nat) Hq _ HL). }
      apply lookup_lt_is_Some in Hj as [q0 Hq0]. destruct (densities_kept _ _ _ _ _ HDn Hq0) as (q1 & Hq1 & _ & U & _).
      replace q1 with q in U by congruence. rewrite U. apply placed_inv in Hq0 as (t' & a' & b' & _ & ->). done. }
    destruct HM as [_ HM]. destruct (HM i p1 Hp1) as (p' & Hp' & M1 & M2). exists p'. split; [done|].
    rewrite M1 by done. clear M1 M2. cbn [pT pX].
    assert (friction env1 ps1 i p1 = vzero) as ->.
    { apply coord_ext. intros k Hk. unfold friction, nvsum. rewrite coord_vsum_n, coord_zero by done. apply sum_n_zero. intros j Hj. change (cDim cfg) with D2 in *.
      destruct (decide (near_to _ _ _ _)) as [Hn|]; [|by apply coord_zero]. destruct (ps1 !! j) as [q|] eqn:Hq; [|by apply coord_zero].
      destruct (decide _); [by apply coord_zero|]. rewrite coord_scal, coord_sub by done.
      rewrite (HU j q Hq), (HU i p1 Hp1), coord_zero by done. lra. }
    split; [done|]. change (eDt env1) with (dt : Rnum). change (cDim cfg) with D2 in *. rewrite (HU i p1 Hp1).
    rewrite X1. change (pX (site_particle (N := Rnum) l_0 (Newton, a, b))) with ((IZR a * l_0, IZR b * l_0) : vec Rnum D2).
    assert (@len D2 ((IZR a * l_0, IZR b * l_0) : vec Rnum D2) = l_0 * far a b) as HL.
    { rewrite len_plane. change (R_sqrt.sqrt ((IZR a * l_0) ^ 2 + (IZR b * l_0) ^ 2) = l_0 * far a b). unfold far. replace ((IZR a * l_0) ^ 2 + (IZR b * l_0) ^ 2) with (l_0 ^ 2 * (IZR a ^ 2 + IZR b ^ 2)) by ring.
      rewrite sqrt_mult_alt by nra. by rewrite sqrt_pow2 by lra. }
    unfold gravity_at. cbn [cCentral plane]. change (eG env1) with (eG (cEnv s)). change (eL0 env1) with (eL0 (cEnv s)). rewrite first_env, EL.
    change (cDim cfg) with D2 in *. rewrite HL.
    unfold pull. destruct (decide (a = 0%Z /\ b = 0%Z)) as [[-> ->]|Hn].
    - destruct (Rlt_dec _ _) as [_|Hc].
      + split; [change (0 * l_0 + dt * (0 + dt * (0 + 0)) = l_0 * (0 - 0))|change (0 * l_0 + dt * (0 + dt * (0 + 0)) = l_0 * (0 - 0))]; ring.
      + exfalso. apply Hc. replace (far 0 0) with 0; [lra|]. unfold far. replace (0 ^ 2 + 0 ^ 2) with 0 by ring. by rewrite sqrt_0.
    - destruct (far_pos a b Hn) as [HF _]. destruct (Rlt_dec _ _) as [Hc|_]; [exfalso; nra|].
      assert (forall (v0 v1 gg x : R), v0 = 0 -> v1 = 0 -> gg = - g -> x * l_0 + dt * (v0 + dt * (v1 + gg / (l_0 * far a b) * (x * l_0))) = l_0 * (x - sg * x / far a b)) as HE.
      { intros v0 v1 gg x -> -> ->. field. lra. }
      split; (refine (eq_trans _ (HE 0 0 (coord (eG env) 1) _ eq_refl eq_refl G1)); rewrite !coord_add, !coord_scal, !coord_add, !coord_scal, !coord_add, !coord_scal, !coord_zero by (cbn; lia); reflexivity).
  Qed.
  Lemma sg_bound : 0 <= sg <= 2/10.
  Proof.
    pose proof Hl as Hl. destruct (central_dt _ _ _ _ _ _ _ _ _ _ _ _ _ _ _ _ Henv Hl HD Hg) as [H1 H2]. split.
    - unfold Rdiv. apply Rmult_le_pos; [|left; by apply Rinv_0_lt_compat]. apply Rmult_le_pos; [lra|apply pow2_ge_0].
    - apply Rmult_le_reg_r with l_0; [done|]. replace (g * dt ^ 2 / l_0 * l_0) with (g * dt ^ 2) by (field; lra). lra.
  Qed.
  Lemma first_displaced (ps0 ps1 ps' : list part) : removal env1 ps ps0 -> densities env1 ps0 ps1 -> movement env1 wall ps1 ps' ->
    displaced_at_most (cfg := cfg) ((eNL env - eRe env) / 2) ps ps'.
  Proof.
    pose proof Hl as Hl. destruct (central_constants _ _ _ _ _ _ _ _ _ _ _ _ _ _ _ _ Henv) as (_ & _ & E2 & E3 & _). pose proof sg_bound as Hb.
    intros HR HDn HM i p p' Hp Hp' _. apply placed_inv in Hp as (t & a & b & Hsi & ->).
    destruct (first_moved _ _ _ _ _ _ _ HR HDn HM Hsi) as (q & Hq & _ & C0 & C1).
    assert (p' = q) as -> by exact (Some_inj _ _ (eq_trans (eq_sym Hp') Hq)). rewrite E2, E3.
    assert (@edist D2 (pX (site_particle (N := Rnum) l_0 (t, a, b))) (pX q) = R_sqrt.sqrt (l_0 ^ 2 * (pull sg a a b ^ 2 + pull sg b a b ^ 2))) as HE.
    { rewrite edist_plane, C0, C1.
      change (coord (pX (site_particle (N := Rnum) l_0 (t, a, b))) 0) with (IZR a * l_0).
      change (coord (pX (site_particle (N := Rnum) l_0 (t, a, b))) 1) with (IZR b * l_0). f_equal. ring. }
    eapply Rle_trans; [right; exact HE|]. pose proof (pull_size sg Hb a b) as HP.
    apply Rle_trans with (R_sqrt.sqrt ((2/10 * l_0) ^ 2)); [apply sqrt_le_1_alt; rewrite Rpow_mult_distr; nra|]. rewrite sqrt_pow2 by lra. lra.
  Qed.
  Lemma first_drawn (ps1 ps2 : list part) : first_half env1 wall ps ps1 ps2 -> drawn l_0 sg sites ps2.
  Proof.
    intros (ps0 & ps' & HR & HDn & HM & HD2). split.
    - destruct HR as [L0 _], HDn as [L1 _], HM as [L2 _], HD2 as [L3 _].
      exact (eq_trans L3 (eq_trans L2 (eq_trans L1 (eq_trans L0 placed_length)))).
    - intros i t a b Hsi. destruct (first_moved _ _ _ _ _ _ _ HR HDn HM Hsi) as (q & Hq & T & C0 & C1).
      destruct (densities_kept _ _ _ _ _ HD2 Hq) as (p & Hp & X & _ & T'). exists p. split; [done|]. rewrite T', X. done.
  Qed.
  Lemma first_dt : determine_dt s = Some dt.
  Proof.
    apply (C16_at_rest env s first_square first_reachable).
    - rewrite first_parts. unfold placed. destruct sites; [done|]. done.
    - intros p Hp. rewrite first_parts in Hp. apply elem_of_list_lookup in Hp as [i Hp]. apply placed_inv in Hp as (t & a & b & _ & ->). done.
  Qed.
  Lemma first_done : exists s', forward_dt (dt : Rnum) s = Done s'.
  Proof.
    pose proof Hl as Hl. destruct (central_constants _ _ _ _ _ _ _ _ _ _ _ _ _ _ _ _ Henv) as (_ & _ & E2 & E3 & _).
    destruct (central_n0 _ _ _ _ _ _ _ _ _ _ _ _ _ _ _ _ Henv Hl) as [HN HLm].
    apply (C33_step env dt s first_square).
    - rewrite E2. lra.
    - rewrite E2, E3. lra.
    - apply first_reachable.
    - apply first_locatable.
    - apply first_not_crowded.
    - lra.
    - done.
    - rewrite first_parts. apply first_displaced.
    - rewrite first_parts. intros ps1 ps2 FH. pose proof (first_drawn ps1 ps2 FH) as Hset.
      assert (eRe env1 = 24/10 * l_0) as HRe by (change (eRe env1) with (eRe (cEnv s)); by rewrite first_env).
      assert (95/10 <= eN0 env1 <= 10) as HN1 by (change (eN0 env1) with (eN0 (cEnv s)); by rewrite first_env).
      split.
      + eapply (drawn_apart hs hl ecs gc ds mid l_0 sg sites ps2); try done; apply sg_bound.
      + eapply (drawn_reaches hs hl ecs gc ds mid env1 l_0 sg sites ps2); try done; apply sg_bound.
  Qed.
  Lemma first_result : exists s', forward s = Done s' /\ eT (cEnv s') = dt /\
    Forall2 (fun p p' : part => pT p' = pT p) ps (cParts s').
  Proof.
    pose proof Hl as Hl. destruct (central_constants _ _ _ _ _ _ _ _ _ _ _ _ _ _ _ _ Henv) as (T0 & _ & E2 & E3 & E4 & E5 & _).
    destruct first_done as [s' H]. exists s'. split; [unfold forward; by rewrite first_dt|].
    split.
    { destruct (forward_frame (dt : Rnum) s s') as (HE & _); [by rewrite H|]. rewrite HE, first_env. change (eT env + dt = dt). rewrite T0. lra. }
    assert (length ps = length (cParts s')) as HL.
    { destruct (forward_frame (dt : Rnum) s s') as (_ & HF); [by rewrite H|]. apply Forall2_length in HF. rewrite !fmap_length in HF. by rewrite first_parts in HF. }
    apply Forall2_same_length_lookup_2; [exact HL|].
    intros i p p' Hp Hp'. pose proof Hp as Hp0. rewrite <- first_parts in Hp0.
    destruct (C07_step env (dt : Rnum) s s' i p p' first_square ltac:(rewrite E3; lra) first_reachable H Hp0 Hp') as [HT1 HT2].
    { destruct HT1 as [?|HX]; [done|]. exfalso. apply HT2 in HX as [HX|(k & Hk & HX)]; [by apply (first_enabled i p Hp)|].
      cbn in Hk. pose proof (first_inside i p k Hp Hk) as [H1 H2]. unfold outside_axis in HX. rewrite E3, E4, E5 in HX.
      destruct HX as [HX|HX]; [exact (Rlt_irrefl _ (Rle_lt_trans _ _ _ H1 HX))|].
      assert (coord minX k + (IZR (Zceil ((coord maxX k - coord minX k) / (288/100 * l_0))) + 2) * (288/100 * l_0) <= coord (pX p) k) as HX2 by exact HX.
      pose proof (Zceil_ub ((coord maxX k - coord minX k) / (288/100 * l_0))) as Hn. set (n := IZR (Zceil _)) in *.
      apply (Rmult_le_compat_r (288/100 * l_0)) in Hn; [|lra].
      replace ((coord maxX k - coord minX k) / (288/100 * l_0) * (288/100 * l_0)) with (coord maxX k - coord minX k) in Hn by (field; lra). lra. }
  Qed.
End Central.
(** The central-gravity scene: the first step succeeds. *)
Theorem C73_central_runs hs hl ecs gc ds mid (maxDt g rho nu surf c l_0 : R) w h areaSize env cond :
  let sc := central_gravity (N := Rnum) l_0 w h areaSize in
  new_env (N := Rnum) (plane false hs hl ecs gc ds true mid true) maxDt (1/10) g rho nu surf (24/10) c l_0 (scMin sc) (scMax sc) = Some env ->
  0 < maxDt -> 0 < g -> / 10 ^ 12 <= l_0 -> (1 <= w)%Z -> (0 <= h)%Z -> (1 <= areaSize)%Z -> (areaSize * w <= 5 * 10 ^ 8)%Z -> (areaSize * h <= 5 * 10 ^ 8)%Z ->
  one_step_succeeds cond env (scParts sc).
Proof.
  intros sc Henv HD Hg Hf Hw Hh HA HAw HAh. assert (0 < l_0) as Hl by (assert (0 < / 10 ^ 12) by (apply Rinv_0_lt_compat; lra); lra).
  destruct (C73_central (N := Rnum) l_0 w h areaSize) as (sites & HF & Hone & Hsh). apply stands_placed in HF. fold sc in HF.
  assert (sites <> []) as Hne. { assert (holds sites Newton 0 0) as H by (apply Hsh; split; [done|lia]). intros ->. by apply elem_of_nil in H. }
  assert (forall k n, (0 <= n <= 5 * 10 ^ 8)%Z -> (k <= n)%Z -> (- n <= k)%Z -> - (IZR n * l_0) <= IZR k * l_0 <= IZR n * l_0 /\ 0 <= IZR n * l_0 <= 5 * 10 ^ 8 * l_0) as HB.
  { intros k n [H0%IZR_le H1%IZR_le] H2%IZR_le H3%IZR_le. rewrite opp_IZR in H3. change (IZR (5 * 10 ^ 8)) with 500000000 in H1. nra. }
  assert (coord (scMin sc) 0 = - (IZR (areaSize * w) * l_0) /\ coord (scMin sc) 1 = - (IZR (areaSize * h) * l_0) /\
          coord (scMax sc) 0 = IZR (areaSize * w) * l_0 /\ coord (scMax sc) 1 = IZR (areaSize * h) * l_0) as (M0 & M1 & M2 & M3).
  { rewrite !mult_IZR. repeat split.
    - change (IZR (- areaSize) * l_0 * IZR w = - (IZR areaSize * IZR w * l_0)). rewrite opp_IZR. ring.
    - change (IZR (- areaSize) * l_0 * IZR h = - (IZR areaSize * IZR h * l_0)). rewrite opp_IZR. ring.
    - change (IZR areaSize * l_0 * IZR w = IZR areaSize * IZR w * l_0). ring.
    - change (IZR areaSize * l_0 * IZR h = IZR areaSize * IZR h * l_0). ring. }
  assert (in_domain l_0 sites (scMin sc) (scMax sc)) as Hin.
  { intros t a b (_ & Ha & Hb)%Hsh. rewrite M0, M1, M2, M3.
    destruct (HB a (areaSize * w)%Z ltac:(nia) ltac:(nia) ltac:(nia)) as [H1 _]. destruct (HB b (areaSize * h)%Z ltac:(nia) ltac:(nia) ltac:(nia)) as [H2 _]. lra. }
  assert (small_domain l_0 (scMin sc) (scMax sc)) as Hsz.
  { unfold small_domain. rewrite M0, M1, M2, M3.
    destruct (HB 0%Z (areaSize * w)%Z ltac:(nia) ltac:(nia) ltac:(nia)) as [_ H1]. destruct (HB 0%Z (areaSize * h)%Z ltac:(nia) ltac:(nia) ltac:(nia)) as [_ H2]. lra. }
  rewrite HF.
  assert (exists s, initial (cfg := plane false hs hl ecs gc ds true mid true) cond env (placed (N := Rnum) l_0 sites) s) as [s Hi] by (by eapply (first_new hs hl ecs gc ds mid maxDt g rho nu surf c l_0)).
 
  destruct (first_result hs hl ecs gc ds mid maxDt g rho nu surf c l_0 _ _ env Henv sites cond HD Hg Hf Hone Hne w h Hw Hh Hsh Hin Hsz s Hi) as (s' & H1 & H2 & H3).
  exists s, s'. done.
Qed.
(** The file of CentralGravity/generate.py is loaded, and the first step succeeds. *)
Theorem C74_central_run hs hl ecs gc ds mid (py_str : Rnum -> text) (parse_num parse_attr : text -> option Rnum) pad (st : settings Rnum) w h areaSize :
  let sc := central_gravity (stL0 st) w h areaSize in
  script_settings st -> read_as_written py_str parse_num parse_attr st sc ->
  (1 <= w)%Z -> (0 <= h)%Z -> (1 <= areaSize)%Z -> (areaSize * w <= 5 * 10 ^ 8)%Z -> (areaSize * h <= 5 * 10 ^ 8)%Z ->
  loads_and_goes (plane false hs hl ecs gc ds true mid true) parse_num parse_attr (script_tree py_str pad st sc) (scParts sc).
Proof.
  intros sc Hst (HA & HC & H0) Hw Hh Ha Haw Hah. pose proof Hst as [(Ec & Er & HI & Hg & Hl) HS].
  destruct (C74_loads (N := Rnum) py_str parse_num parse_attr hs hl ecs gc ds true mid true pad st sc (stL0 st) (block_shape w h) HA HC H0 ltac:(apply C73_central)) as (env & Henv & HLd); [|lia|].
  { rewrite Er. exists 3%Z. split; [|lia]. cbn. unfold to_index. replace (Zceil (24 / 10)) with 3%Z; [done|]. symmetry. apply Zceil_imp. change (2 < 24 / 10 <= 3)%R. split; lra. }
  eexists _, env. split; [exact HLd|]. rewrite Ec, Er in Henv.
  eapply C73_central_runs; [exact Henv| |done|done|done|done|done|done|done].
  apply Rdiv_lt_0_compat; [done|]. apply IZR_lt. lia.
Qed.

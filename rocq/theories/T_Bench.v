(** Property theorems: the benchmark scenes (C73). *)
From Coq Require Import ZifyBool.
From Verif Require Import S_Terms.
From Verif Require Import S_Frame S_Outcome S_Bench P_Real P_Lattice T_Env T_Life T_Search T_Outcome T_Rest T_Scheme T_Step T_Frame P_Bench P_Surf.
Open Scope R_scope.

(** ** The reference density for r_e = 2.4 l_0 *)
Lemma lattice24 : lattice_within D2 (24/10)
  [[1; 0]; [-1; 0]; [0; 1]; [0; -1]; [1; 1]; [1; -1]; [-1; 1]; [-1; -1]; [2; 0]; [-2; 0]; [0; 2]; [0; -2];
   [2; 1]; [2; -1]; [-2; 1]; [-2; -1]; [1; 2]; [1; -2]; [-1; 2]; [-1; -2]]%Z.
Proof.
  split.
  - repeat (apply list.NoDup_cons; split; [rewrite ?elem_of_cons, ?elem_of_nil; intros H; destruct_or?; discriminate|]). by apply list.NoDup_nil.
  - intros z Hz. repeat (apply elem_of_cons in Hz as [->|Hz]; [done|]). by apply elem_of_nil in Hz.
  - intros z Hl Hnz Hlt. destruct z as [|x [|y [|]]]; try done. unfold znorm in *. cbn [map rsum foldr] in *.
    rewrite Rplus_0_r, <- !mult_IZR, <- plus_IZR in Hlt.
    assert (x * x + y * y <= 5)%Z as Hlt2.
    { assert (x * x + y * y < 6)%Z; [|lia]. apply lt_IZR. apply Rnot_le_lt. intros H.
      assert (R_sqrt.sqrt ((24/10) ^ 2) <= R_sqrt.sqrt (IZR (x * x + y * y))) as H2 by (apply sqrt_le_1_alt; lra).
      rewrite sqrt_pow2 in H2 by lra. lra. }
    assert (x * x + y * y <> 0)%Z as Hnz2.
    { intros E. apply Hnz. rewrite Rplus_0_r, <- !mult_IZR, <- plus_IZR, E. apply sqrt_0. }
    assert (-2 <= x <= 2)%Z as Hx by nia. assert (-2 <= y <= 2)%Z as Hy by nia.
    assert (x = -2 \/ x = -1 \/ x = 0 \/ x = 1 \/ x = 2)%Z as [->|[->|[->|[->| ->]]]] by lia;
      assert (y = -2 \/ y = -1 \/ y = 0 \/ y = 1 \/ y = 2)%Z as [->|[->|[->|[->| ->]]]] by lia;
      try (exfalso; lia); rewrite !elem_of_cons; tauto.
Qed.
Lemma znorm_two (x y n : Z) : (x * x + y * y = n)%Z -> znorm [x; y] = R_sqrt.sqrt (IZR n).
Proof. intros <-. unfold znorm. cbn [map rsum foldr]. by rewrite Rplus_0_r, <- !mult_IZR, <- plus_IZR. Qed.
Lemma wt_between (r lo hi : R) : 0 < lo -> lo <= r <= hi -> hi < 24/10 -> 24/10 / hi - 1 <= wt r (24/10) <= 24/10 / lo - 1.
Proof.
  intros H1 [H2 H3] H4. unfold wt. destruct (Rlt_dec 0 r); [|lra]. destruct (Rlt_dec r (24/10)); [|lra].
  assert (/ hi <= / r <= / lo) by (split; apply Rinv_le_contravar; lra). lra.
Qed.
Lemma sqrt_between (q lo hi : R) : 0 <= lo -> 0 <= hi -> lo ^ 2 <= q <= hi ^ 2 -> lo <= R_sqrt.sqrt q <= hi.
Proof. intros H0 H1 [H2 H3]. split; [rewrite <- (sqrt_pow2 lo)|rewrite <- (sqrt_pow2 hi)]; try done; by apply sqrt_le_1_alt. Qed.

Section Env.
  Context (hs hl ecs gc ds mid : bool).
  Notation cfg := (bench_config hs hl ecs gc ds mid).
  Context (maxDt g rho nu surf c l_0 : R) (minX maxX : vec Rnum D2) (env : environment Rnum cfg).
  Context (Henv : bench_env hs hl ecs gc ds mid maxDt g rho nu surf c l_0 minX maxX = Some env) (Hl : 0 < l_0).

  Lemma bench_n0 : 8 <= eN0 env <= 10 /\ 0 < eLambda env.
  Proof.
    destruct (C13_reference_density (cfg := cfg) _ _ _ _ _ _ _ _ _ _ _ _ _ Henv Hl lattice24) as [_ HN].
    pose proof (C13_lambda (cfg := cfg) _ _ _ _ _ _ _ _ _ _ _ _ _ Henv Hl lattice24) as HL.
    assert (14/10 <= wt (znorm [1; 0]%Z) (24/10)) as W1.
    { rewrite (znorm_two 1 0 1) by done. rewrite sqrt_1. unfold wt. destruct (Rlt_dec 0 1); [|lra]. destruct (Rlt_dec 1 (24/10)); lra. }
    assert (8 <= eN0 env <= 10) as HB.
    { rewrite HN. cbn [map rsum foldr].
      repeat match goal with |- context [znorm [?x; ?y]] => let n := eval vm_compute in (x * x + y * y)%Z in rewrite (znorm_two x y n) by done end.
      pose proof (sqrt_between 1 1 1 ltac:(lra) ltac:(lra) ltac:(lra)) as S1. pose proof (wt_between _ 1 1 ltac:(lra) S1 ltac:(lra)).
      pose proof (sqrt_between 2 (141/100) (142/100) ltac:(lra) ltac:(lra) ltac:(lra)) as S2. pose proof (wt_between _ (141/100) (142/100) ltac:(lra) S2 ltac:(lra)).
      pose proof (sqrt_between 4 2 2 ltac:(lra) ltac:(lra) ltac:(lra)) as S4. pose proof (wt_between _ 2 2 ltac:(lra) S4 ltac:(lra)).
      pose proof (sqrt_between 5 (223/100) (224/100) ltac:(lra) ltac:(lra) ltac:(lra)) as S5. pose proof (wt_between _ (223/100) (224/100) ltac:(lra) S5 ltac:(lra)).
      lra. }
    split; [done|]. rewrite HL. apply Rdiv_lt_0_compat; [|lra].
    cbn [map rsum foldr]. rewrite (znorm_two 1 0 1) by done. rewrite sqrt_1 in *.
    match goal with |- 0 < ?a + ?b => assert (0 < a); [|assert (0 <= b); [|lra]] end.
    - apply Rmult_lt_0_compat; [nra|]. rewrite (znorm_two 1 0 1), sqrt_1 in W1 by done. lra.
    - repeat (apply Rplus_le_le_0_compat; [apply Rmult_le_pos; [apply pow2_ge_0|apply wt_nonneg]|]). lra.
  Qed.
  Lemma bench_constants : eT env = 0 /\ eL0 env = l_0 /\ eRe env = 24/10 * l_0 /\ eNL env = 288/100 * l_0 /\ eMinX env = minX /\ eMaxX env = maxX /\
    coord (eG env) 0 = 0 /\ coord (eG env) 1 = - g /\ eMaxDx env = 1/10 * l_0.
  Proof.
    destruct (C15_constants cfg _ _ _ _ _ _ _ _ _ _ _ _ Henv) as (H1 & _ & H2 & _ & _ & _ & _ & H3 & H4 & H7 & H5 & H6 & _ & HG).
    repeat split; try done.
    - rewrite H6. change (24/10 * l_0 * (1 + 1/10 * 2) = 288/100 * l_0). lra.
    - apply (HG 0%nat). cbn. lia.
    - apply (HG 1%nat). cbn. lia.
  Qed.
  Lemma bench_dt : 0 < maxDt -> 0 < g -> 0 < eMaxDt env /\ g * (eMaxDt env) ^ 2 <= 2/10 * l_0.
  Proof.
    intros HD Hg. destruct (C15_gravity (cfg := cfg) _ _ _ _ _ _ _ _ _ _ _ _ Henv eq_refl Hg ltac:(lra) ltac:(lra) ltac:(lra)) as [H1 H2].
    destruct bench_constants as (_ & _ & _ & _ & _ & _ & _ & _ & HX). rewrite HX in H2. split; [|lra].
    destruct (C15_limits (cfg := cfg) _ _ _ _ _ _ _ _ _ _ _ _ Henv) as (_ & _ & [->| ->] & _); [done|].
    cbn [cExplicit bench_config]. apply sqrt_lt_R0. apply Rdiv_lt_0_compat; [lra|done].
  Qed.
End Env.

Lemma index_defined (z : Z) : (Z.abs z < 2 ^ 62)%Z -> to_index z = Some z.
Proof. intros Hz. unfold to_index. rewrite (proj2 (Z.leb_le _ _)) by lia. by rewrite (proj2 (Z.ltb_lt _ _)) by lia. Qed.
Lemma floor_known (x : R) : Rabs x < 10 ^ 12 -> exists z, nfloor (x : Rnum) = Some z.
Proof.
  intros H. apply Rabs_def2 in H as [H1 H2]. exists (Zfloor x). pose proof (Zfloor_lb x). pose proof (Zfloor_ub x). cbn.
  apply index_defined. assert (- (10 ^ 12 + 2) < Zfloor x < 10 ^ 12 + 2)%Z; [|lia]. split; apply lt_IZR; [change (- (10 ^ 12 + 2))%Z with (-1000000000002)%Z|change (10 ^ 12 + 2)%Z with 1000000000002%Z]; lra.
Qed.
Lemma ceil_known (x : R) : Rabs x < 10 ^ 12 -> exists z, nceil (x : Rnum) = Some z /\ x <= IZR z.
Proof.
  intros H. apply Rabs_def2 in H as [H1 H2]. exists (Zceil x). pose proof (Zceil_ub x). pose proof (Zceil_lb x). split; [|done]. cbn.
  apply index_defined. assert (- (10 ^ 12 + 2) < Zceil x < 10 ^ 12 + 2)%Z; [|lia]. split; apply lt_IZR; [change (- (10 ^ 12 + 2))%Z with (-1000000000002)%Z|change (10 ^ 12 + 2)%Z with 1000000000002%Z]; lra.
Qed.

Section First.
  Context (hs hl ecs gc ds mid : bool).
  Notation cfg := (bench_config hs hl ecs gc ds mid).
  Notation part := (particle Rnum D2).
  Context (maxDt g rho nu surf c l_0 : R) (minX maxX : vec Rnum D2) (env : environment Rnum cfg).
  Context (Henv : bench_env hs hl ecs gc ds mid maxDt g rho nu surf c l_0 minX maxX = Some env).
  Context (sites : list site) (cond : M_Main.condition (N := Rnum)).
  Context (HD : 0 < maxDt) (Hg : 0 < g) (Hfine : / 10 ^ 12 <= l_0) (Htank : tank sites) (Hsome : sites <> []).
  Context (Hin : in_domain l_0 sites minX maxX) (Hsize : small_domain l_0 minX maxX).
  Notation ps := (placed (N := Rnum) l_0 sites).
  Notation wm := (fixed_walls (N := Rnum) cfg (map pX ps)).
  Notation computer := (computer cfg wm).

  Lemma Hl : 0 < l_0.
  Proof. assert (0 < / 10 ^ 12) by (apply Rinv_0_lt_compat; lra). lra. Qed.
  Lemma placed_at i t a b : sites !! i = Some (t, a, b) -> ps !! i = Some (site_particle (N := Rnum) l_0 (t, a, b)).
  Proof. intros H. unfold placed. by rewrite list_lookup_fmap, H. Qed.
  Lemma placed_inv i p : ps !! i = Some p -> exists t a b, sites !! i = Some (t, a, b) /\ p = site_particle (N := Rnum) l_0 (t, a, b).
  Proof. intros H. apply list_lookup_fmap_Some in H as ([[t a] b] & -> & H). eauto. Qed.
  Lemma placed_length : length ps = length sites.
  Proof. apply map_length. Qed.

  Lemma span_bound k : (k < 2)%nat ->
    Rabs ((coord maxX k - coord minX k) / (288/100 * l_0)) < 10 ^ 12 /\ -2 < (coord maxX k - coord minX k) / (288/100 * l_0).
  Proof.
    intros Hk. pose proof Hl as Hl. destruct sites as [|[[t a] b] l'] eqn:E; [done|].
    destruct (Hin t a b) as [H1 H2]; [by left|]. destruct Hsize as [H3 H4].
    assert (forall u : R, -(576/100) * l_0 < u <= 10 ^ 9 * l_0 -> Rabs (u / (288/100 * l_0)) < 10 ^ 12 /\ -2 < u / (288/100 * l_0)) as HA.
    { intros u [Hu1 Hu2]. assert (0 < 288/100 * l_0) as Hp by lra. split; [apply Rabs_def1|].
      - apply Rmult_lt_reg_r with (288/100 * l_0); [done|]. replace (u / (288/100 * l_0) * (288/100 * l_0)) with u by (field; lra). lra.
      - apply Rmult_lt_reg_r with (288/100 * l_0); [done|]. replace (u / (288/100 * l_0) * (288/100 * l_0)) with u by (field; lra). lra.
      - apply Rmult_lt_reg_r with (288/100 * l_0); [done|]. replace (u / (288/100 * l_0) * (288/100 * l_0)) with u by (field; lra). lra. }
    destruct k as [|[|k]]; [| |lia]; apply HA; lra.
  Qed.
  Lemma first_new : exists s : computer, initial cond env ps s.
  Proof.
    pose proof Hl as Hl. destruct (bench_constants _ _ _ _ _ _ _ _ _ _ _ _ _ _ _ _ Henv) as (_ & E1 & _ & E2 & E3 & E4 & _).
    unfold initial. assert (is_Some (new_computer cfg wm (coEps cond) env tt)) as [s0 Hs0]; [|eauto].
    unfold new_computer, new_grid, ceil_div. change (cDim cfg) with D2. cbn [dimn seq mapM]. rewrite E1, E2, E3, E4.
    destruct (span_bound 0 ltac:(lia)) as [B0 C0]. destruct (span_bound 1 ltac:(lia)) as [B1 C1].
    destruct (ceil_known _ B0) as (z0 & H0 & D0). destruct (ceil_known _ B1) as (z1 & H1 & D1).
    assert (-2 < z0)%Z as Z0 by (apply lt_IZR; lra). assert (-2 < z1)%Z as Z1 by (apply lt_IZR; lra).
    assert (nceil ((288/100 * l_0 : Rnum) /. (l_0 : Rnum)) = Some 3%Z) as H2.
    { change (to_index (Zceil (288/100 * l_0 / l_0)) = Some 3%Z). replace (288/100 * l_0 / l_0) with (288/100) by (field; lra).
      rewrite (Zceil_imp 3) by (change (3 - 1)%Z with 2%Z; lra). done. }
    change (nceil ((tget D2 maxX 0 -. tget D2 minX 0) /. (288/100 * l_0 : Rnum)) = Some z0) in H0.
    change (nceil ((tget D2 maxX 1 -. tget D2 minX 1) /. (288/100 * l_0 : Rnum)) = Some z1) in H1.
    rewrite H0, H1, H2. cbn [mret option_ret mbind option_bind fmap option_fmap option_map].
    assert (forallb (Z.leb 0) [z0 + 2; z1 + 2]%Z && (0 <=? (3 + 1) ^ Z.of_nat 2)%Z = true)%bool as ->.
    { cbn [forallb]. rewrite !(proj2 (Z.leb_le _ _)) by lia. done. }
    by eexists.
  Qed.

  Context (s : computer) (Hs : initial cond env ps s).
  Lemma first_square : square_ground env.
  Proof. by left. Qed.
  Lemma first_reachable : reachable env s.
  Proof. by apply (initial_reachable cond env ps s). Qed.
  Lemma first_parts : cParts s = ps.
  Proof. by apply (initial_reachable cond env ps s). Qed.
  Lemma first_env : cEnv s = env.
  Proof.
    destruct Hs as (s0 & H0 & ->). unfold new_computer in H0. destruct (new_grid _ _ _ _ _); [|done]. by injection H0 as <-.
  Qed.
  Lemma first_enabled i (p : part) : ps !! i = Some p -> pT p <> Disabled.
  Proof.
    intros H. apply placed_inv in H as (t & a & b & H & ->). destruct Htank as [[_ Hty] _].
    assert (holds sites t a b) as Hh by (by eapply elem_of_list_lookup_2). cbn [site_particle pT].
    destruct (Hty t a b Hh) as [->|[-> | ->]]; done.
  Qed.
  (** Nobody is outside the grid. *)
  Lemma first_inside i p k : ps !! i = Some p -> (k < 2)%nat ->
    coord minX k <= coord (pX p) k < coord maxX k + 576/100 * l_0.
  Proof.
    intros H Hk. apply placed_inv in H as (t & a & b & H & ->). destruct (Hin t a b) as [H1 H2]; [by eapply elem_of_list_lookup_2|].
    assert (coord (pX (site_particle (N := Rnum) l_0 (t, a, b))) 0 = IZR a * l_0) as E0 by done.
    assert (coord (pX (site_particle (N := Rnum) l_0 (t, a, b))) 1 = IZR b * l_0) as E1 by done.
    destruct k as [|[|k]]; [| |lia]; [rewrite E0|rewrite E1]; lra.
  Qed.
  Lemma first_locatable : locatable env s.
  Proof.
    pose proof Hl as Hl. destruct (bench_constants _ _ _ _ _ _ _ _ _ _ _ _ _ _ _ _ Henv) as (_ & E1 & _ & E2 & E3 & E4 & _).
    intros i p k Hp _ Hk. rewrite first_parts in Hp. unfold block_number. rewrite E2, E3. cbn in Hk.
    apply (floor_known ((coord (pX p) k - coord minX k) / (288/100 * l_0))).
    pose proof (first_inside i p k Hp ltac:(lia)) as H1. destruct Hsize as [H3 H4].
    assert (forall u : R, 0 <= u <= (10 ^ 9 + 6) * l_0 -> Rabs (u / (288/100 * l_0)) < 10 ^ 12) as HA.
    { intros u [Hu1 Hu2]. assert (0 < 288/100 * l_0) as Hpos by lra. apply Rabs_def1; apply Rmult_lt_reg_r with (288/100 * l_0); try done;
        replace (u / (288/100 * l_0) * (288/100 * l_0)) with u by (field; lra); lra. }
    apply HA. change (cDim cfg) with D2. destruct k as [|[|k]]; [| |lia]; lra.
  Qed.
  Lemma first_not_crowded : ~ crowded env s.
  Proof.
    pose proof Hl as Hl. destruct (bench_constants _ _ _ _ _ _ _ _ _ _ _ _ _ _ _ _ Henv) as (_ & E1 & _ & E2 & _).
    destruct (search_outcome env (0 : Rnum) s first_square first_reachable first_locatable) as [[_ [s1 H]]|[H _]]; [|done].
    exfalso. revert H. apply (C48_lattice_never_overflows env (0 : Rnum) s vzero l_0 first_square first_reachable); [rewrite E2; lra|rewrite E1; lra|rewrite E1; lra|].
    exists (fun i k => match sites !! i with Some (t, a, b) => match k with O => a | _ => b end | None => 0%Z end). split.
    - intros i p k Hp _ Hk. rewrite first_parts in Hp. apply placed_inv in Hp as (t & a & b & Hsi & ->). rewrite Hsi. cbn in Hk.
      destruct k as [|[|k]]; [| |lia]; [change (IZR a * l_0 = 0 + l_0 * IZR a)|change (IZR b * l_0 = 0 + l_0 * IZR b)]; lra.
    - intros i j p q Hp _ Hq _ HE. rewrite first_parts in Hp, Hq.
      apply placed_inv in Hp as (t & a & b & Hsi & _). apply placed_inv in Hq as (t' & a' & b' & Hsj & _).
      rewrite Hsi, Hsj in HE. pose proof (HE 0%nat ltac:(cbn; lia)) as Ea. pose proof (HE 1%nat ltac:(cbn; lia)) as Eb. cbn in Ea, Eb. subst a' b'.
      destruct Htank as [Hone _]. by eapply (same_cell sites Hone).
  Qed.

  (** ** The first half of the first step *)
  Notation dt := (eMaxDt env).
  Notation env1 := (env_of_step (dt : R) s).
  Notation wall := (walls_of_step (dt : R) s).
  Lemma first_wall i t a b : sites !! i = Some (t, a, b) -> wall i = pX (site_particle (N := Rnum) l_0 (t, a, b)).
  Proof.
    intros H. unfold walls_of_step. cbn [wPos fixed_walls]. apply nth_lookup_Some. rewrite list_lookup_fmap, (placed_at _ _ _ _ H). done.
  Qed.
  Lemma first_removal (ps0 : list part) : removal env1 ps ps0 -> ps0 = ps.
  Proof.
    pose proof Hl as Hl. destruct (bench_constants _ _ _ _ _ _ _ _ _ _ _ _ _ _ _ _ Henv) as (_ & E1 & _ & E2 & E3 & E4 & _).
    intros [Hlen H]. apply list_eq. intros i. destruct (ps !! i) as [p|] eqn:Hp.
    - destruct (H i p Hp) as (p' & Hp' & _ & Hno). rewrite Hno in Hp'; [done|]. intros (k & Hk & Hout).
      change (eMinX env1) with (eMinX (cEnv s)) in Hout. change (eMaxX env1) with (eMaxX (cEnv s)) in Hout. change (eNL env1) with (eNL (cEnv s)) in Hout.
      rewrite first_env, E2, E3, E4 in Hout. change (cDim cfg) with D2 in Hout. cbn in Hk. pose proof (first_inside i p k Hp Hk) as [H1 H2].
      destruct Hout as [Hout|(n & [_ Hn] & Hout)]; [exact (Rlt_irrefl _ (Rle_lt_trans _ _ _ H1 Hout))|].
      assert (coord maxX k - coord minX k <= IZR n * (288/100 * l_0)) as Hn2.
      { apply (Rmult_le_compat_r (288/100 * l_0)) in Hn; [|lra].
        replace ((coord maxX k - coord minX k) / (288/100 * l_0) * (288/100 * l_0)) with (coord maxX k - coord minX k) in Hn by (field; lra). exact Hn. }
      assert (coord minX k + (IZR n + 2) * (288/100 * l_0) <= coord (pX p) k) as Hout2 by exact Hout. lra.
    - apply lookup_ge_None. apply lookup_ge_None in Hp. etransitivity; [|exact Hp]. exact (Nat.eq_le_incl _ _ Hlen).
  Qed.
  Notation sg := (g * dt ^ 2 / l_0).
  Lemma densities_kept (e : environment Rnum cfg) (a b : list part) i p : densities e a b -> a !! i = Some p ->
    exists p', b !! i = Some p' /\ pX p' = pX p /\ pU p' = pU p /\ pT p' = pT p.
  Proof.
    intros [_ H] Hp. destruct (H i p Hp) as (p' & Hp' & H1 & H2). exists p'. split; [done|].
    destruct (fluid_or_wall_dec (cfg := cfg) p) as [Hf|Hf]; [by rewrite H1|by rewrite H2].
  Qed.
  Lemma first_moved (ps0 ps1 ps' : list part) i t a b : removal env1 ps ps0 -> densities env1 ps0 ps1 -> movement env1 wall ps1 ps' ->
    sites !! i = Some (t, a, b) ->
    exists p', ps' !! i = Some p' /\ pT p' = t /\ coord (pX p') 0 = l_0 * IZR a /\ coord (pX p') 1 = l_0 * (IZR b - shift sg t).
  Proof.
    pose proof Hl as Hl. destruct (bench_constants _ _ _ _ _ _ _ _ _ _ _ _ _ _ _ _ Henv) as (_ & _ & _ & _ & _ & _ & G0 & G1 & _).
    intros HR HDn HM Hsi. apply first_removal in HR as ->. pose proof (placed_at _ _ _ _ Hsi) as Hp.
    destruct (densities_kept _ _ _ _ _ HDn Hp) as (p1 & Hp1 & X1 & U1 & T1).
    assert (forall j q, ps1 !! j = Some q -> pU q = vzero) as HU.
    { intros j q Hq. assert (j < length ps)%nat as Hj.
      { destruct HDn as [HL _]. apply lookup_lt_Some in Hq. exact (eq_ind _ (fun n => (j < n)%nat) Hq _ HL). }
      apply lookup_lt_is_Some in Hj as [q0 Hq0]. destruct (densities_kept _ _ _ _ _ HDn Hq0) as (q1 & Hq1 & _ & U & _).
      replace q1 with q in U by congruence. rewrite U. apply placed_inv in Hq0 as (t' & a' & b' & _ & ->). done. }
    destruct HM as [_ HM]. destruct (HM i p1 Hp1) as (p' & Hp' & M1 & M2). exists p'. split; [done|].
    assert (coord (pX p1) 0 = l_0 * IZR a) as C0. { rewrite X1. change (IZR a * l_0 = l_0 * IZR a). lra. }
    assert (coord (pX p1) 1 = l_0 * IZR b) as C1. { rewrite X1. change (IZR b * l_0 = l_0 * IZR b). lra. }
    unfold shift. destruct (decide (t = Newton)) as [->|Hne].
    - rewrite M1 by done. clear M1 M2. cbn [pT pX].
      assert (friction env1 ps1 i p1 = vzero) as ->.
      { apply coord_ext. intros k Hk. unfold friction, nvsum. rewrite coord_vsum_n, coord_zero by done. apply sum_n_zero. intros j Hj. change (cDim cfg) with D2 in *.
        destruct (decide (near_to _ _ _ _)) as [Hn|]; [|by apply coord_zero]. destruct (ps1 !! j) as [q|] eqn:Hq; [|by apply coord_zero].
        destruct (decide _); [by apply coord_zero|]. rewrite coord_scal, coord_sub by done.
        rewrite (HU j q Hq), (HU i p1 Hp1), coord_zero by done. lra. }
      unfold gravity_at. cbn [cCentral bench_config]. change (eG env1) with (eG (cEnv s)). rewrite first_env.
      change (eDt env1) with (dt : Rnum). change (cDim cfg) with D2 in *. rewrite (HU i p1 Hp1).
      split; [done|].
      split.
      + change (coord (pX p1) 0 + dt * (0 + dt * (0 + coord (eG env) 0)) = l_0 * IZR a). rewrite C0. replace (coord (eG env) 0) with 0 by (symmetry; exact G0). lra.
      + change (coord (pX p1) 1 + dt * (0 + dt * (0 + coord (eG env) 1)) = l_0 * (IZR b - sg)). rewrite C1. replace (coord (eG env) 1) with (- g) by (symmetry; exact G1). field. lra.
    - rewrite M2 by (intros E; apply Hne; exact (eq_trans (eq_sym T1) E)). cbn [pT pX]. rewrite (first_wall i t a b Hsi). split; [exact T1|].
      split; [change (IZR a * l_0 = l_0 * IZR a)|change (IZR b * l_0 = l_0 * (IZR b - 0))]; lra.
  Qed.
  Lemma sg_bound : 0 <= sg <= 2/10.
  Proof.
    pose proof Hl as Hl. destruct (bench_dt _ _ _ _ _ _ _ _ _ _ _ _ _ _ _ _ Henv Hl HD Hg) as [H1 H2]. split.
    - unfold Rdiv. apply Rmult_le_pos; [|left; by apply Rinv_0_lt_compat]. apply Rmult_le_pos; [lra|apply pow2_ge_0].
    - apply Rmult_le_reg_r with l_0; [done|]. replace (g * dt ^ 2 / l_0 * l_0) with (g * dt ^ 2) by (field; lra). lra.
  Qed.
  Lemma first_displaced (ps0 ps1 ps' : list part) : removal env1 ps ps0 -> densities env1 ps0 ps1 -> movement env1 wall ps1 ps' ->
    displaced_at_most (cfg := cfg) ((eNL env - eRe env) / 2) ps ps'.
  Proof.
    pose proof Hl as Hl. destruct (bench_constants _ _ _ _ _ _ _ _ _ _ _ _ _ _ _ _ Henv) as (_ & _ & E2 & E3 & _). pose proof sg_bound as Hb.
    intros HR HDn HM i p p' Hp Hp' _. apply placed_inv in Hp as (t & a & b & Hsi & ->).
    destruct (first_moved _ _ _ _ _ _ _ HR HDn HM Hsi) as (q & Hq & _ & C0 & C1).
    assert (p' = q) as -> by exact (Some_inj _ _ (eq_trans (eq_sym Hp') Hq)). rewrite E2, E3.
    assert (@edist D2 (pX (site_particle (N := Rnum) l_0 (t, a, b))) (pX q) = R_sqrt.sqrt ((l_0 * shift sg t) ^ 2)) as HE.
    { rewrite edist_plane, C0, C1.
      change (coord (pX (site_particle (N := Rnum) l_0 (t, a, b))) 0) with (IZR a * l_0).
      change (coord (pX (site_particle (N := Rnum) l_0 (t, a, b))) 1) with (IZR b * l_0). f_equal. lra. }
    eapply Rle_trans; [right; exact HE|].
    pose proof (shift_bound sg Hb t) as Hsh. rewrite sqrt_pow2 by nra. nra.
  Qed.
  Lemma first_settled (ps1 ps2 : list part) : first_half env1 wall ps ps1 ps2 -> settled l_0 sg sites ps2.
  Proof.
    intros (ps0 & ps' & HR & HDn & HM & HD2). split.
    - destruct HR as [L0 _], HDn as [L1 _], HM as [L2 _], HD2 as [L3 _].
      exact (eq_trans L3 (eq_trans L2 (eq_trans L1 (eq_trans L0 placed_length)))).
    - intros i t a b Hsi. destruct (first_moved _ _ _ _ _ _ _ HR HDn HM Hsi) as (q & Hq & T & C0 & C1).
      destruct (densities_kept _ _ _ _ _ HD2 Hq) as (p & Hp & X & _ & T'). exists p. split; [done|]. rewrite T', X. done.
  Qed.
  Lemma first_dt : determine_dt s = Some dt.
  Proof.
    apply (C16_at_rest env s first_square first_reachable).
    - rewrite first_parts. unfold placed. destruct sites; [done|]. done.
    - intros p Hp. rewrite first_parts in Hp. apply elem_of_list_lookup in Hp as [i Hp]. apply placed_inv in Hp as (t & a & b & _ & ->). done.
  Qed.
  Lemma first_done : exists s', forward_dt (dt : Rnum) s = Done s'.
  Proof.
    pose proof Hl as Hl. destruct (bench_constants _ _ _ _ _ _ _ _ _ _ _ _ _ _ _ _ Henv) as (_ & _ & E2 & E3 & _).
    destruct (bench_n0 _ _ _ _ _ _ _ _ _ _ _ _ _ _ _ _ Henv Hl) as [HN HLm].
    apply (C33_step env dt s first_square).
    - rewrite E2. lra.
    - rewrite E2, E3. lra.
    - apply first_reachable.
    - apply first_locatable.
    - apply first_not_crowded.
    - lra.
    - done.
    - rewrite first_parts. apply first_displaced.
    - rewrite first_parts. intros ps1 ps2 FH. pose proof (first_settled ps1 ps2 FH) as Hset. destruct Htank as [Hone Hopen].
      assert (eRe env1 = 24/10 * l_0) as HRe by (change (eRe env1) with (eRe (cEnv s)); by rewrite first_env).
      assert (8 <= eN0 env1 <= 10) as HN1 by (change (eN0 env1) with (eN0 (cEnv s)); by rewrite first_env).
      split.
      + apply (settled_apart hs hl ecs gc ds mid l_0 sg sites); try done. apply sg_bound.
      + apply (settled_reaches hs hl ecs gc ds mid env1 l_0 sg sites); try done. apply sg_bound.
  Qed.
  Lemma first_result : exists s', forward s = Done s' /\ eT (cEnv s') = dt /\
    Forall2 (fun p p' : part => pT p' = pT p /\ (pT p <> Newton -> pX p' = pX p)) ps (cParts s').
  Proof.
    pose proof Hl as Hl. destruct (bench_constants _ _ _ _ _ _ _ _ _ _ _ _ _ _ _ _ Henv) as (T0 & _ & E2 & E3 & E4 & E5 & _).
    destruct first_done as [s' H]. exists s'. split; [unfold forward; by rewrite first_dt|].
    split.
    { destruct (forward_frame (dt : Rnum) s s') as (HE & _); [by rewrite H|]. rewrite HE, first_env. change (eT env + dt = dt). rewrite T0. lra. }
    assert (length ps = length (cParts s')) as HL.
    { destruct (forward_frame (dt : Rnum) s s') as (_ & HF); [by rewrite H|]. apply Forall2_length in HF. rewrite !fmap_length in HF. by rewrite first_parts in HF. }
    apply Forall2_same_length_lookup_2; [exact HL|].
    intros i p p' Hp Hp'. pose proof Hp as Hp0. rewrite <- first_parts in Hp0.
    destruct (C07_step env (dt : Rnum) s s' i p p' first_square ltac:(rewrite E3; lra) first_reachable H Hp0 Hp') as [HT1 HT2].
    assert (pT p' = pT p) as HT.
    { destruct HT1 as [?|HX]; [done|]. exfalso. apply HT2 in HX as [HX|(k & Hk & HX)]; [by apply (first_enabled i p Hp)|].
      cbn in Hk. pose proof (first_inside i p k Hp Hk) as [H1 H2]. unfold outside_axis in HX. rewrite E3, E4, E5 in HX.
      destruct HX as [HX|HX]; [exact (Rlt_irrefl _ (Rle_lt_trans _ _ _ H1 HX))|].
      assert (coord minX k + (IZR (Zceil ((coord maxX k - coord minX k) / (288/100 * l_0))) + 2) * (288/100 * l_0) <= coord (pX p) k) as HX2 by exact HX.
      pose proof (Zceil_ub ((coord maxX k - coord minX k) / (288/100 * l_0))) as Hn. set (n := IZR (Zceil _)) in *.
      apply (Rmult_le_compat_r (288/100 * l_0)) in Hn; [|lra].
      replace ((coord maxX k - coord minX k) / (288/100 * l_0) * (288/100 * l_0)) with (coord maxX k - coord minX k) in Hn by (field; lra). lra. }
    split; [done|]. intros Hne.
    destruct (C25_prescribed_motion (dt : Rnum) s s' i p p' H Hp0 Hp') as (_ & HX & _); [intros E; apply Hne; exact (eq_trans (eq_sym HT) E)|].
    refine (eq_trans HX _). cbn [wPos fixed_walls]. apply nth_lookup_Some. by rewrite list_lookup_fmap, Hp.
  Qed.
  Lemma first_lattice (ps1 ps2 : list part) i p a b : first_half env1 wall ps ps1 ps2 -> ps2 !! i = Some p -> sites !! i = Some (Newton, a, b) ->
    deep sites a b -> lattice_around env1 l_0 ps2 i p.
  Proof.
    pose proof Hl as Hl. intros FH Hp Hsi Hdeep. pose proof (first_settled ps1 ps2 FH) as Hset. destruct Htank as [Hone _].
    pose proof sg_bound as Hb.
    assert (eRe env1 = 24/10 * l_0) as HRe.
    { change (eRe env1) with (eRe (cEnv s)). rewrite first_env. by destruct (bench_constants _ _ _ _ _ _ _ _ _ _ _ _ _ _ _ _ Henv) as (_ & _ & ? & _). }
    assert (pT p = Newton) as Tp.
    { destruct Hset as [_ HS]. destruct (HS i Newton a b Hsi) as (p0 & Hp0 & Tp & _). assert (p = p0) as -> by exact (Some_inj _ _ (eq_trans (eq_sym Hp) Hp0)). exact Tp. }
    destruct (at_site l_0 sg sites ps2 Hset i p Hp) as (a0 & b0 & Hs0 & C0 & C1). rewrite Hsi in Hs0. injection Hs0 as _ <- <-. change (cDim cfg) with D2 in *. rewrite Tp in C1.
    set (cellvec := fun j => match sites !! j with Some (_, a', b') => [a' - a; b' - b]%Z | None => [] end).
    assert (forall j q, near_to (cfg := cfg) (eRe env1) ps2 i j -> ps2 !! j = Some q ->
      exists a' b', sites !! j = Some (Newton, a', b') /\ (a' - a, b' - b)%Z <> (0, 0)%Z /\
        coord (pX q) 0 = l_0 * IZR a' /\ coord (pX q) 1 = l_0 * (IZR b' - shift sg Newton)) as HN.
    { intros j q Hn Hq. rewrite HRe in Hn. rewrite <- Tp in Hsi.
      destruct (near_cells hs hl ecs gc ds mid l_0 sg sites ps2 Hl Hb Hone Hset i j p q a b Hn Hp Hq Hsi) as (a' & b' & e & Hsj & _ & _ & _ & _ & Hx & Hy & Hne).
      assert (pT q = Newton) as Tq.
      { specialize (Hdeep (a' - a)%Z (b' - b)%Z ltac:(lia) ltac:(lia)). replace (a + (a' - a))%Z with a' in Hdeep by lia. replace (b + (b' - b))%Z with b' in Hdeep by lia.
        apply elem_of_list_lookup in Hdeep as [k Hk]. assert (j = k) as <- by (by eapply (same_cell sites Hone)). rewrite Hsj in Hk. by injection Hk. }
      destruct (at_site l_0 sg sites ps2 Hset j q Hq) as (a1 & b1 & Hs1 & D0 & D1). rewrite Hsj in Hs1. injection Hs1 as <- <-. change (cDim cfg) with D2 in *. rewrite Tq in D1.
      exists a', b'. rewrite Hsj, Tq. done. }
    exists cellvec. split; [|split].
    - intros j q Hn Hq. destruct (HN j q Hn Hq) as (a' & b' & Hsj & Hne & D0 & D1). unfold cellvec. rewrite Hsj. split; [done|]. split.
      + intros E. rewrite (znorm_two _ _ _ eq_refl) in E. pose proof (Z.square_nonneg (a' - a)) as Q1. pose proof (Z.square_nonneg (b' - b)) as Q2. apply sqrt_eq_0 in E; [|apply IZR_le; lia]. apply eq_IZR in E.
        apply Hne. clear - E Q1 Q2. revert E Q1 Q2. generalize (a' - a)%Z (b' - b)%Z. intros x y E Q1 Q2. f_equal; nia.
      + apply (tup_ext D2). intros k Hk. cbn in Hk. destruct k as [|[|k]]; [| |lia].
        * refine (eq_trans D0 _). change (l_0 * IZR a' = coord (pX p) 0 + l_0 * IZR (a' - a)). rewrite C0, minus_IZR. lra.
        * refine (eq_trans D1 _). change (l_0 * (IZR b' - shift sg Newton) = coord (pX p) 1 + l_0 * IZR (b' - b)). rewrite C1, minus_IZR. lra.
    - intros j k Hj Hk. pose proof Hj as (_ & _ & q & _ & Hq & _). pose proof Hk as (_ & _ & q' & _ & Hq' & _).
      destruct (HN j q Hj Hq) as (a1 & b1 & H1 & _). destruct (HN k q' Hk Hq') as (a2 & b2 & H2 & _).
      unfold cellvec. rewrite H1, H2. intros [= E1 E2]. apply (same_cell sites Hone j k Newton a1 b1 Newton); [done|]. rewrite H2. f_equal. f_equal; [f_equal|]; lia.
    - intros z Hz Hn Hlt. cbn in Hz. destruct z as [|x [|y [|]]]; try done. rewrite HRe in Hlt |- *.
      rewrite (znorm_two _ _ _ eq_refl) in Hlt, Hn.
      assert (x * x + y * y < 6)%Z as Hq.
      { apply lt_IZR. apply Rnot_le_lt. intros Hc.
        assert (R_sqrt.sqrt ((24/10) ^ 2) <= R_sqrt.sqrt (IZR (x * x + y * y))) as H2 by (apply sqrt_le_1_alt; lra).
        rewrite sqrt_pow2 in H2 by lra. nra. }
      assert (x * x + y * y <> 0)%Z as Hnz. { intros E. apply Hn. rewrite E. apply sqrt_0. }
      specialize (Hdeep x y ltac:(nia) ltac:(nia)). apply elem_of_list_lookup in Hdeep as [j Hj]. exists j.
      destruct Hset as [HL HS]. destruct (HS j _ _ _ Hj) as (q & Hq' & Tq & D0 & D1).
      split; [|unfold cellvec; rewrite Hj; f_equal; [|f_equal]; lia].
      split; [intros <-; rewrite Hsi in Hj; injection Hj as E1 E2; nia|]. exists p, q. split; [done|]. split; [done|].
      split; [change (pT q <> Disabled); by rewrite Tq|].
      assert (@edist D2 (pX p) (pX q) = l_0 * R_sqrt.sqrt (IZR (x * x + y * y))) as HE.
      { rewrite edist_plane, C0, C1, D0, D1, !plus_IZR, !mult_IZR.
        replace ((l_0 * IZR a - l_0 * (IZR a + IZR x)) ^ 2 + (l_0 * (IZR b - shift sg Newton) - l_0 * (IZR b + IZR y - shift sg Newton)) ^ 2)
          with (l_0 ^ 2 * (IZR x * IZR x + IZR y * IZR y)) by lra.
        rewrite sqrt_mult_alt by nra. by rewrite sqrt_pow2 by lra. }
      eapply Rle_lt_trans; [right; exact HE|exact Hlt].
  Qed.
  Lemma first_density s' i a b : forward s = Done s' -> sites !! i = Some (Newton, a, b) -> deep sites a b ->
    exists p', cParts s' !! i = Some p' /\ pN p' = eN0 env.
  Proof.
    pose proof Hl as Hl. destruct (bench_constants _ _ _ _ _ _ _ _ _ _ _ _ _ _ _ _ Henv) as (_ & _ & E2 & E3 & _).
    intros H Hsi Hd. unfold forward in H. rewrite first_dt in H.
    destruct (forward_Done _ _ _ H) as (s1 & s2 & s3 & s4 & s5 & s6 & s7 & [H1 H2 H3 H4 H5 H6 H7 H8]).
    assert (step_prefix (dt : Rnum) s s1 s2 s3 s4 s5 s6) as HT by (split; done).
    assert (0 < eRe env) as HRe by (rewrite E2; lra). assert (eRe env <= eNL env) as HNL by (rewrite E2, E3; lra).
    assert (forall ps0 ps1 ps', removal env1 (cParts s) ps0 -> densities env1 ps0 ps1 -> movement env1 wall ps1 ps' ->
       displaced_at_most ((eNL env - eRe env) / 2) (cParts s) ps') as HDis by (rewrite first_parts; apply first_displaced).
    destruct (prefix_first_half env dt s s1 s2 s3 s4 s5 s6 first_square HRe HNL first_reachable HT HDis) as [FH _].
    pose proof FH as FH'. rewrite first_parts in FH'. destruct (first_settled _ _ FH') as [_ HS]. destruct (HS i _ _ _ Hsi) as (p & Hp & Tp & _).
    eapply (C14_step (cfg := cfg) maxDt (1/10) g rho nu surf (24/10) c l_0 minX maxX env dt s s' (cParts s2) (cParts s6) i p); try done.
    - apply first_square.
    - apply first_reachable.
    - unfold fluid_or_wall, enabled. change (cDim cfg) with D2. by rewrite Tp.
    - by apply (first_lattice _ _ i p a b FH').
  Qed.
End First.

(** ** C73 *)
Lemma stands_placed {N : num} (l_0 : N) sites parts : Forall2 (stands l_0) sites parts <-> parts = placed l_0 sites.
Proof.
  split.
  - intros H. induction H as [|[[t a] b] p sites parts (H1 & H2 & H3 & H4 & H5) _ IH]; [done|]. cbn. rewrite IH. destruct p; cbn in *. by subst.
  - intros ->. unfold placed. apply Forall2_fmap_r. apply Forall_Forall2_diag. apply Forall_true. by intros [[t a] b].
Qed.
(** A scene of fluid, walls and dummies on a lattice, one particle per cell, from every fluid or wall cell of which one gets to
    the open, can be loaded, and the first step succeeds. *)
Theorem C73_first_step hs hl ecs gc ds mid (maxDt g rho nu surf c l_0 : R) minX maxX env sites parts cond :
  bench_env hs hl ecs gc ds mid maxDt g rho nu surf c l_0 minX maxX = Some env ->
  0 < maxDt -> 0 < g -> / 10 ^ 12 <= l_0 -> Forall2 (stands (N := Rnum) l_0) sites parts ->
  tank sites -> sites <> [] -> in_domain l_0 sites minX maxX -> small_domain l_0 minX maxX ->
  first_step_succeeds hs hl ecs gc ds mid cond env parts.
Proof.
  intros Henv HD Hg Hf ->%stands_placed Ht Hne Hin Hs.
  destruct (first_new hs hl ecs gc ds mid maxDt g rho nu surf c l_0 minX maxX env Henv sites cond Hf Ht Hne Hin Hs) as [s Hi].
  destruct (first_result hs hl ecs gc ds mid maxDt g rho nu surf c l_0 minX maxX env Henv sites cond HD Hg Hf Ht Hne Hin Hs s Hi) as (s' & H1 & H2 & H3).
  exists s'. split; [exists s; done|done].
Qed.
(** Where there is fluid as far as the radius reaches, the density shown after the first step is exactly N0. *)
Theorem C73_density hs hl ecs gc ds mid (maxDt g rho nu surf c l_0 : R) minX maxX env sites parts cond s' i a b :
  bench_env hs hl ecs gc ds mid maxDt g rho nu surf c l_0 minX maxX = Some env ->
  0 < maxDt -> 0 < g -> / 10 ^ 12 <= l_0 -> Forall2 (stands (N := Rnum) l_0) sites parts -> tank sites -> in_domain l_0 sites minX maxX ->
  first_step hs hl ecs gc ds mid cond env parts s' -> sites !! i = Some (Newton, a, b) -> deep sites a b ->
  exists p', cParts s' !! i = Some p' /\ pN p' = eN0 env.
Proof.
  intros Henv HD Hg Hf HP Ht Hin HX. apply stands_placed in HP as ->. destruct HX as (s & Hi & H). intros Hsi Hd.
  assert (sites <> []) as Hne by (intros ->; done).
  eapply (first_density hs hl ecs gc ds mid maxDt g rho nu surf c l_0 minX maxX env Henv sites cond HD Hg Hf Ht Hne Hin s Hi s' i a b H Hsi Hd).
Qed.

(** *** The shapes *)
Lemma laid_out_placed {N : num} (l_0 : N) sites (shape : ptype -> Z -> Z -> Prop) : NoDup (map (fun s : site => (s.1.2, s.2)) sites) ->
  (forall t a b, holds sites t a b <-> shape t a b) -> (forall t a b, shape t a b -> t = Newton \/ t = Wall \/ t = Dummy) ->
  laid_out l_0 (placed l_0 sites) shape.
Proof. intros H1 H2 H3. exists sites. split; [by apply stands_placed|]. split; [|done]. split; [done|]. intros t a b H%H2. eauto. Qed.
Theorem C73_static {N : num} (l_0 : N) w h : (0 <= w)%Z -> (0 <= h)%Z -> laid_out l_0 (scParts (static_pressure l_0 w h)) (static_shape w h).
Proof.
  intros Hw Hh. apply laid_out_placed; [by apply cells_static|intros t a b; by apply holds_static|]. unfold static_shape. intros t a b. tauto.
Qed.
Theorem C73_koshizuka {N : num} (l_0 L height width : N) l h w sc :
  koshizuka_oka l_0 L height width = Some sc -> nceil (L /. l_0) = Some l -> nceil (L ×. height /. l_0) = Some h -> nceil (L ×. width /. l_0) = Some w ->
  (0 <= w)%Z -> (l <= w)%Z -> (1 <= h)%Z -> laid_out l_0 (scParts sc) (dam_shape 0 l h w h).
Proof.
  intros H E1 E2 E3 Hw Hl Hh. unfold koshizuka_oka, py_ceil in H. rewrite E1, E2, E3 in H. cbn in H. injection H as <-.
  apply laid_out_placed; [by apply cells_koshizuka|intros t a b; by apply holds_koshizuka|]. unfold dam_shape. intros t a b. tauto.
Qed.
Theorem C73_zhou {N : num} (l_0 H W h w : N) nH nW nh nw sc :
  zhou_et_al l_0 H W h w = Some sc -> nceil (H /. l_0) = Some nH -> nceil (W /. l_0) = Some nW -> nceil (h /. l_0) = Some nh -> nceil (w /. l_0) = Some nw ->
  (0 <= nW)%Z -> (nw <= nW)%Z -> (1 <= nH)%Z -> laid_out l_0 (scParts sc) (dam_shape (nW - nw) nw nh nW nH).
Proof.
  intros Hs E1 E2 E3 E4 HW Hw HH. unfold zhou_et_al, py_ceil in Hs. rewrite E1, E2, E3, E4 in Hs. cbn in Hs. injection Hs as <-.
  apply laid_out_placed; [by apply cells_zhou|intros t a b; by apply holds_zhou|]. unfold dam_shape. intros t a b. tauto.
Qed.
Theorem C73_central {N : num} (l_0 : N) w h areaSize : laid_out l_0 (scParts (central_gravity l_0 w h areaSize)) (block_shape w h).
Proof.
  apply laid_out_placed; [by apply cells_central|intros t a b; by apply holds_central|]. unfold block_shape. intros t a b. tauto.
Qed.

(** *** The corners of the static scene *)
Lemma foldl_min (l : list R) (a m : R) : m ∈ l -> (forall x, x ∈ l -> m <= x) -> m <= a -> foldl (py_min (N := Rnum)) a l = m.
Proof.
  assert (forall (l : list R) (a : R), m <= a -> (forall x, x ∈ l -> m <= x) -> m ∈ l \/ a = m -> foldl (py_min (N := Rnum)) a l = m) as H; [|auto].
  clear l a. induction l as [|x l IH]; intros a Ha Hl Hm; cbn [foldl].
  - destruct Hm as [Hm|Hm]; [by apply elem_of_nil in Hm|done].
  - assert (m <= x) as Hx by (apply Hl; left). apply IH.
    + unfold py_min. cbn. destruct (Rlt_dec x a); done.
    + intros y Hy. apply Hl. by right.
    + rewrite elem_of_cons in Hm. unfold py_min. cbn. destruct (Rlt_dec x a); destruct Hm as [[Hm|Hm]|Hm]; auto; right; lra.
Qed.
Lemma foldl_max (l : list R) (a m : R) : m ∈ l -> (forall x, x ∈ l -> x <= m) -> a <= m -> foldl (py_max (N := Rnum)) a l = m.
Proof.
  assert (forall (l : list R) (a : R), a <= m -> (forall x, x ∈ l -> x <= m) -> m ∈ l \/ a = m -> foldl (py_max (N := Rnum)) a l = m) as H; [|auto].
  clear l a. induction l as [|x l IH]; intros a Ha Hl Hm; cbn [foldl].
  - destruct Hm as [Hm|Hm]; [by apply elem_of_nil in Hm|done].
  - assert (x <= m) as Hx by (apply Hl; left). apply IH.
    + unfold py_max. cbn. destruct (Rlt_dec a x); done.
    + intros y Hy. apply Hl. by right.
    + rewrite elem_of_cons in Hm. unfold py_max. cbn. destruct (Rlt_dec a x); destruct Hm as [[Hm|Hm]|Hm]; auto; right; lra.
Qed.
Lemma foldl_fmap {A B C} (f : A -> C -> A) (g : B -> C) (l : list B) (a : A) : foldl (fun m x => f m (g x)) a l = foldl f a (map g l).
Proof. revert a. induction l as [|x l IH]; intros a; [done|]. cbn. apply IH. Qed.
(** The domain of the static scene is the box around the particles. *)
Theorem C73_static_domain (l_0 : R) w h : / 10 ^ 12 <= l_0 -> (0 <= w)%Z -> (1 <= h)%Z ->
  let sc := static_pressure (N := Rnum) l_0 w h in
  scMin sc = (-4 * l_0, -4 * l_0) /\ scMax sc = ((IZR w + 3) * l_0, IZR h * l_0).
Proof.
  intros Hl Hw Hh sc. assert (0 < / 10 ^ 12) by (apply Rinv_0_lt_compat, pow_lt; lra).
  pose proof (fun t a b => proj1 (holds_static w h t a b Hw ltac:(lia))) as F. pose proof (fun t a b => proj2 (holds_static w h t a b Hw ltac:(lia))) as G.
  assert (float_min (N := Rnum) <= l_0) as Hm.
  { eapply Rle_trans; [|exact Hl]. unfold float_min. change (1 / IZR (2 ^ 1022) <= / 10 ^ 12). unfold Rdiv. rewrite Rmult_1_l.
    apply Rinv_le_contravar; [apply pow_lt; lra|]. rewrite pow_IZR. apply IZR_le. vm_compute. discriminate. }
  assert (-4 * l_0 <= float_max (N := Rnum)) as HM.
  { apply Rle_trans with 0; [lra|]. unfold float_max. change (0 <= IZR ((2 ^ 53 - 1) * 2 ^ 971)). apply IZR_le. vm_compute. discriminate. }
  assert (forall (k : nat) x, x ∈ map (fun p : particle Rnum D2 => tget D2 (pX p) k) (placed (N := Rnum) l_0 (static_sites w h)) <->
     exists t a b, holds (static_sites w h) t a b /\ x = tget D2 ((IZR a * l_0, IZR b * l_0) : vec Rnum D2) k) as HX.
  { intros k x. unfold placed. rewrite map_map, elem_of_map. split.
    - intros ([[t a] b] & H1 & ->). eauto.
    - intros (t & a & b & H1 & ->). exists (t, a, b). done. }
  assert (1 <= IZR h) as Hh' by (apply IZR_le; lia). assert (0 <= IZR w) as Hw' by (apply IZR_le; lia).
  assert (forall (x y : Z), (x <= y)%Z -> IZR x * l_0 <= IZR y * l_0) as Hmono. { intros x y Hxy. apply Rmult_le_compat_r; [lra|]. by apply IZR_le. }
  split; unfold sc, static_pressure; cbn [scMin scMax]; rewrite !(foldl_fmap _ (fun p : particle Rnum D2 => tget D2 (pX p) _)); f_equal.
  - apply foldl_min; [apply HX; exists Dummy, (-4)%Z, (-4)%Z; split; [apply G; unfold behind_wall; right; right; split; [done|lia]|done]| |done].
    intros x (t & a & b & H1 & ->)%HX. apply (Hmono (-4)%Z). apply F in H1. unfold water, inner_wall, behind_wall in H1. lia.
  - apply foldl_min; [apply HX; exists Dummy, (-4)%Z, (-4)%Z; split; [apply G; unfold behind_wall; right; right; split; [done|lia]|done]| |done].
    intros x (t & a & b & H1 & ->)%HX. apply (Hmono (-4)%Z). apply F in H1. unfold water, inner_wall, behind_wall in H1. lia.
  - rewrite <- plus_IZR. apply foldl_max; [apply HX; exists Dummy, (w + 3)%Z, 0%Z; split; [apply G; unfold behind_wall; right; right; split; [done|lia]|done]| |].
    + intros x (t & a & b & H1 & ->)%HX. apply Hmono. apply F in H1. unfold water, inner_wall, behind_wall in H1. lia.
    + rewrite plus_IZR. apply Rle_trans with l_0; [done|]. nra.
  - apply foldl_max; [apply HX; exists Dummy, (-4)%Z, h; split; [apply G; unfold behind_wall; right; right; split; [done|lia]|done]| |].
    + intros x (t & a & b & H1 & ->)%HX. apply Hmono. apply F in H1. unfold water, inner_wall, behind_wall in H1. lia.
    + apply Rle_trans with l_0; [done|]. nra.
Qed.

(** *** The first step of the scenes *)
Theorem C73_static_runs hs hl ecs gc ds mid (maxDt g rho nu surf c l_0 : R) w h env cond :
  let sc := static_pressure (N := Rnum) l_0 w h in
  bench_env hs hl ecs gc ds mid maxDt g rho nu surf c l_0 (scMin sc) (scMax sc) = Some env ->
  0 < maxDt -> 0 < g -> / 10 ^ 12 <= l_0 -> (0 <= w <= 10 ^ 8)%Z -> (1 <= h <= 10 ^ 8)%Z ->
  first_step_succeeds hs hl ecs gc ds mid cond env (scParts sc).
Proof.
  intros sc Henv HD Hg Hl Hw Hh. destruct (C73_static_domain l_0 w h Hl ltac:(lia) ltac:(lia)) as [Hmin Hmax]. fold sc in Hmin, Hmax.
  assert (0 < / 10 ^ 12) by (apply Rinv_0_lt_compat, pow_lt; lra).
  pose proof (fun t a b => proj1 (holds_static w h t a b ltac:(lia) ltac:(lia))) as F.
  eapply (C73_first_step hs hl ecs gc ds mid maxDt g rho nu surf c l_0 _ _ env (static_sites w h) _ cond Henv HD Hg Hl); [by apply stands_placed|apply tank_static; lia| | |].
  - intros E. assert (holds (static_sites w h) Wall (-1) (-1)) as HH by (apply holds_static; [lia|lia|]; right; left; split; [done|]; left; lia). rewrite E in HH. by apply elem_of_nil in HH.
  - rewrite Hmin, Hmax. intros t a b H1%F. change (-4 * l_0 <= IZR a * l_0 < (IZR w + 3) * l_0 + 5.76 * l_0 /\ -4 * l_0 <= IZR b * l_0 < IZR h * l_0 + 5.76 * l_0).
    assert (-4 <= a <= w + 3 /\ -4 <= b <= h)%Z as [[A1 A2] [B1 B2]] by (unfold water, inner_wall, behind_wall in H1; lia).
    apply IZR_le in A1, A2, B1, B2. rewrite plus_IZR in A2. nra.
  - rewrite Hmin, Hmax. change ((IZR w + 3) * l_0 - -4 * l_0 <= 10 ^ 9 * l_0 /\ IZR h * l_0 - -4 * l_0 <= 10 ^ 9 * l_0).
    assert (IZR w <= 10 ^ 8 /\ IZR h <= 10 ^ 8) as [W1 H1] by (rewrite pow_IZR; split; apply IZR_le; simpl; lia). nra.
Qed.
Lemma nceil_Some (x : R) n : nceil (n := Rnum) x = Some n -> n = Zceil x.
Proof. cbn. unfold to_index. destruct (_ && _); [|done]. by intros [= <-]. Qed.
Lemma nceil_small (x : R) : 0 <= x <= 10 ^ 9 -> nceil (n := Rnum) x = Some (Zceil x).
Proof.
  intros [H0 H1]. cbn. unfold to_index.
  assert (0 <= Zceil x <= 10 ^ 9)%Z as H.
  { split; [apply le_IZR; eapply Rle_trans; [exact H0|apply Zceil_ub]|]. apply Zceil_glb. eapply Rle_trans; [exact H1|]. rewrite pow_IZR. apply IZR_le. done. }
  destruct (_ && _) eqn:E; [done|lia].
Qed.
Lemma Zceil_bounds (x l : R) : 0 < l -> x <= IZR (Zceil (x / l)) * l < x + l.
Proof.
  intros Hl. pose proof (Zceil_ub (x / l)) as H1. pose proof (Zceil_lb (x / l)) as H2.
  assert (x / l * l = x) as E by (field; lra). nra.
Qed.
Lemma Zceil_pos (x : R) : 0 < x -> (1 <= Zceil x)%Z.
Proof. intros H. assert (0 < Zceil x)%Z; [|lia]. apply lt_IZR. eapply Rlt_le_trans; [exact H|apply Zceil_ub]. Qed.
Theorem C73_koshizuka_runs hs hl ecs gc ds mid (maxDt g rho nu surf c l_0 L height width : R) cond :
  0 < maxDt -> 0 < g -> / 10 ^ 12 <= l_0 -> 0 < L -> 1 <= width -> 0 < height -> L * width <= 10 ^ 8 * l_0 -> L * height <= 10 ^ 8 * l_0 ->
  exists sc, koshizuka_oka (N := Rnum) l_0 L height width = Some sc /\
    forall env, bench_env hs hl ecs gc ds mid maxDt g rho nu surf c l_0 (scMin sc) (scMax sc) = Some env ->
      first_step_succeeds hs hl ecs gc ds mid cond env (scParts sc).
Proof.
  intros HD Hg Hl HL Hw Hh Bw Bh. assert (0 < / 10 ^ 12) by (apply Rinv_0_lt_compat, pow_lt; lra). assert (0 < l_0) as Hl0 by lra.
  assert (forall x, 0 < x -> x <= 10 ^ 8 * l_0 -> 0 < x / l_0 <= 10 ^ 8) as Q.
  { intros x H0 H1. split; [by apply Rdiv_lt_0_compat|]. apply Rmult_le_reg_r with l_0; [done|]. replace (x / l_0 * l_0) with x by (field; lra). done. }
  assert (0 < L * width) as P1 by nra. assert (0 < L * height) as P2 by nra. assert (L <= L * width) as P3 by nra.
  pose proof (Q L HL ltac:(lra)) as QL. pose proof (Q _ P1 Bw) as QW. pose proof (Q _ P2 Bh) as QH. clear Q.
  set (l := Zceil (L / l_0)). set (h := Zceil (L * height / l_0)). set (w := Zceil (L * width / l_0)).
  assert (1 <= l)%Z as Hl1 by (apply Zceil_pos; lra). assert (1 <= h)%Z as Hh1 by (apply Zceil_pos; lra).
  assert (l <= w)%Z as Hlw. { apply Zceil_le. unfold Rdiv. apply Rmult_le_compat_r; [left; by apply Rinv_0_lt_compat|done]. }
  eexists. split.
  { unfold koshizuka_oka, py_ceil. change (@ndiv Rnum) with Rdiv. change (@nmul Rnum) with Rmult.
    rewrite (nceil_small (L / l_0)), (nceil_small (L * height / l_0)), (nceil_small (L * width / l_0)) by lra. cbn [mbind option_bind]. reflexivity. }
  cbn [scParts scMin scMax]. fold l h w. intros env Henv.
  pose proof (fun t a b => proj1 (holds_koshizuka l h w t a b ltac:(lia) Hh1)) as F.
  pose proof (Zceil_bounds (L * height) l_0 Hl0) as [_ C1]. pose proof (Zceil_bounds (L * width) l_0 Hl0) as [_ C2]. fold h in C1. fold w in C2.
  eapply (C73_first_step hs hl ecs gc ds mid maxDt g rho nu surf c l_0 _ _ env (koshizuka_sites l h w) _ cond Henv HD Hg Hl); [by apply stands_placed|apply tank_koshizuka; lia| | |].
  - intros E. assert (holds (koshizuka_sites l h w) Wall (-1) (-1)) as HH by (apply holds_koshizuka; [lia|lia|]; right; left; split; [done|]; left; left; lia). rewrite E in HH. by apply elem_of_nil in HH.
  - intros t a b H1%F. change (-4 * l_0 <= IZR a * l_0 < width * L + 5.76 * l_0 /\ -4 * l_0 <= IZR b * l_0 < height * 2 * L + 5.76 * l_0).
    assert (-4 <= a <= w + 3 /\ -4 <= b <= h - 1)%Z as [[A1 A2] [B1 B2]] by (unfold water, inner_wall, behind_wall, rim in H1; lia).
    apply IZR_le in A1, A2, B1, B2. rewrite plus_IZR in A2. rewrite minus_IZR in B2.
    apply (Rmult_le_compat_r l_0) in A1, A2, B1, B2; lra.
  - change (width * L - -4 * l_0 <= 10 ^ 9 * l_0 /\ height * 2 * L - -4 * l_0 <= 10 ^ 9 * l_0). lra.
Qed.
Theorem C73_zhou_runs hs hl ecs gc ds mid (maxDt g rho nu surf c l_0 H W h w : R) cond :
  0 < maxDt -> 0 < g -> / 10 ^ 12 <= l_0 -> 0 < w <= W -> 0 < h <= H -> W <= 10 ^ 8 * l_0 -> H <= 10 ^ 8 * l_0 ->
  exists sc, zhou_et_al (N := Rnum) l_0 H W h w = Some sc /\
    forall env, bench_env hs hl ecs gc ds mid maxDt g rho nu surf c l_0 (scMin sc) (scMax sc) = Some env ->
      first_step_succeeds hs hl ecs gc ds mid cond env (scParts sc).
Proof.
  intros HD Hg Hl Hw Hh BW BH. assert (0 < / 10 ^ 12) by (apply Rinv_0_lt_compat, pow_lt; lra). assert (0 < l_0) as Hl0 by lra.
  assert (forall x, 0 < x -> x <= 10 ^ 8 * l_0 -> 0 < x / l_0 <= 10 ^ 8) as Q.
  { intros x X0 X1. split; [by apply Rdiv_lt_0_compat|]. apply Rmult_le_reg_r with l_0; [done|]. replace (x / l_0 * l_0) with x by (field; lra). done. }
  pose proof (Q H ltac:(lra) BH) as QH. pose proof (Q W ltac:(lra) BW) as QW. pose proof (Q h ltac:(lra) ltac:(lra)) as Qh. pose proof (Q w ltac:(lra) ltac:(lra)) as Qw. clear Q.
  set (nH := Zceil (H / l_0)). set (nW := Zceil (W / l_0)). set (nh := Zceil (h / l_0)). set (nw := Zceil (w / l_0)).
  assert (1 <= nH)%Z as HH1 by (apply Zceil_pos; lra). assert (1 <= nW)%Z as W1 by (apply Zceil_pos; lra).
  assert (nw <= nW)%Z as Hnw. { apply Zceil_le. unfold Rdiv. apply Rmult_le_compat_r; [left; by apply Rinv_0_lt_compat|lra]. }
  assert (nh <= nH)%Z as Hnh. { apply Zceil_le. unfold Rdiv. apply Rmult_le_compat_r; [left; by apply Rinv_0_lt_compat|lra]. }
  eexists. split.
  { unfold zhou_et_al, py_ceil. change (@ndiv Rnum) with Rdiv. change (@nmul Rnum) with Rmult.
    rewrite (nceil_small (H / l_0)), (nceil_small (W / l_0)), (nceil_small (h / l_0)), (nceil_small (w / l_0)) by lra. cbn [mbind option_bind]. reflexivity. }
  cbn [scParts scMin scMax]. fold nH nW nh nw. intros env Henv.
  pose proof (fun t a b => proj1 (holds_zhou nH nW nh nw t a b ltac:(lia) HH1)) as F.
  pose proof (Zceil_bounds H l_0 Hl0) as [_ C1]. pose proof (Zceil_bounds W l_0 Hl0) as [_ C2]. fold nH in C1. fold nW in C2.
  assert (1 <= IZR nH) by (by apply IZR_le).
  eapply (C73_first_step hs hl ecs gc ds mid maxDt g rho nu surf c l_0 _ _ env (zhou_sites nH nW nh nw) _ cond Henv HD Hg Hl); [by apply stands_placed|apply tank_zhou; lia| | |].
  - intros E. assert (holds (zhou_sites nH nW nh nw) Wall (-1) (-1)) as HH by (apply holds_zhou; [lia|lia|]; right; left; split; [done|]; left; left; lia). rewrite E in HH. by apply elem_of_nil in HH.
  - intros t a b Hx%F. change (-4 * l_0 <= IZR a * l_0 < IZR (nW + 4) * l_0 + 5.76 * l_0 /\ -4 * l_0 <= IZR b * l_0 < 12 / 10 * IZR nH * l_0 + 5.76 * l_0).
    assert (-4 <= a <= nW + 3 /\ -4 <= b <= nH - 1)%Z as [[A1 A2] [B1 B2]] by (unfold dam_shape, water, inner_wall, behind_wall, rim in Hx; lia).
    apply IZR_le in A1, A2, B1, B2. rewrite plus_IZR in A2. rewrite plus_IZR. rewrite minus_IZR in B2.
    apply (Rmult_le_compat_r l_0) in A1, A2, B1, B2; assert (1 * l_0 <= IZR nH * l_0) by (apply Rmult_le_compat_r; lra); lra.
  - change (IZR (nW + 4) * l_0 - -4 * l_0 <= 10 ^ 9 * l_0 /\ 12 / 10 * IZR nH * l_0 - -4 * l_0 <= 10 ^ 9 * l_0). rewrite plus_IZR. lra.
Qed.

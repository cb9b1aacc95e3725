(** Property theorems: weight function, reference density, time steps (C12, C13, C15, C16). *)
From Coq Require Import ZifyBool.
From Verif Require Import P_Lattice P_Neigh.
Open Scope R_scope.

(** ** C12 *)
Theorem C12_weight_inside (r r_e : R) : 0 < r -> r < r_e -> @weight Rnum r r_e = r_e / r - 1.
Proof. intros H1 H2. rewrite weight_wt. unfold wt. destruct (Rlt_dec 0 r); [|done]. by destruct (Rlt_dec r r_e). Qed.
Theorem C12_weight_outside (r r_e : R) : r <= 0 \/ r_e <= r -> @weight Rnum r r_e = 0.
Proof. intros H. rewrite weight_wt. unfold wt. destruct (Rlt_dec 0 r), (Rlt_dec r r_e); try done. lra. Qed.
Lemma wt_pos_iff (r r_e : R) : 0 < wt r r_e <-> 0 < r < r_e.
Proof.
  unfold wt. destruct (Rlt_dec 0 r); [|lra]. destruct (Rlt_dec r r_e); [|lra].
  split; [done|]. intros _. apply Rlt_Rminus. apply (Rmult_lt_reg_r r); [done|]. unfold Rdiv. rewrite Rmult_assoc, Rinv_l; lra.
Qed.
Lemma wt_nonneg (r r_e : R) : 0 <= wt r r_e.
Proof. destruct (wt_pos_iff r r_e) as [_ H]. unfold wt in *. destruct (Rlt_dec 0 r); [|lra]. destruct (Rlt_dec r r_e); [|lra]. lra. Qed.
Theorem C12_weight_not_negative (r r_e : R) : 0 <= @weight Rnum r r_e.
Proof. rewrite weight_wt. apply wt_nonneg. Qed.
Theorem C12_weight_positive_iff (r r_e : R) : 0 < @weight Rnum r r_e <-> 0 < r < r_e.
Proof. rewrite weight_wt. apply wt_pos_iff. Qed.
Theorem C12_weight_decreasing (r r' r_e : R) : 0 < r -> r < r' -> r < r_e -> @weight Rnum r' r_e < @weight Rnum r r_e.
Proof.
  intros H1 H2 H3. rewrite !weight_wt. destruct (Rlt_dec r' r_e) as [L|L].
  - unfold wt. destruct (Rlt_dec 0 r), (Rlt_dec 0 r'), (Rlt_dec r r_e), (Rlt_dec r' r_e); try lra.
    apply Rplus_lt_compat_r. unfold Rdiv. apply Rmult_lt_compat_l; [lra|]. apply Rinv_lt_contravar; nra.
  - assert (wt r' r_e = 0) as -> by (unfold wt; destruct (Rlt_dec 0 r'), (Rlt_dec r' r_e); done).
    by apply wt_pos_iff.
Qed.
(** Continuous at [r_e]: it tends to 0 there. *)
Theorem C12_weight_vanishes_at_radius (r_e eps : R) : 0 < r_e -> 0 < eps ->
  exists delta, 0 < delta /\ forall r, Rabs (r - r_e) < delta -> @weight Rnum r r_e < eps.
Proof.
  intros Hr He. exists (r_e * eps / (1 + eps)). split.
  { apply Rdiv_lt_0_compat; [nra|lra]. }
  intros r Hd. rewrite weight_wt. unfold wt. destruct (Rlt_dec 0 r); [|done]. destruct (Rlt_dec r r_e); [|done].
  rewrite Rabs_left in Hd by lra.
  apply (Rmult_lt_reg_r r); [done|]. rewrite Rmult_minus_distr_r. unfold Rdiv. rewrite Rmult_assoc, Rinv_l by lra.
  assert (r_e * eps / (1 + eps) = r_e - r_e / (1 + eps)) as E by (field; lra). rewrite E in Hd.
  assert (r_e / (1 + eps) < r) as L by lra. apply (Rmult_lt_compat_r (1 + eps)) in L; [|lra].
  unfold Rdiv in L. rewrite Rmult_assoc, Rinv_l in L by lra. lra.
Qed.
(** It depends on the ratio only. *)
Lemma wt_scale (k r r_e : R) : 0 < k -> wt (k * r) (k * r_e) = wt r r_e.
Proof.
  intros Hk. unfold wt. destruct (Rlt_dec 0 r), (Rlt_dec 0 (k * r)); try nra.
  destruct (Rlt_dec r r_e), (Rlt_dec (k * r) (k * r_e)); try nra. field. lra.
Qed.

(** ** C13 *)
Lemma dimn_pos e : (1 <= dimn e)%nat.
Proof. destruct e; simpl; lia. Qed.
Section Env.
  Context {cfg : config}.
  Notation d := (cDim cfg).

  Lemma new_env_n0 maxDt courant g rho nu surf ratio c (l_0 : R) minX maxX env L :
    new_env cfg (maxDt : Rnum) courant g rho nu surf ratio c l_0 minX maxX = Some env ->
    0 < l_0 -> lattice_within d ratio L ->
    eN0 env = rsum (map (fun z => wt (znorm z) ratio) L) /\
    eLambda env = rsum (map (fun z => (l_0 * znorm z) ^ 2 * wt (znorm z) ratio) L) / eN0 env.
  Proof.
    unfold new_env. destruct (nceil _) as [range|] eqn:E; [|done]. destruct (_ || _)%bool; [done|]. intros [= <-] Hl HL.
    simpl in E. apply to_index_Some in E as ->. pose proof (Zceil_ub ratio) as Hub.
    pose proof (lattice_idx_within (cfg := cfg) ratio _ Hub) as HI.
    cbn [eN0 eLambda]. change (@nofZ Rnum 0) with 0.
    rewrite (lattice_fold (l_0 : Rnum) (@nmul Rnum ratio l_0)) by (try apply HI; lra). simpl. rewrite !Rplus_0_l.
    assert (forall z, wt (l_0 * znorm z) (ratio * l_0) = wt (znorm z) ratio) as Hw.
    { intros z. rewrite (Rmult_comm ratio). by apply wt_scale. }
    assert (forall z, wt (znorm z) ratio <> 0 -> znorm z <> 0 /\ znorm z < ratio) as Hz.
    { intros z Hz. pose proof (wt_nonneg (znorm z) ratio). assert (0 < znorm z < ratio); [apply wt_pos_iff; lra|lra]. }
    assert (rsum (map (fun z => wt (l_0 * znorm z) (ratio * l_0)) (lattice_idx (dimn d) (Zceil ratio)))
            = rsum (map (fun z => wt (znorm z) ratio) L)) as E1.
    { erewrite rsum_map_ext; [|intros z _; apply Hw]. by apply (lattice_sum_eq (cfg := cfg) ratio). }
    split; [exact E1|]. rewrite E1. f_equal.
    erewrite rsum_map_ext; [|intros z _; rewrite Hw; reflexivity].
    erewrite (lattice_sum_eq (cfg := cfg) ratio _ _ L HI HL).
    - apply rsum_map_ext. intros z _. simpl. ring.
    - intros z H. apply Hz. intros H0. rewrite H0 in H. lra.
  Qed.

  (** C13.  N0 is the sum of the weights of the non-zero lattice points, whatever finite set [L] of
      lattice points containing those within the radius one sums over; it does not
      depend on the spacing. *)
  Theorem C13_reference_density maxDt courant g rho nu surf ratio c (l_0 : R) minX maxX env L :
    new_env cfg (maxDt : Rnum) courant g rho nu surf ratio c l_0 minX maxX = Some env -> 0 < l_0 ->
    lattice_within d ratio L ->
    eN0 env = rsum (map (fun z => wt (l_0 * znorm z) (eRe env)) L) /\
    eN0 env = rsum (map (fun z => wt (znorm z) ratio) L).
  Proof.
    intros H Hl HL. destruct (new_env_n0 _ _ _ _ _ _ _ _ _ _ _ _ _ H Hl HL) as [E _]. split; [|done]. rewrite E.
    apply rsum_map_ext. intros z _.
    assert (eRe env = l_0 * ratio) as ->.
    { revert H. unfold new_env. destruct (nceil _); [|done]. destruct (_ || _)%bool; [done|]. intros [= <-]. simpl. ring. }
    symmetry. by apply wt_scale.
  Qed.
  (** Likewise lambda: the weighted mean of the squared distances. *)
  Theorem C13_lambda maxDt courant g rho nu surf ratio c (l_0 : R) minX maxX env L :
    new_env cfg (maxDt : Rnum) courant g rho nu surf ratio c l_0 minX maxX = Some env -> 0 < l_0 ->
    lattice_within d ratio L ->
    eLambda env = rsum (map (fun z => (l_0 * znorm z) ^ 2 * wt (znorm z) ratio) L) / eN0 env.
  Proof. intros H Hl HL. apply (new_env_n0 _ _ _ _ _ _ _ _ _ _ _ _ _ H Hl HL). Qed.

  Lemma lattice_exists r : exists L, lattice_within d r L.
  Proof. exists (lattice_idx (dimn d) (Zceil r)). apply lattice_idx_within, Zceil_ub. Qed.

  Theorem C13_independent_of_spacing maxDt courant g rho nu surf ratio c (l_0 : R) minX maxX env
      maxDt' courant' g' rho' nu' surf' c' (l_0' : R) minX' maxX' env' :
    new_env cfg (maxDt : Rnum) courant g rho nu surf ratio c l_0 minX maxX = Some env -> 0 < l_0 ->
    new_env cfg (maxDt' : Rnum) courant' g' rho' nu' surf' ratio c' l_0' minX' maxX' = Some env' -> 0 < l_0' ->
    eN0 env = eN0 env'.
  Proof.
    intros H Hl H' Hl'. destruct (lattice_exists ratio) as [L HL].
    destruct (C13_reference_density _ _ _ _ _ _ _ _ _ _ _ _ _ H Hl HL) as [_ ->].
    by destruct (C13_reference_density _ _ _ _ _ _ _ _ _ _ _ _ _ H' Hl' HL) as [_ ->].
  Qed.
  Theorem C13_positive_iff maxDt courant g rho nu surf ratio c (l_0 : R) minX maxX env :
    new_env cfg (maxDt : Rnum) courant g rho nu surf ratio c l_0 minX maxX = Some env -> 0 < l_0 ->
    0 <= eN0 env /\ (0 < eN0 env <-> eL0 env < eRe env).
  Proof.
    intros H Hl. destruct (lattice_exists ratio) as [L HL].
    destruct (C13_reference_density _ _ _ _ _ _ _ _ _ _ _ _ _ H Hl HL) as [_ E].
    assert (eRe env = ratio * l_0 /\ eL0 env = l_0) as [-> ->].
    { revert H. unfold new_env. destruct (nceil _); [|done]. destruct (_ || _)%bool; [done|]. intros [= <-]. done. }
    assert (0 <= eN0 env) as Hn by (rewrite E; apply rsum_map_nonneg; intros; apply wt_nonneg).
    split; [done|]. split.
    - intros Hp. assert (1 < ratio); [|nra]. destruct (Rlt_dec 1 ratio); [done|]. exfalso.
      assert (eN0 env = 0); [|lra]. rewrite E. apply rsum_map_zero. intros z _.
      destruct (Req_dec (wt (znorm z) ratio) 0) as [|Hz]; [done|]. pose proof (wt_nonneg (znorm z) ratio).
      assert (0 < znorm z < ratio) as Hb by (apply wt_pos_iff; lra). pose proof (znorm_ge_1 z). lra.
    - intros Hr. assert (1 < ratio) as H1 by nra. rewrite E.
      set (z1 := 1%Z :: replicate (dimn d - 1) 0%Z).
      assert (znorm z1 = 1) as Hz1.
      { unfold znorm, z1. simpl. rewrite rsum_map_zero; [rewrite Rmult_1_r, Rplus_0_r; apply sqrt_1|].
        intros a Ha. apply elem_of_replicate in Ha as [-> _]. simpl. ring. }
      apply Rlt_le_trans with (wt (znorm z1) ratio); [apply wt_pos_iff; rewrite Hz1; lra|].
      apply (rsum_map_ge (fun z => wt (znorm z) ratio)); [intros; apply wt_nonneg|].
      apply HL; [|rewrite Hz1; lra..]. unfold z1. simpl. rewrite replicate_length. pose proof (dimn_pos d). lia.
  Qed.
  (** The constructor succeeds for every reasonable radius. *)
  Theorem C13_constructor_defined maxDt courant g rho nu surf (ratio : R) c (l_0 : R) minX maxX :
    0 <= ratio <= 1000000 ->
    is_Some (new_env cfg (maxDt : Rnum) courant g rho nu surf ratio c l_0 minX maxX).
  Proof.
    intros [H0 H1]. unfold new_env. simpl. unfold to_index.
    assert (0 <= Zceil ratio <= 1000000)%Z as Hz.
    { split; [|by apply Zceil_glb]. apply le_IZR. pose proof (Zceil_ub ratio). simpl. lra. }
    assert (((- 2 ^ 63 <=? Zceil ratio) && (Zceil ratio <? 2 ^ 63))%Z = true) as -> by lia.
    assert (((Zceil ratio <? -2 ^ 31) || (2 ^ 31 <=? Zceil ratio))%Z = false) as -> by lia. done.
  Qed.

  (** ** C15 *)
  Theorem C15_limits maxDt courant g rho nu surf ratio c (l_0 : R) minX maxX env :
    new_env cfg (maxDt : Rnum) courant g rho nu surf ratio c l_0 minX maxX = Some env ->
    eMaxDt env <= maxDt /\
    eMaxDt env <= (if cExplicit cfg then courant * l_0 / c else R_sqrt.sqrt (2 * (courant * l_0) / g)) /\
    (eMaxDt env = maxDt \/
     eMaxDt env = (if cExplicit cfg then courant * l_0 / c else R_sqrt.sqrt (2 * (courant * l_0) / g))) /\
    (0 <= courant -> 0 <= ratio -> 0 <= l_0 -> eRe env <= eNL env) /\
    (0 < courant -> 0 < ratio -> 0 < l_0 -> eRe env < eNL env).
  Proof.
    unfold new_env. destruct (nceil _) as [range|] eqn:E; [|done]. destruct (_ || _)%bool; [done|]. intros [= <-].
    cbn [eMaxDt eRe eNL]. rewrite !nmin_R. simpl.
    set (lim := if cExplicit cfg then courant * l_0 / c else R_sqrt.sqrt (2 * (courant * l_0) / g)).
    assert ((if cExplicit cfg then Rmin maxDt (courant * l_0 / c) else Rmin maxDt (R_sqrt.sqrt (2 * (courant * l_0) / g)))
            = Rmin maxDt lim) as -> by (unfold lim; by destruct (cExplicit cfg)).
    split; [apply Rmin_l|]. split; [apply Rmin_r|]. split.
    { unfold Rmin. destruct (Rle_dec _ _); auto. }
    split.
    - intros. assert (0 <= ratio * l_0) by (by apply Rmult_le_pos). nra.
    - intros. assert (0 < ratio * l_0) by (by apply Rmult_lt_0_compat). nra.
  Qed.
  (** All the constants, from the constructor's arguments. *)
  Theorem C15_constants {N : num} (cfg' : config) maxDt courant g rho nu surf ratio c l_0 minX maxX (env : environment N cfg') :
    new_env cfg' maxDt courant g rho nu surf ratio c l_0 minX maxX = Some env ->
    eT env = nofZ 0 /\ eDt env = nofZ 0 /\ eL0 env = l_0 /\ eRho env = rho /\ eNu env = nu /\ eSurf env = surf /\ eC env = c /\
    eMinX env = minX /\ eMaxX env = maxX /\ eMaxDx env = courant ×. l_0 /\ eRe env = ratio ×. l_0 /\
    eNL env = ratio ×. l_0 ×. (nofZ 1 +. courant ×. nofZ 2) /\
    eMaxDt env = nmin maxDt (if cExplicit cfg' then (courant ×. l_0) /. c else nsqrt (nofZ 2 ×. (courant ×. l_0) /. g)) /\
    forall k, (k < dimn (cDim cfg'))%nat -> tget (cDim cfg') (eG env) k = if Nat.eqb k (dimn (cDim cfg') - 1) then nopp g else nofZ 0.
  Proof.
    unfold new_env. destruct (nceil _) as [range|]; [|done]. destruct (_ || _)%bool; [done|]. intros [= <-].
    cbn [eT eDt eL0 eRho eNu eSurf eC eMinX eMaxX eMaxDx eRe eNL eMaxDt eG]. do 12 (split; [done|]). split; [by destruct (cExplicit cfg')|].
    intros k Hk. rewrite tget_tmk by done. unfold axis_z. by destruct (cDim cfg').
  Qed.
  (** Falling from rest for the longest step covers at most MaxDx. *)
  Theorem C15_gravity maxDt courant (g : R) rho nu surf ratio c (l_0 : R) minX maxX env :
    new_env cfg (maxDt : Rnum) courant g rho nu surf ratio c l_0 minX maxX = Some env ->
    cExplicit cfg = false -> 0 < g -> 0 <= courant -> 0 <= l_0 -> 0 <= maxDt ->
    0 <= eMaxDt env /\ 1 / 2 * g * (eMaxDt env) ^ 2 <= eMaxDx env.
  Proof.
    intros H HE Hg Hc Hl Hm. pose proof (C15_limits _ _ _ _ _ _ _ _ _ _ _ _ H) as (_ & H2 & H3 & _). rewrite HE in H2, H3.
    assert (eMaxDx env = courant * l_0) as Hdx.
    { revert H. unfold new_env. destruct (nceil _); [|done]. destruct (_ || _)%bool; [done|]. intros [= <-]. done. }
    set (q := 2 * (courant * l_0) / g) in *.
    assert (0 <= q) as Hq. { unfold q. apply Rmult_le_pos; [|left; by apply Rinv_0_lt_compat]. assert (0 <= courant * l_0) by (by apply Rmult_le_pos). lra. }
    pose proof (sqrt_pos q) as Hsp. assert (0 <= eMaxDt env) as Hp by (destruct H3 as [-> | ->]; done). split; [done|].
    rewrite Hdx. assert (eMaxDt env ^ 2 <= q) as Hs.
    { rewrite <- (sqrt_sqrt q) by done. simpl. rewrite Rmult_1_r. by apply Rmult_le_compat. }
    apply Rle_trans with (1 / 2 * g * q); [apply Rmult_le_compat_l; [lra|done]|]. unfold q. right. field. lra.
  Qed.
End Env.

(** ** C16 *)
Section Dt.
  Context {cfg : config} {wm : wallmotion Rnum (cDim cfg)}.
  Notation d := (cDim cfg).
  Notation part := (particle Rnum d).
  Notation computer := (computer cfg wm).
  Implicit Types (s : computer) (p q : part) (env : environment Rnum cfg).

  Lemma max_u_spec (ps : list part) p : let m := foldl max_u_step p ps in
    (m = p \/ m ∈ ps) /\ forall q, q = p \/ q ∈ ps -> inner (pU q) (pU q) <= inner (pU m) (pU m).
  Proof.
    revert p; induction ps as [|a ps IH]; intros p; simpl.
    - split; [by left|]. intros q [->|Hq]; [lra|]. by apply elem_of_nil in Hq.
    - destruct (IH (max_u_step p a)) as [H1 H2].
      assert (inner (pU p) (pU p) <= inner (pU (max_u_step p a)) (pU (max_u_step p a)) /\
              inner (pU a) (pU a) <= inner (pU (max_u_step p a)) (pU (max_u_step p a)) /\
              (max_u_step p a = p \/ max_u_step p a = a)) as (Ma & Mb & Mc).
      { unfold max_u_step. destruct (@nltb Rnum (vdot (pU p) (pU p)) (vdot (pU a) (pU a))) eqn:E; rewrite !vdot_inner in E.
        - apply Rltb_true in E. split; [lra|]. split; [lra|]. by right.
        - apply Rltb_false in E. split; [lra|]. split; [lra|]. by left. }
      split.
      + destruct H1 as [-> | H1]; [|right; by right]. destruct Mc as [-> | ->]; [by left|]. right. by left.
      + intros q Hq. specialize (H2 (max_u_step p a) (or_introl eq_refl)) as H3.
        destruct Hq as [->|Hq]; [lra|]. apply elem_of_cons in Hq as [->|Hq]; [lra|]. apply H2. by right.
  Qed.

  Lemma determine_spec s (dt : R) : 0 < eMaxDx (cEnv s) -> 0 < eMaxDt (cEnv s) -> determine_dt s = Some dt ->
    (0 < dt /\ dt <= eMaxDt (cEnv s)) /\
    (forall p, p ∈ cParts s -> len (pU p) * dt <= eMaxDx (cEnv s)) /\
    (forall dt', dt' <= eMaxDt (cEnv s) -> (forall p, p ∈ cParts s -> len (pU p) * dt' <= eMaxDx (cEnv s)) -> dt' <= dt).
  Proof.
    intros Hdx Hdt. unfold determine_dt. destruct (cParts s) as [|p0 ps]; [done|].
    destruct (max_u_spec ps p0) as [Hm1 Hm2]. set (m := foldl max_u_step p0 ps) in *. cbv zeta. rewrite vnorm_len.
    assert (forall q, q ∈ p0 :: ps -> len (pU q) <= len (pU m)) as Hmax.
    { intros q Hq. unfold len. apply sqrt_le_1_alt, Hm2. by apply elem_of_cons in Hq. }
    assert (m ∈ p0 :: ps) as Hm by (by apply elem_of_cons).
    pose proof (len_nonneg (pU m)) as Hpos.
    destruct (@neqb Rnum (len (pU m)) (nofZ 0)) eqn:E.
    - apply Reqb_true in E. simpl in E. intros [= <-]. split; [split; lra|]. split; [|intros; lra].
      intros p Hp. specialize (Hmax p Hp). pose proof (len_nonneg (pU p)). assert (len (pU p) = 0) as -> by lra. lra.
    - apply Reqb_false in E. simpl in E. assert (0 < len (pU m)) as Hl by lra. intros [= <-]. rewrite nmin_R. simpl.
      set (q := eMaxDx (cEnv s) / len (pU m)).
      assert (0 < q) as Hq by (by apply Rdiv_lt_0_compat).
      assert (q * len (pU m) = eMaxDx (cEnv s)) as Eq by (unfold q; field; lra).
      pose proof (Rmin_l q (eMaxDt (cEnv s))) as B1. pose proof (Rmin_r q (eMaxDt (cEnv s))) as B2.
      assert (0 < Rmin q (eMaxDt (cEnv s))) as B0 by (by apply Rmin_pos).
      split; [split; [done|apply Rmin_r]|]. split.
      + intros p Hp. specialize (Hmax p Hp). pose proof (len_nonneg (pU p)). nra.
      + intros dt' H1 H2. apply Rmin_glb; [|done]. specialize (H2 m Hm).
        apply (Rmult_le_reg_r (len (pU m))); [done|]. lra.
  Qed.

  (** C16. The step [ForwardTime()] takes, in any reachable state: positive, at most MaxDt, no particle
      faster than MaxDx per step, and the largest such step. *)
  Theorem C16_cfl env0 s (dt : R) :
    0 < eMaxDx env0 -> 0 < eMaxDt env0 -> square_ground env0 -> reachable env0 s -> determine_dt s = Some dt ->
    (0 < dt <= eMaxDt env0) /\
    (forall p, p ∈ cParts s -> len (pU p) * dt <= eMaxDx env0) /\
    (forall dt', dt' <= eMaxDt env0 -> (forall p, p ∈ cParts s -> len (pU p) * dt' <= eMaxDx env0) -> dt' <= dt).
  Proof.
    intros Hdx Hdt Hsq Hr H. destruct (reachable_geom env0 s Hsq Hr) as (_ & _ & HE).
    apply same_constants_fields in HE as (_ & E1 & E2 & _). rewrite <- E1, <- E2 in *. by apply determine_spec.
  Qed.
  Theorem C16_at_rest env0 s :
    square_ground env0 -> reachable env0 s -> cParts s <> [] -> (forall p, p ∈ cParts s -> pU p = vzero) ->
    determine_dt s = Some (eMaxDt env0).
  Proof.
    intros Hsq Hr Hne H. destruct (reachable_geom env0 s Hsq Hr) as (_ & _ & HE).
    apply same_constants_fields in HE as (_ & E1 & _). rewrite <- E1. unfold determine_dt.
    destruct (cParts s) as [|p0 ps]; [done|]. destruct (max_u_spec ps p0) as [Hm _]. cbv zeta.
    set (m := foldl max_u_step p0 ps) in *. rewrite vnorm_len, (H m) by (by apply elem_of_cons).
    assert (len (vzero : vec Rnum d) = 0) as -> by (by apply len_zero_iff).
    assert (@neqb Rnum 0 (nofZ 0) = true) as ->; [|done]. by apply Reqb_true.
  Qed.
End Dt.

(** Property theorems: number density, virtual surface particles, source term, error
    correction (C14, C18, C19, C21, C22). *)
From Coq Require Import ZifyBool.
From Verif Require Import S_Terms.
From Verif Require Import P_Lattice P_Neigh T_Env T_Search.
Open Scope R_scope.

Section Density.
  Context {cfg : config} {wm : wallmotion Rnum (cDim cfg)}.
  Notation d := (cDim cfg).
  Notation V := (vec Rnum d).
  Notation part := (particle Rnum d).
  Notation computer := (computer cfg wm).
  Implicit Types (s : computer) (p q : part) (env : environment Rnum cfg).

  Lemma is_active_true p : is_active (pT p) = true <-> fluid_or_wall p.
  Proof. unfold fluid_or_wall. destruct (pT p); simpl; split; (done || intros []; done). Qed.
  Lemma is_active_false p : is_active (pT p) = false <-> pT p = Dummy \/ pT p = Disabled.
  Proof. destruct (pT p); simpl; split; intros H; auto; try done; by destruct H. Qed.
  Lemma ms_nws_at s i p : midstep s -> cParts s !! i = Some p -> is_Some (cNws s !! i).
  Proof. intros H Hp. apply lookup_lt_is_Some_2. rewrite (ms_nws s H). by eapply lookup_lt_Some. Qed.
  Lemma close_sum_ext r s i (f g : nat -> part -> R) :
    (forall j q, cParts s !! j = Some q -> close r s i j -> f j q = g j q) -> close_sum r s i f = close_sum r s i g.
  Proof.
    intros H. unfold close_sum. apply sum_n_ext. intros j Hj. destruct (decide (close r s i j)) as [C|]; [|done].
    unfold at_part. destruct (cParts s !! j) eqn:E; [|done]. by apply H.
  Qed.

  (** ** C18 *)
  Lemma dens_active s s' i p :
    midstep s -> compute_densities s = Some s' -> cParts s !! i = Some p -> fluid_or_wall p ->
    cParts s' !! i = Some (set_N ((if cSPP cfg then Rmax (eN0 (cEnv s)) (raw_density s i p) else raw_density s i p) : Rnum) p) /\
    cNws s' !! i = Some (raw_density s i p : Rnum).
  Proof.
    intros Hm H Hp Ha. pose proof (dens_at s s' i p H Hp) as D. rewrite (proj2 (is_active_true p) Ha) in D.
    destruct D as (n & Hn & HP & HN).
    set (s1 := with_nws s (<[i := eN0 (cEnv s)]> (cNws s))) in *.
    assert (n = raw_density s i p) as ->.
    { rewrite (acc_R s1 i p) in Hn; [|left; apply Hm|apply Hm|done|apply Ha|].
      2:{ unfold s1. cbn [cNws with_nws]. rewrite list_lookup_insert; [done|]. rewrite (ms_nws s Hm). by eapply lookup_lt_Some. }
      injection Hn as <-. rewrite <- (Rplus_0_r (raw_density s i p)). f_equal.
      - apply (close_sum_ext (eRe (cEnv s)) s i). intros j q _ _. unfold dens_func.
        assert ((Z.of_nat j <? 0)%Z = false) as -> by lia. rewrite andb_false_r. by rewrite dist_edist, weight_wt.
      - unfold of_virtual. destruct (virtual s1 i p) eqn:Ev; [|done]. unfold virtual in Ev. unfold dens_func.
        destruct (cSPP cfg); [done|]. done. }
    split; [|done]. rewrite HP. destruct (cSPP cfg); [|done]. rewrite nmax_R. by rewrite Rmax_comm.
  Qed.

  (** C18.  The density phase, in any state in which sums can be formed. *)
  Theorem C18_density_phase s s' i p :
    midstep s -> compute_densities s = Some s' -> cParts s !! i = Some p ->
    exists p', cParts s' !! i = Some p' /\
      pX p' = pX p /\ pU p' = pU p /\ pP p' = pP p /\ pT p' = pT p /\
      (fluid_or_wall p -> cSPP cfg = true -> pN p' = Rmax (eN0 (cEnv s)) (raw_density s i p) /\ eN0 (cEnv s) <= pN p') /\
      (fluid_or_wall p -> cSPP cfg = false -> pN p' = raw_density s i p) /\
      (~ fluid_or_wall p -> pN p' = pN p).
  Proof.
    intros Hm H Hp. destruct (is_active (pT p)) eqn:E.
    - apply is_active_true in E. destruct (dens_active s s' i p Hm H Hp E) as [HP _]. eexists. split; [exact HP|].
      do 4 (split; [done|]). cbn [pN set_N]. split; [|split].
      + intros _ ->. split; [done|]. apply Rmax_l.
      + intros _ ->. done.
      + intros. done.
    - pose proof (dens_at s s' i p H Hp) as D. rewrite E in D. destruct D as [D _].
      exists p. split; [done|]. do 4 (split; [done|]).
      assert (~ fluid_or_wall p) as Hn by (intros Hf; apply is_active_true in Hf; congruence).
      split; [by intros|]. split; [by intros|]. done.
  Qed.

  Lemma trace_env dt s s1 s2 s3 s4 s5 s6 s7 s8 s' :
    step_trace dt s s1 s2 s3 s4 s5 s6 s7 s8 -> s' ∈ [s1; s2; s3; s4; s5; s6; s7; s8] -> cEnv s' = cEnv (start_step dt s).
  Proof.
    intros HT Hin. rewrite (pr_env _ _ (trace_phase _ _ _ _ _ _ _ _ _ _ HT s' Hin)).
    destruct (search_frame (start_step dt s) s1) as [-> _]; [|done]. by rewrite (st_search _ _ _ _ _ _ _ _ _ _ HT).
  Qed.
  (** C18 for a whole step: the density a particle ends up with is that of the configuration reached
      by the explicit phase ([s4]). *)
  Theorem C18_step env0 dt s s1 s2 s3 s4 s5 s6 s7 s' i p4 p' :
    square_ground env0 -> 0 < eNL env0 -> 0 < eRe env0 -> reachable env0 s ->
    step_trace dt s s1 s2 s3 s4 s5 s6 s7 s' ->
    moved_at_most ((eNL env0 - eRe env0) / 2) s s4 ->
    cParts s4 !! i = Some p4 -> cParts s' !! i = Some p' ->
    pT p' = pT p4 /\
    (fluid_or_wall p' -> pN p' = if cSPP cfg then Rmax (eN0 env0) (raw_density s4 i p4) else raw_density s4 i p4) /\
    (~ fluid_or_wall p' -> pN p' = pN p4).
  Proof.
    intros Hsq HNL HRe Hr HT Hm Hp4 Hp'.
    assert (midstep s4) as M4 by (eapply C11_midstep; try done; rewrite !elem_of_cons; tauto).
    assert (eN0 (cEnv s4) = eN0 env0) as HN0.
    { rewrite (trace_env _ _ _ _ _ _ _ _ _ _ _ HT) by (rewrite !elem_of_cons; tauto). simpl.
      destruct (reachable_geom env0 s Hsq Hr) as (_ & _ & HE). by apply same_constants_fields in HE as (-> & _). }
    assert (exists p, cParts s !! i = Some p) as [p Hp].
    { apply lookup_lt_is_Some_2. assert (psize s4 = length (cParts s)) as <-; [|by eapply lookup_lt_Some].
      rewrite (pr_size _ _ (trace_phase _ _ _ _ _ _ _ _ _ _ HT s4 ltac:(rewrite !elem_of_cons; tauto))).
      destruct (search_frame (start_step dt s) s1) as [_ HF]; [by rewrite (st_search _ _ _ _ _ _ _ _ _ _ HT)|].
      apply Forall2_length in HF. symmetry. exact HF. }
    destruct (step_particle _ _ _ _ _ _ _ _ _ _ _ _ HT Hp)
      as (p1 & Hp1 & Hk & n1 & _ & _ & _ & p4' & Hp4' & T4 & _ & _ & n2 & Hp5 & _ & _ & p7 & _ & _ & _ & p8 & Hp8 & T8 & _ & N8).
    assert (p4' = p4) as -> by congruence. assert (p8 = p') as -> by congruence.
    split; [congruence|].
    assert (fluid_or_wall p' <-> fluid_or_wall p4) as Hfw by (unfold fluid_or_wall; by rewrite T8, T4).
    destruct (C18_density_phase s4 s5 i p4 M4 (st_dens2 _ _ _ _ _ _ _ _ _ _ HT) Hp4)
      as (p5 & Hp5' & _ & _ & _ & _ & D1 & D2 & D3).
    assert (pN p5 = n2) as HN by (rewrite Hp5 in Hp5'; injection Hp5' as <-; done). rewrite N8, <- HN, Hfw, <- HN0. split.
    - intros Hf. destruct (cSPP cfg); [by apply D1|by apply D2].
    - done.
  Qed.

  (** ** C14 *)
  Lemma vadd_sub (a b : V) : a -^ (a +^ b) = (-1 : Rnum) *^ b.
  Proof. apply coord_ext. intros k Hk. rewrite coord_sub, coord_add, coord_scal by done. ring. Qed.
  Lemma lattice_density maxDt courant g rho nu surf ratio c (l_0 : R) minX maxX env s i p :
    new_env cfg (maxDt : Rnum) courant g rho nu surf ratio c l_0 minX maxX = Some env -> 0 < l_0 ->
    in_lattice l_0 (eRe env) s i p -> eRe (cEnv s) = eRe env -> raw_density s i p = eN0 env.
  Proof.
    intros H Hl (site & Hon & Hinj & Hfull) HRe. unfold raw_density. rewrite HRe. set (r := eRe env) in *.
    set (js := filter (close r s i) (seq 0 (psize s))).
    assert (eRe env = ratio * l_0) as Hr.
    { revert H. unfold new_env. destruct (nceil _); [|done]. destruct (_ || _)%bool; [done|]. intros [= <-]. done. }
    assert (forall j, j ∈ js <-> close r s i j) as Hjs.
    { intros j. unfold js. rewrite elem_of_list_filter. split; [tauto|]. intros C. split; [done|].
      destruct C as (_ & _ & q & _ & Hq & _). apply elem_of_seq. apply lookup_lt_Some in Hq. unfold psize. lia. }
    assert (lattice_within d ratio (map site js)) as HL.
    { split.
      - apply NoDup_fmap_2_strong; [|apply list.NoDup_filter, NoDup_seq]. intros j k Hj Hk. rewrite Hjs in Hj, Hk. by apply Hinj.
      - intros z Hz. apply elem_of_list_fmap in Hz as (j & -> & Hj). apply Hjs in Hj. destruct Hj as (Hne & p0 & q & Hp0 & Hq & Hr').
        apply (Hon j q); [|done]. split; [done|]. eauto 10.
      - intros z Hz Hn Hlt. destruct (Hfull z Hz Hn) as (j & Hj & <-); [unfold r; rewrite Hr; nra|].
        apply elem_of_list_fmap. exists j. split; [done|]. by apply Hjs. }
    destruct (C13_reference_density _ _ _ _ _ _ _ _ _ _ _ _ _ H Hl HL) as [-> _].
    rewrite map_map. rewrite <- close_sum_filter. apply rsum_map_ext. intros j Hj. apply Hjs in Hj as C.
    destruct C as (Hne & p0 & q & Hp0 & Hq & Hr'). rewrite (at_part_eq s j q) by done.
    destruct (Hon j q) as (L1 & L2 & ->); [split; [done|]; eauto 10|done|]. f_equal.
    rewrite edist_len, vadd_sub, len_scal, len_lattice_vec by (done || lra). rewrite Rabs_left; lra.
  Qed.
  Theorem C14_lattice_density maxDt courant g rho nu surf ratio c (l_0 : R) minX maxX env s s' i p :
    new_env cfg (maxDt : Rnum) courant g rho nu surf ratio c l_0 minX maxX = Some env -> 0 < l_0 ->
    same_constants env (cEnv s) -> midstep s -> compute_densities s = Some s' ->
    cParts s !! i = Some p -> fluid_or_wall p -> in_lattice l_0 (eRe env) s i p ->
    raw_density s i p = eN0 env /\ exists p', cParts s' !! i = Some p' /\ pN p' = eN0 env.
  Proof.
    intros H Hl HE Hm HD Hp Hf HL. apply same_constants_fields in HE as (E1 & _ & _ & _ & E2 & _).
    assert (raw_density s i p = eN0 env) as HR by (by eapply lattice_density). split; [done|].
    destruct (dens_active s s' i p Hm HD Hp Hf) as [HP _]. eexists. split; [exact HP|]. simpl.
    rewrite HR, E1. destruct (cSPP cfg); [|done]. apply Rmax_left. lra.
  Qed.

  (** ** C19 *)
  (** C19.  Which virtual particle takes part in the neighbour sums of particle [i] (for scalar and vector
      summands [f], [fv]; number -1 stands for it), if [n] is the raw density on record. *)
  Theorem C19_virtual_particle s i p (n : R) :
    midstep s -> cSPP cfg = true -> cParts s !! i = Some p -> enabled p -> cNws s !! i = Some (n : Rnum) ->
    n < eN0 (cEnv s) -> / 2 ^ 52 < len (centroid s i p) ->
    exists v,
      (forall f : Z -> part -> R, acc s i (@nofZ Rnum 0) (@nadd Rnum) f =
         Some (close_sum (eRe (cEnv s)) s i (fun j q => f (Z.of_nat j) q) + f (-1)%Z v)) /\
      (forall f : Z -> part -> V, acc s i vzero vadd f =
         Some (close_vsum (eRe (cEnv s)) s i (fun j q => f (Z.of_nat j) q) +^ f (-1)%Z v)) /\
      edist (pX p) (pX v) = eRe (cEnv s) / (eN0 (cEnv s) - n + 1) /\
      wt (edist (pX p) (pX v)) (eRe (cEnv s)) = eN0 (cEnv s) - n /\
      (exists k : R, 0 < k /\ pX v -^ pX p = (- k : Rnum) *^ centroid s i p) /\
      pU v = pU p /\ pP v = 0 /\ pT v = Newton.
  Proof.
    intros Hm HS Hp He Hn Hlt Hc.
    set (v := mkParticle (pX p -^ (eRe (cEnv s) / (eN0 (cEnv s) - n + 1) / len (centroid s i p) : Rnum) *^ centroid s i p) (pU p) (0 : Rnum) (0 : Rnum) Newton : part).
    assert (virtual s i p = Some v) as Hv.
    { unfold virtual. rewrite HS. destruct (cNws s !! i) as [n'|]; [|done]. injection Hn as ->. destruct (Rlt_dec n _); [|done]. destruct (Rlt_dec _ _); [|done]. done. }
    pose proof (ms_re s Hm) as Hre. pose proof (ms_nws_at s i p Hm Hp) as Hw. pose proof (ms_cover s Hm) as HC.
    set (re := eRe (cEnv s)) in *. set (w := eN0 (cEnv s) - n) in *. assert (0 < w) as Hwp by (unfold w; lra).
    assert (0 < len (centroid s i p)) as Hl by (pose proof (Rinv_0_lt_compat (2 ^ 52) ltac:(lra)); lra).
    set (c := centroid s i p) in *.
    assert (0 < re / (w + 1) / len c) as Hk by (apply Rdiv_lt_0_compat; [apply Rdiv_lt_0_compat; lra|done]).
    assert (edist (pX p) (pX v) = re / (w + 1)) as Hdist.
    { rewrite edist_len. simpl pX. replace (pX p -^ (pX p -^ (re / (w + 1) / len c : Rnum) *^ c)) with ((re / (w + 1) / len c : Rnum) *^ c).
      - rewrite len_scal, Rabs_right by lra. field. split; lra.
      - apply coord_ext. intros k Hkd. rewrite !coord_sub by done. ring. }
    exists v. split; [|split; [|split; [exact Hdist|split]]].
    - intros f. rewrite (acc_R s i p f (Rlt_le _ _ Hre) HC Hp He Hw). unfold of_virtual. by rewrite Hv.
    - intros f. rewrite (acc_V s i p f (Rlt_le _ _ Hre) HC Hp He Hw). unfold of_virtual. by rewrite Hv.
    - rewrite Hdist. assert (0 < re / (w + 1) < re) as [B1 B2].
      { split; [apply Rdiv_lt_0_compat; lra|]. apply (Rmult_lt_reg_r (w + 1)); [lra|]. unfold Rdiv. rewrite Rmult_assoc, Rinv_l by lra. nra. }
      unfold wt. destruct (Rlt_dec 0 _); [|done]. destruct (Rlt_dec _ re); [|done]. unfold w in *. field. lra.
    - split; [|done]. exists (re / (w + 1) / len c). split; [done|]. simpl pX. apply coord_ext. intros k Hkd.
      rewrite !coord_sub, !coord_scal by done. ring.
  Qed.
  Theorem C19_no_virtual_particle s i p (n : R) :
    midstep s -> cParts s !! i = Some p -> enabled p -> cNws s !! i = Some (n : Rnum) ->
    cSPP cfg = false \/ eN0 (cEnv s) <= n \/ len (centroid s i p) <= / 2 ^ 52 ->
    (forall f : Z -> part -> R, acc s i (@nofZ Rnum 0) (@nadd Rnum) f =
       Some (close_sum (eRe (cEnv s)) s i (fun j q => f (Z.of_nat j) q))) /\
    (forall f : Z -> part -> V, acc s i vzero vadd f =
       Some (close_vsum (eRe (cEnv s)) s i (fun j q => f (Z.of_nat j) q))).
  Proof.
    intros Hm Hp He Hn Hc. assert (virtual s i p = None) as Hv.
    { unfold virtual. destruct (cSPP cfg); [|done]. destruct (cNws s !! i) as [n'|]; [|done]. injection Hn as ->. destruct (Rlt_dec n _); [|done].
      destruct (Rlt_dec _ _); [|done]. destruct Hc as [?|[?|?]]; [done|lra|lra]. }
    pose proof (ms_re s Hm) as Hre. pose proof (ms_nws_at s i p Hm Hp) as Hw. pose proof (ms_cover s Hm) as HC.
    split; intros f.
    - rewrite (acc_R s i p f (Rlt_le _ _ Hre) HC Hp He Hw). unfold of_virtual. by rewrite Hv, Rplus_0_r.
    - rewrite (acc_V s i p f (Rlt_le _ _ Hre) HC Hp He Hw). unfold of_virtual. by rewrite Hv, vadd_0_r.
  Qed.

  (** Right after the density phase the number on record is the raw density, so that the virtual particle
      brings the weight sum to exactly N0. *)
  Theorem C19_fills_deficit s s' i p :
    midstep s -> cSPP cfg = true -> compute_densities s = Some s' -> cParts s !! i = Some p -> fluid_or_wall p ->
    raw_density s i p < eN0 (cEnv s) -> / 2 ^ 52 < len (centroid s i p) ->
    exists p', cParts s' !! i = Some p' /\ pX p' = pX p /\
      acc s' i (@nofZ Rnum 0) (@nadd Rnum) (fun _ q => wt (edist (pX p') (pX q)) (eRe (cEnv s'))) = Some (eN0 (cEnv s')).
  Proof.
    intros Hm HS HD Hp Hf Hlt Hc. destruct (dens_active s s' i p Hm HD Hp Hf) as [HP HN].
    pose proof (dens_rest s s' HD) as HR.
    assert (psize s' = psize s) as Hsz by (apply (pr_size s s'), dens_pr, HD).
    assert (cEnv s' = cEnv s) as HE by (by rewrite HR).
    assert (forall j q', cParts s' !! j = Some q' -> exists q, cParts s !! j = Some q /\ pX q' = pX q /\ pT q' = pT q) as Hback.
    { intros j q' Hq'. destruct (lookup_lt_is_Some_2 (cParts s) j) as [q Hq].
      { change (j < psize s)%nat. rewrite <- Hsz. by eapply lookup_lt_Some. }
      destruct (dens_keep s s' j q HD Hq) as (n & Hn & _). rewrite Hn in Hq'. injection Hq' as <-. eauto. }
    assert (forall r j, close r s' i j <-> close r s i j) as Hclose.
    { intros r j. unfold close. apply and_iff_compat_l. split.
      - intros (a & b & Ha & Hb & Hen & Hd). destruct (Hback i a Ha) as (a0 & Ha0 & Xa & _).
        destruct (Hback j b Hb) as (b0 & Hb0 & Xb & Tb). exists a0, b0. unfold enabled in *. rewrite <- Xa, <- Xb, <- Tb. done.
      - intros (a & b & Ha & Hb & Hen & Hd). destruct (dens_keep s s' i a HD Ha) as (na & Hna & _).
        destruct (dens_keep s s' j b HD Hb) as (nb & Hnb & _). eexists _, _. split; [exact Hna|]. split; [exact Hnb|]. done. }
    assert (lists_cover s') as HC.
    { intros k pk Hpk Hek. destruct (Hback k pk Hpk) as (pk0 & Hpk0 & Xk & Tk).
      destruct (ms_cover s Hm k pk0 Hpk0) as (l & Hl & Hnd & Hin & Hall); [unfold enabled in *; congruence|].
      exists l. split; [rewrite HR; exact Hl|]. split; [done|]. split.
      - intros j Hj. destruct (Hin j Hj) as (Hne & q & Hq & Heq). split; [done|].
        destruct (dens_keep s s' j q HD Hq) as (nq & Hnq & _). eauto.
      - intros j (Hne & a & b & Ha & Hb & Hen & Hd). apply Hall. split; [done|].
        destruct (Hback k a Ha) as (a0 & Ha0 & Xa & _). destruct (Hback j b Hb) as (b0 & Hb0 & Xb & Tb).
        exists a0, b0. unfold enabled in *. rewrite <- Xa, <- Xb, <- Tb, <- HE. done. }
    assert (midstep s') as Hm'.
    { split; [rewrite HE; apply Hm|done| |rewrite HR; apply Hm|rewrite HR; apply Hm].
      rewrite Hsz, <- (ms_nws s Hm). apply (pr_nws s s'), dens_pr, HD. }
    assert (forall f : part -> R, (forall q n, f (set_N n q) = f q) ->
      close_sum (eRe (cEnv s')) s' i (fun j q => f q) = close_sum (eRe (cEnv s)) s i (fun j q => f q)) as Hsum.
    { intros f Hf'. unfold close_sum. rewrite Hsz, HE. apply sum_n_ext. intros j Hj.
      destruct (decide (close _ s' i j)) as [C|C], (decide (close _ s i j)) as [C'|C'];
        try (exfalso; by (apply C, Hclose, C' || apply C', Hclose, C)); [|done].
      unfold at_part. destruct (cParts s !! j) as [q|] eqn:Eq.
      - destruct (dens_keep s s' j q HD Eq) as (n & Hn & _). rewrite Hn. apply Hf'.
      - destruct (cParts s' !! j) as [q'|] eqn:Eq'; [|done]. destruct (Hback j q' Eq') as (q & Hq & _). congruence. }
    eexists. split; [exact HP|]. split; [done|]. set (p' := set_N _ p).
    assert (len (centroid s' i p') = len (centroid s i p)) as Hcen.
    { f_equal. apply coord_ext. intros k Hk. unfold centroid, close_vsum. rewrite !coord_vsum_n by done. rewrite HE, Hsz.
      apply sum_n_ext. intros j Hj.
      destruct (decide (close _ s' i j)) as [C|C], (decide (close _ s i j)) as [C'|C'];
        try (exfalso; by (apply C, Hclose, C' || apply C', Hclose, C)); [|done].
      unfold at_part. destruct (cParts s !! j) as [q|] eqn:Eq.
      - destruct (dens_keep s s' j q HD Eq) as (n & Hn & _). rewrite Hn. done.
      - destruct (cParts s' !! j) as [q'|] eqn:Eq'; [|done]. destruct (Hback j q' Eq') as (q & Hq & _). congruence. }
    destruct (C19_virtual_particle s' i p' (raw_density s i p) Hm' HS HP) as (v & Hv & _ & _ & Hw & _);
      [apply Hf|done|by rewrite HE|by rewrite Hcen|].
    rewrite Hv. f_equal. rewrite Hw, (Hsum (fun q => wt (edist (pX p') (pX q)) (eRe (cEnv s')))) by done.
    rewrite HE. unfold raw_density. simpl. ring.
  Qed.
End Density.

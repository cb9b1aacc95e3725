(** Property theorems: pressure gradient, matrix inversion, explicit pressure (C35, C49, C50, C51). *)
From Coq Require Import ZifyBool.
From Verif Require Import S_Terms.
From Verif Require Import P_Ppe P_Force T_Force T_Ppe.
Open Scope R_scope.

(** ** C49 *)
Theorem C49_invert2 (m : mat Rnum D2) (val : R) i j : (i < 2)%nat -> (j < 2)%nat ->
  if Req_EM_T (determinant2 m) 0 then mget (minvert m (val : Rnum)) i j = val * kron i j
  else mmul (minvert m (val : Rnum)) m i j = kron i j /\ mmul m (minvert m (val : Rnum)) i j = kron i j.
Proof.
  intros Hi Hj. destruct m as [[a b] [c e]]. unfold minvert, invert2, mmul, determinant2, sum_n, rsum, kron, det2, mget, mident, mmk. simpl.
  destruct (Req_EM_T (a * e - b * c) 0) as [E|E].
  - destruct i as [|[|i]], j as [|[|j]]; try lia; simpl; ring.
  - destruct i as [|[|i]], j as [|[|j]]; try lia; simpl; split; field; done.
Qed.
(** In three dimensions the transposed inverse is returned ... *)
Theorem C49_invert3 (m : mat Rnum D3) (val : R) i j : (i < 3)%nat -> (j < 3)%nat ->
  if Req_EM_T (determinant3 m) 0 then mget (minvert m (val : Rnum)) i j = val * kron i j
  else sum_n 3 (fun k => mget (minvert m (val : Rnum)) k i * mget m k j) = kron i j /\
       sum_n 3 (fun k => mget m i k * mget (minvert m (val : Rnum)) j k) = kron i j.
Proof.
  intros Hi Hj. destruct m as [[[[a0 a1] a2] [[b0 b1] b2]] [[c0 c1] c2]].
  unfold minvert, invert3, determinant3, sum_n, rsum, kron, det3, det2, mget, mident, mmk. simpl.
  destruct (Req_EM_T (_ * (_ - _) - _ * _ + _) 0) as [E|E].
  - destruct (Req_EM_T _ _) as [_|N]; [|exfalso; apply N; lra]. destruct i as [|[|[|i]]], j as [|[|[|j]]]; try lia; simpl; ring.
  - destruct (Req_EM_T _ _) as [N|N]; [exfalso; apply E; lra|].
    destruct i as [|[|[|i]]], j as [|[|[|j]]]; try lia; simpl; split; field; lra.
Qed.
(** ... which for symmetric matrices is the inverse ... *)
Theorem C49_invert3_symmetric (m : mat Rnum D3) (val : R) i j : (i < 3)%nat -> (j < 3)%nat ->
  (forall a b, (a < 3)%nat -> (b < 3)%nat -> mget m a b = mget m b a) -> determinant3 m <> 0 ->
  mmul (minvert m (val : Rnum)) m i j = kron i j /\ mmul m (minvert m (val : Rnum)) i j = kron i j.
Proof.
  intros Hi Hj HS HD.
  assert (forall a b, (a < 3)%nat -> (b < 3)%nat -> mget (minvert m (val : Rnum)) a b = mget (minvert m (val : Rnum)) b a) as HT.
  { pose proof (HS 0%nat 1%nat ltac:(lia) ltac:(lia)) as S01. pose proof (HS 0%nat 2%nat ltac:(lia) ltac:(lia)) as S02. pose proof (HS 1%nat 2%nat ltac:(lia) ltac:(lia)) as S12.
    clear Hi Hj HS. destruct m as [[[[a0 a1] a2] [[b0 b1] b2]] [[c0 c1] c2]]. unfold mget in S01, S02, S12. simpl in S01, S02, S12. subst b0 c0 c1.
    intros a b Ha Hb. unfold minvert, invert3, det3, det2, mget, mident, mmk. simpl. destruct (Req_EM_T _ _) as [N|N].
    - destruct a as [|[|[|a]]], b as [|[|[|b]]]; try lia; done.
    - destruct a as [|[|[|a]]], b as [|[|[|b]]]; try lia; simpl; try done; unfold Rdiv; f_equal; ring. }
  pose proof (C49_invert3 m val i j Hi Hj) as H. destruct (Req_EM_T _ _) as [|_]; [done|]. destruct H as [H1 H2]. unfold mmul. split.
  - rewrite <- H1. apply sum_n_ext. intros k Hk. rewrite (HT i k) by done. done.
  - rewrite <- H2. apply sum_n_ext. intros k Hk. rewrite (HT k j) by done. done.
Qed.
(** ... but not in general. *)
Theorem C49_refuted_invert3 : exists (m : mat Rnum D3) (val : R), determinant3 m <> 0 /\
  exists i j, (i < 3)%nat /\ (j < 3)%nat /\ mmul (minvert m (val : Rnum)) m i j <> kron i j.
Proof.
  exists ((((1 : Rnum), (1 : Rnum)), (0 : Rnum)), (((0 : Rnum), (1 : Rnum)), (0 : Rnum)), (((0 : Rnum), (0 : Rnum)), (1 : Rnum))), 0.
  unfold determinant3, mget. simpl. split; [lra|]. exists 0%nat, 1%nat. split; [lia|]. split; [lia|].
  unfold mmul, sum_n, rsum, minvert, invert3, det3, det2, mget, kron. simpl. destruct (Req_EM_T _ _) as [N|N]; [exfalso; lra|]. simpl. intros H. field_simplify in H; lra.
Qed.

Section Grad.
  Context {cfg : config} {wm : wallmotion Rnum (cDim cfg)}.
  Notation d := (cDim cfg).
  Notation V := (vec Rnum d).
  Notation part := (particle Rnum d).
  Notation computer := (computer cfg wm).
  Implicit Types (s : computer) (p q v : part) (env : environment Rnum cfg).

  (** ** C51 *)
  Lemma explicit_pressure_R env (n : R) : explicit_pressure env (n : Rnum) = state_pressure env n.
  Proof.
    unfold explicit_pressure, state_pressure. cbv zeta. destruct (_ <=?. _) eqn:E.
    - apply Rleb_true in E. simpl in *. rewrite Rmax_left; [ring|]. unfold Rdiv in *. lra.
    - assert (~ (eRho env / eN0 env * n <= eRho env)) as H by (rewrite <- Rleb_true; simpl in *; congruence).
      simpl. rewrite Rmax_right; [unfold Rdiv; ring|]. unfold Rdiv in *. lra.
  Qed.
  (** In the explicit build every particle, of any type, gets the pressure of the equation of state. *)
  Theorem C51_explicit_phase s s' i p :
    cExplicit cfg = true -> compute_implicit s = Done s' -> cParts s !! i = Some p ->
    exists p', cParts s' !! i = Some p' /\ pP p' = state_pressure (cEnv s) (pN p).
  Proof.
    intros Hx H Hp. destruct (implicit_Done_explicit s s' H Hx) as (s1 & H1 & H2).
    pose proof (explicitp_at _ _ _ _ H1 Hp) as Hp1. rewrite explicit_pressure_R in Hp1.
    pose proof (gradient_at _ _ _ _ H2 Hp1) as Hk. simpl in Hk. destruct (is_newton (pT p)).
    - destruct Hk as (a & _ & Hk). eauto.
    - eauto.
  Qed.
  Theorem C51_state_pressure env (n : R) : 0 < eC env -> 0 < eRho env -> 0 < eN0 env ->
    0 <= state_pressure env n /\ (state_pressure env n = 0 <-> n <= eN0 env) /\
    (forall m, n <= m -> state_pressure env n <= state_pressure env m) /\
    (forall m, eN0 env <= n < m -> state_pressure env n < state_pressure env m).
  Proof.
    intros Hc Hr Hn. unfold state_pressure.
    assert (forall n, eRho env * n / eN0 env - eRho env = eRho env / eN0 env * (n - eN0 env)) as HE' by (intros; field; simpl in *; lra).
    rewrite HE'. set (k := eRho env / eN0 env). assert (0 < k) as Hk by (by apply Rdiv_lt_0_compat).
    set (c := eC env ^ 2). assert (0 < c) as Hc2 by (by apply pow_lt). set (n0 := eN0 env) in *.
    split; [apply Rmult_le_pos; [lra|apply Rmax_l]|]. split; [|split].
    - split.
      + intros E. apply Rmult_integral in E as [E|E]; [lra|]. destruct (Rle_lt_dec n n0) as [|L]; [done|].
        assert (0 < k * (n - n0)) by (apply Rmult_lt_0_compat; simpl in *; lra). rewrite Rmax_right in E; lra.
      + intros L. assert (0 <= k * (n0 - n)) by (apply Rmult_le_pos; simpl in *; lra). rewrite Rmax_left; [ring|]. lra.
    - intros m L. rewrite HE'. fold k n0. apply Rmult_le_compat_l; [lra|]. apply Rle_max_compat_l. apply Rmult_le_compat_l; lra.
    - intros m [L1 L2]. rewrite HE'. fold k n0. apply Rmult_lt_compat_l; [lra|].
      assert (0 <= k * (n - n0)) by (apply Rmult_le_pos; simpl in *; lra). rewrite (Rmax_right 0 (k * (n - n0))) by done.
      assert (k * (n - n0) < k * (m - n0)) by (apply Rmult_lt_compat_l; lra). rewrite Rmax_right; lra.
  Qed.

  (** ** C35 *)
  Lemma is_dummy_decide q : is_dummy (pT q) = if decide (pT q = Dummy) then true else false.
  Proof. destruct (decide (pT q = Dummy)) as [->|Hn]; [done|]. by destruct (pT q). Qed.
  Lemma inner_edist (x y : V) : inner (y -^ x) (y -^ x) = edist x y ^ 2.
  Proof. rewrite edist_sym, edist_len. rewrite <- len_sqr. ring. Qed.
  Lemma sqrt_edist (x y : V) : @nsqrt Rnum (vdot (y -^ x) (y -^ x)) = edist x y.
  Proof. rewrite edist_sym, edist_len. unfold len. by rewrite vdot_inner. Qed.
  Lemma grad_func_R env p j q :
    grad_func (pP p) (pX p) (eRe env) j q = if decide (pT q = Dummy) then vzero else grad_term env (pX p) (pP p) (pX q) (pP q).
  Proof.
    unfold grad_func, grad_term. rewrite is_dummy_decide. destruct (decide (pT q = Dummy)); [done|]. cbv zeta.
    rewrite sqrt_edist, weight_wt, vdot_inner, inner_edist. done.
  Qed.

  Theorem C35_gradient_phase s s' i p :
    midstep s -> cGC cfg = false -> modify_by_gradient s = Some s' -> cParts s !! i = Some p -> fluid p ->
    let du := (grad_factor (cEnv s) : Rnum) *^ (pressure_sum s i p +^ virtual_push s i p) in
    cParts s' !! i = Some (mkParticle (pX p +^ (eDt (cEnv s)) *^ du) (pU p +^ du) (pP p) (pN p) (pT p)).
  Proof.
    intros Hm HG H Hp Hf du. assert (enabled p) as He by (unfold enabled, fluid in *; congruence).
    pose proof (gradient_at s s' i p H Hp) as HX. rewrite (proj2 (is_newton_true p) Hf) in HX.
    destruct HX as (a & Ha & HX). rewrite HX. unfold grad_value in Ha. cbv zeta in Ha. rewrite HG in Ha.
    rewrite (acc_V s i p) in Ha; [|left; apply Hm|apply Hm|done|done|by eapply ms_nws_at]. cbn [mbind option_bind] in Ha.
    assert (a = du) as ->.
    { injection Ha as <-. unfold du. f_equal.
      - unfold grad_factor. simpl. rewrite <- INR_IZR_INZ. unfold Rdiv. ring.
      - f_equal.
        + apply close_vsum_ext. intros j q _ _. apply (grad_func_R (cEnv s)).
        + unfold virtual_push, of_virtual. destruct (virtual s i p) as [v|] eqn:Ev; [|done]. rewrite (grad_func_R (cEnv s)).
          apply virtual_fields in Ev as (_ & HT & HP & _). rewrite HT, HP. done. }
    unfold kicked, set_U, set_X. simpl. f_equal. f_equal. f_equal. apply coord_ext. intros k Hk. rewrite coord_scalr, coord_scal by done. ring.
  Qed.
  (** Action and reaction between two particles. *)
  Theorem C35_pair env (xp xq : V) (pp pq : R) : grad_term env xp pp xq pq = (-1 : Rnum) *^ grad_term env xq pq xp pp.
  Proof.
    unfold grad_term. rewrite (edist_sym xq xp). apply coord_ext. intros k Hk. rewrite !coord_scal, !coord_sub by done. unfold Rdiv. ring.
  Qed.
  Lemma pressure_cancel s k : no_walls_near_fluid s -> (k < dimn d)%nat ->
    sum_n (psize s) (fun i => at_part s i 0 (fun p => if decide (fluid p) then coord (pressure_sum s i p) k else 0)) = 0.
  Proof.
    intros Hw Hk.
    etransitivity; [|apply (pair_sum_zero (eRe (cEnv s)) s (fun i j p q => if decide (pT q = Dummy) then 0
       else coord (grad_term (cEnv s) (pX p) (pP p) (pX q) (pP q)) k))].
    - apply sum_n_ext. intros i Hi. unfold at_part. destruct (cParts s !! i) as [p|]; [|done].
      destruct (decide (fluid p)); [|done]. unfold pressure_sum. rewrite coord_close_vsum by done. apply close_sum_ext.
      intros j q _ _. destruct (decide _); [by apply coord_zero|done].
    - intros i j p q _ _ Fp Fq. unfold fluid in *. rewrite Fp, Fq. simpl. rewrite C35_pair, coord_scal by done. ring.
    - intros i j p q Hp Hq Fp Fq C. destruct (Hw i j p q Hp Fp C Hq) as [|HD]; [done|]. by rewrite HD.
  Qed.
  (** Balance of momentum: the pressure forces between fluid particles cancel, what remains is the push of the virtual surface
      particles. *)
  Theorem C35_momentum_balance s s' :
    midstep s -> cGC cfg = false -> modify_by_gradient s = Some s' -> no_walls_near_fluid s ->
    fluid_sum s' pU = fluid_sum s pU +^ (grad_factor (cEnv s) : Rnum) *^
      vsum_n (psize s) (fun i => at_part s i vzero (fun p => if decide (fluid p) then virtual_push s i p else vzero)).
  Proof.
    intros Hm HG H Hw. apply coord_ext. intros k Hk. rewrite coord_add, coord_scal by done.
    unfold fluid_sum. rewrite !coord_vsum_n by done.
    assert (psize s' = psize s) as -> by (apply (pr_size s s'), gradient_pr, H).
    set (c := grad_factor (cEnv s)).
    transitivity (sum_n (psize s) (fun i => coord (at_part s i vzero (fun p => if decide (fluid p) then pU p else vzero)) k
      + (c * at_part s i 0 (fun p => if decide (fluid p) then coord (pressure_sum s i p) k else 0)
         + c * coord (at_part s i vzero (fun p => if decide (fluid p) then virtual_push s i p else vzero)) k))).
    - apply sum_n_ext. intros i Hi. destruct (lookup_lt_is_Some_2 (cParts s) i Hi) as [p Hp]. unfold at_part. rewrite Hp.
      destruct (decide (fluid p)) as [Fp|Fp].
      + rewrite (C35_gradient_phase s s' i p Hm HG H Hp Fp). cbn [pU]. destruct (decide _) as [_|Fn]; [|by destruct Fn].
        rewrite !coord_add, coord_scal, coord_add by done. unfold c. ring.
      + pose proof (gradient_at s s' i p H Hp) as HX. assert (is_newton (pT p) = false) as HN.
        { destruct (is_newton (pT p)) eqn:E; [|done]. by apply is_newton_true in E. }
        rewrite HN in HX. rewrite HX. destruct (decide _) as [Fn|_]; [by destruct Fp|]. rewrite coord_zero by done. ring.
    - rewrite !sum_n_plus, !sum_n_scal, pressure_cancel by done. ring.
  Qed.
  Theorem C35_momentum s s' :
    midstep s -> cGC cfg = false -> modify_by_gradient s = Some s' -> no_walls_near_fluid s ->
    (forall i p, cParts s !! i = Some p -> fluid p -> virtual s i p = None \/ pP p = 0) ->
    fluid_sum s' pU = fluid_sum s pU.
  Proof.
    intros Hm HG H Hw Hv. rewrite (C35_momentum_balance s s' Hm HG H Hw). rewrite <- (vadd_0_r (fluid_sum s pU)) at 2. f_equal.
    apply coord_ext. intros k Hk. rewrite coord_scal, coord_vsum_n, coord_zero by done. rewrite sum_n_zero; [ring|]. intros i _.
    unfold at_part. destruct (cParts s !! i) as [p|] eqn:Hp; [|by apply coord_zero]. destruct (decide (fluid p)) as [Fp|]; [|by apply coord_zero].
    unfold virtual_push, of_virtual. destruct (Hv i p Hp Fp) as [->|HP]; [by apply coord_zero|].
    destruct (virtual s i p); [|by apply coord_zero]. unfold grad_term. rewrite HP, coord_scal by done. unfold Rdiv. ring.
  Qed.

  (** With virtual particles the total momentum is not conserved: it changes, for instance, whenever just one of the
      fluid particles that have one is under pressure. *)
  Theorem C35_refuted_not_conserved s s' i p :
    midstep s -> cGC cfg = false -> modify_by_gradient s = Some s' -> no_walls_near_fluid s ->
    0 < eDt (cEnv s) -> 0 < eRho (cEnv s) -> 0 < eN0 (cEnv s) ->
    cParts s !! i = Some p -> fluid p -> virtual s i p <> None -> pP p <> 0 ->
    (forall j q, j <> i -> cParts s !! j = Some q -> fluid q -> virtual s j q = None \/ pP q = 0) ->
    fluid_sum s' pU <> fluid_sum s pU.
  Proof.
    intros Hm HG H Hw Hdt Hrho Hn0 Hp Hf Hv HP Hoth E. rewrite (C35_momentum_balance s s' Hm HG H Hw) in E.
    destruct (virtual s i p) as [v|] eqn:Ev; [|done]. destruct (virtual_dist s i p v (ms_re s Hm) Ev) as [D1 D2].
    assert (grad_factor (cEnv s) < 0) as Hc.
    { unfold grad_factor. destruct (dim_bound d) as [B1 _]. assert (0 < eDt (cEnv s) / eRho (cEnv s) * INR (dimn d) / eN0 (cEnv s)); [|lra].
      apply Rdiv_lt_0_compat; [|done]. apply Rmult_lt_0_compat; [|done]. by apply Rdiv_lt_0_compat. }
    assert (forall k, (k < dimn d)%nat -> coord (virtual_push s i p) k = 0) as Hz.
    { intros k Hk. apply (f_equal (fun x => coord x k)) in E. rewrite coord_add, coord_scal, coord_vsum_n in E by done.
      assert (sum_n (psize s) (fun i => coord (at_part s i vzero (fun p => if decide (fluid p) then virtual_push s i p else vzero)) k) = 0) as E0.
      { apply (Rmult_eq_reg_l (grad_factor (cEnv s))); lra. }
      rewrite (sum_n_ext _ _ (fun j => if (j =? i)%nat then coord (virtual_push s i p) k else 0)) in E0.
      - rewrite (sum_n_delta _ i (fun _ => coord (virtual_push s i p) k)) in E0; [done|by eapply lookup_lt_Some].
      - intros j Hj. destruct (lookup_lt_is_Some_2 (cParts s) j Hj) as [q Hq]. rewrite (at_part_eq s j q) by done.
        destruct (Nat.eqb_spec j i) as [->|Hji]; [rewrite Hp in Hq; injection Hq as <-; by rewrite decide_True by done|].
        destruct (decide (fluid q)) as [Fq|]; [|by apply coord_zero]. unfold virtual_push, of_virtual.
        destruct (Hoth j q Hji Hq Fq) as [->|HPq]; [by apply coord_zero|]. destruct (virtual s j q); [|by apply coord_zero].
        unfold grad_term. rewrite HPq, coord_scal by done. unfold Rdiv. ring. }
    assert (pX v = pX p) as HX; [|rewrite HX in D1; pose proof (proj2 (edist_zero (pX p) (pX p)) eq_refl); lra].
    apply coord_ext. intros k Hk. specialize (Hz k Hk). unfold virtual_push, of_virtual in Hz. rewrite Ev in Hz. unfold grad_term in Hz.
    rewrite coord_scal, coord_sub in Hz by done. apply Rmult_integral in Hz as [Hz|Hz]; [|lra].
    exfalso. apply Rmult_integral in Hz as [Hz|Hz].
    - unfold Rdiv in Hz. apply Rmult_integral in Hz as [Hz|Hz]; [apply HP; simpl in *; lra|].
      apply Rinv_neq_0_compat in Hz; [done|]. apply pow_nonzero. lra.
    - pose proof (proj2 (wt_pos_iff (edist (pX p) (pX v)) (eRe (cEnv s))) (conj D1 D2)) as Hwt. lra.
  Qed.

  (** ** C50 *)
  Lemma mget_mmk (f : nat -> nat -> R) a b : (a < dimn d)%nat -> (b < dimn d)%nat -> mget (d := d) (mmk (N := Rnum) f) a b = f a b.
  Proof. intros Ha Hb. unfold mget, mmk. by rewrite !tget_tmk. Qed.
  Lemma acc_M s i p m : midstep s -> cParts s !! i = Some p -> enabled p -> virtual s i p = None ->
    acc s i mzero madd (gc_matrix_func (pX p) (eRe (cEnv s))) = Some m ->
    forall a b, (a < dimn d)%nat -> (b < dimn d)%nat -> mget m a b = moment s i p a b.
  Proof.
    intros Hm Hp He Hv Ha a b Hla Hlb.
    destruct (acc_list s i p mzero madd (gc_matrix_func (pX p) (eRe (cEnv s))) (Rlt_le _ _ (ms_re s Hm)) (ms_cover s Hm) Hp He (ms_nws_at s i p Hm Hp)) as (l & Hl & E).
    pose proof (eq_trans (eq_sym Ha) E) as E'. injection E' as ->. clear E Ha. unfold of_virtual. rewrite Hv.
    set (g (j : nat) := fun q : part => wt (edist (pX p) (pX q)) (eRe (cEnv s)) / edist (pX p) (pX q) ^ 2 * (coord (pX q -^ pX p) a * coord (pX q -^ pX p) b)).
    assert (forall (l : list nat) (z : mat Rnum d), mget (foldl madd z (map (fun j => at_part s j mzero (gc_matrix_func (pX p) (eRe (cEnv s)) (Z.of_nat j))) l)) a b
      = mget z a b + rsum (map (fun j => at_part s j 0 (g j)) l)) as Hfold.
    { clear l Hl. induction l as [|j l IH]; intros z; [unfold rsum; simpl; lra|]. simpl map. cbn [foldl]. rewrite IH. unfold rsum at 2. cbn [foldr].
      fold (rsum (map (fun j => at_part s j 0 (g j)) l)). unfold madd at 1. rewrite mget_mmk by done.
      unfold at_part at 1 3. destruct (cParts s !! j) as [q|].
      - assert (mget (gc_matrix_func (pX p) (eRe (cEnv s)) (Z.of_nat j) q) a b = g j q) as ->.
        { unfold gc_matrix_func, g. cbv zeta. unfold mscal. rewrite mget_mmk by done. unfold mouter. rewrite mget_mmk by done.
          rewrite dist_edist, weight_wt, vdot_inner, inner_edist, edist_sym. done. }
        simpl nadd. rewrite Rplus_assoc. done.
      - unfold mzero. rewrite mget_mmk by done. simpl. lra. }
    rewrite Hfold. unfold mzero. rewrite mget_mmk by done. unfold moment. rewrite <- (close_sum_filter _ _ _ g).
    rewrite <- (rsum_perm _ _ (Permutation_map _ Hl)). simpl. lra.
  Qed.
  Lemma coord_mprod (m : mat Rnum d) (x : V) a : (a < dimn d)%nat -> coord (mprod m x) a = sum_n (dimn d) (fun k => mget m a k * coord x k).
  Proof. intros Ha. unfold mprod, coord at 1. rewrite tget_tmk by done. unfold sum_n. apply (foldl_sum (fun k => mget m a k * coord x k)). Qed.
End Grad.

(** Inversion in either dimension, for symmetric matrices. *)
Lemma invert_symmetric (d : dim) (m : mat Rnum d) (val : R) i j : (i < dimn d)%nat -> (j < dimn d)%nat ->
  (forall a b, (a < dimn d)%nat -> (b < dimn d)%nat -> mget m a b = mget m b a) -> determinant m <> 0 ->
  mmul (minvert m (val : Rnum)) m i j = kron i j.
Proof.
  destruct d; intros Hi Hj HS HD; simpl in *.
  - pose proof (C49_invert2 m val i j Hi Hj) as H. destruct (Req_EM_T _ _); [done|]. apply H.
  - by apply C49_invert3_symmetric.
Qed.

Section Linear.
  Context {cfg : config} {wm : wallmotion Rnum (cDim cfg)}.
  Notation d := (cDim cfg).
  Notation V := (vec Rnum d).
  Notation part := (particle Rnum d).
  Notation computer := (computer cfg wm).
  Implicit Types (s : computer) (p q v : part) (env : environment Rnum cfg).

  (** Helper: with gradient correction and pressure differences, a linear pressure field yields its exact gradient. *)
  Lemma linear_pressure s s' i p (g : V) (m : mat Rnum d) :
    midstep s -> cGC cfg = true -> cMidpoint cfg = false -> modify_by_gradient s = Some s' ->
    cParts s !! i = Some p -> fluid p -> virtual s i p = None ->
    (forall j q, close (eRe (cEnv s)) s i j -> cParts s !! j = Some q -> pT q <> Dummy /\ pP q = pP p + inner g (pX q -^ pX p)) ->
    (forall a b, (a < dimn d)%nat -> (b < dimn d)%nat -> mget m a b = moment s i p a b) -> determinant m <> 0 ->
    exists p', cParts s' !! i = Some p' /\
      pU p' = pU p +^ (- (eDt (cEnv s) * pN p / (eRho (cEnv s) * eN0 (cEnv s))) : Rnum) *^ g.
  Proof.
    intros Hm HG HM H Hp Hf Hv Hlin HMom Hdet. assert (enabled p) as He by (unfold enabled, fluid in *; congruence).
    pose proof (gradient_at s s' i p H Hp) as HX. rewrite (proj2 (is_newton_true p) Hf) in HX.
    destruct HX as (a & Ha & HX). eexists. split; [exact HX|]. simpl. f_equal. unfold grad_value in Ha. cbv zeta in Ha. rewrite HG in Ha.
    destruct (acc s i mzero madd _) as [mm|] eqn:EM; [|done]. cbn [mbind option_bind] in Ha.
    pose proof (acc_M s i p mm Hm Hp He Hv EM) as HMM.
    assert (mm = m) as ->.
    { apply tup_ext. intros x Hx. apply tup_ext. intros y Hy. change (mget mm x y = mget m x y). by rewrite HMM, HMom. }
    set (C := minvert m _) in Ha.
    rewrite (acc_V s i p) in Ha; [|left; apply Hm|apply Hm|done|done|by eapply ms_nws_at]. cbn [mbind option_bind] in Ha.
    injection Ha as <-. f_equal; [simpl; unfold Rdiv; ring|]. unfold of_virtual. rewrite Hv, vadd_0_r.
    set (w (q : part) := wt (edist (pX p) (pX q)) (eRe (cEnv s)) / edist (pX p) (pX q) ^ 2).
    apply coord_ext. intros k Hk. rewrite coord_close_vsum by done.
    transitivity (sum_n (dimn d) (fun b => mmul C m k b * coord g b)).
    - rewrite (close_sum_ext _ _ _ _ (fun j q => sum_n (dimn d) (fun b => sum_n (dimn d) (fun c => coord g b * mget C k c * (w q * (coord (pX q -^ pX p) c * coord (pX q -^ pX p) b)))))).
      + rewrite (sum_n_ext _ (fun b => mmul C m k b * coord g b) (fun b => sum_n (dimn d) (fun c => coord g b * mget C k c * moment s i p c b))).
        2:{ intros b Hb. unfold mmul. rewrite Rmult_comm, <- sum_n_scal. apply sum_n_ext. intros c Hc. rewrite HMom by done. ring. }
        unfold close_sum at 1, moment, close_sum.
        rewrite (sum_n_ext (dimn d) _ (fun b => sum_n (psize s) (fun j => sum_n (dimn d) (fun c => coord g b * mget C k c *
            (if decide (close (eRe (cEnv s)) s i j) then at_part s j 0 (fun q => w q * (coord (pX q -^ pX p) c * coord (pX q -^ pX p) b)) else 0))))).
        2:{ intros b Hb. rewrite sum_n_swap. apply sum_n_ext. intros x Hx. by rewrite <- sum_n_scal. }
        rewrite sum_n_swap. apply sum_n_ext. intros j Hj. destruct (decide _) as [HC|HC].
        * unfold at_part. destruct (cParts s !! j) as [q|]; [done|]. symmetry. apply sum_n_zero. intros b _. apply sum_n_zero. intros c _. ring.
        * symmetry. apply sum_n_zero. intros b _. apply sum_n_zero. intros c _. ring.
      + intros j q Hq HC. destruct (Hlin j q HC Hq) as [HD HP]. unfold gc_func.
        assert (is_dummy (pT q) = false) as -> by (by destruct (pT q)). cbv zeta. rewrite HM. rewrite coord_scal, coord_mprod by done.
        rewrite dist_edist, weight_wt, vdot_inner, inner_edist, (edist_sym (pX q) (pX p)). simpl. rewrite HP. unfold inner at 1.
        replace (pP p + sum_n (dimn d) (fun k0 => coord g k0 * coord (pX q -^ pX p) k0) - pP p) with (sum_n (dimn d) (fun k0 => coord g k0 * coord (pX q -^ pX p) k0)) by (simpl; ring).
        unfold w. set (W := wt _ _). set (r2 := edist _ _ ^ 2). set (G := sum_n _ _).
        replace (G / (edist (pX p) (pX q) * (edist (pX p) (pX q) * 1)) * W) with (W / r2 * G) by (unfold r2; simpl; unfold Rdiv; ring).
        set (D := sum_n (dimn d) (fun c => mget C k c * _)).
        transitivity (sum_n (dimn d) (fun b => W / r2 * D * (coord g b * coord (pX q -^ pX p) b))).
        * rewrite sum_n_scal. fold G. unfold Rdiv. ring.
        * apply sum_n_ext. intros b Hb. unfold D. rewrite Rmult_comm, <- Rmult_assoc, <- sum_n_scal. apply sum_n_ext. intros c Hc. unfold Rdiv. ring.
    - rewrite (sum_n_ext _ _ (fun b => if (b =? k)%nat then coord g b else 0)).
      + by apply (sum_n_delta _ k (coord g)).
      + intros b Hb. unfold C. rewrite (invert_symmetric d m _ k b); [|done|done| |done].
        * unfold kron. rewrite Nat.eqb_sym. destruct (b =? k)%nat; ring.
        * intros x y Hx Hy. rewrite !HMom by done. unfold moment. apply close_sum_ext. intros. ring.
  Qed.

  (** With gradient correction and pressure differences, a linear pressure field (gradient [g]) changes the velocity by
      exactly -dt N/(rho n0) g, provided the moment matrix is regular and no dummy or virtual particle is around. *)
  Theorem C50_linear_pressure s s' i p (g : V) :
    midstep s -> cGC cfg = true -> cMidpoint cfg = false -> modify_by_gradient s = Some s' ->
    cParts s !! i = Some p -> fluid p -> virtual s i p = None ->
    (forall j q, close (eRe (cEnv s)) s i j -> cParts s !! j = Some q -> pT q <> Dummy /\ pP q = pP p + inner g (pX q -^ pX p)) ->
    determinant (mmk (N := Rnum) (moment s i p) : mat Rnum d) <> 0 ->
    exists p', cParts s' !! i = Some p' /\
      pU p' = pU p +^ (- (eDt (cEnv s) * pN p / (eRho (cEnv s) * eN0 (cEnv s))) : Rnum) *^ g.
  Proof.
    intros. eapply linear_pressure; try done. intros a b Ha Hb. by apply mget_mmk.
  Qed.
End Linear.

(** Property theorems: the pressure equation is definite, the solver solves it (C31-C34). *)
From Coq Require Import ZifyBool.
From Verif Require Import S_Terms.
From Verif Require Import P_Ppe P_Force T_Ppe.
Open Scope R_scope.

(** Matrix products as the solver computes them. *)
Section Product.
  Implicit Types (A : list (mrow (N := Rnum))) (x y b : list R).

  Lemma row_at_absent (row : mrow (N := Rnum)) j : j ∉ map fst row -> row_at row j = 0.
  Proof.
    induction row as [|[k v] row IH]; [done|]. simpl. intros H%not_elem_of_cons. destruct (Nat.eqb_spec k j); [by destruct H|]. apply IH, H.
  Qed.
  Lemma row_sum (n : nat) x (row : list (nat * R)) : NoDup (map fst row) -> (forall e, e ∈ row -> (e.1 < n)%nat) ->
    rsum (map (fun e : nat * R => e.2 * el x e.1) row) = sum_n n (fun j => row_at (N := Rnum) row j * el x j).
  Proof.
    induction row as [|[k v] row IH]; intros Hnd Hlt.
    - unfold rsum at 1. simpl. rewrite sum_n_zero; [done|]. intros; simpl; ring.
    - simpl map in *. apply list.NoDup_cons in Hnd as [Hk Hnd].
      rewrite (sum_n_ext n _ (fun j => (if (j =? k)%nat then v * el x j else 0) + row_at (N := Rnum) row j * el x j)).
      + rewrite sum_n_plus, (sum_n_delta n k (fun j => v * el x j)) by (apply (Hlt (k, v)); by left).
        rewrite <- IH; [done|done|]. intros e He. apply Hlt. by right.
      + intros j Hj. cbn [row_at]. destruct (Nat.eqb_spec k j) as [->|Hkj].
        * rewrite Nat.eqb_refl. rewrite (row_at_absent row j Hk). ring.
        * destruct (Nat.eqb_spec j k); [congruence|]. ring.
  Qed.
  Lemma el_rprod n A x i : sparse n A -> el (rprod A x) i = mat_vec n A x i.
  Proof.
    intros [HL HR]. rewrite (el_Ax A). unfold mat_vec, elem. destruct (A !! i) as [row|] eqn:E.
    - destruct (HR row) as [Hnd Hlt]; [by eapply elem_of_list_lookup_2|]. rewrite row_prod_sum. by apply row_sum.
    - rewrite sum_n_zero; [done|]. intros; simpl; ring.
  Qed.
  Lemma rprod_length n A x : sparse n A -> length (rprod A x) = n.
  Proof. intros [HL _]. unfold rprod, lprod. by rewrite map_length. Qed.
  Lemma residual_res2 n A b x : sparse n A -> length b = n -> length x = n ->
    dotn n (rsub b (rprod A x)) (rsub b (rprod A x)) = res2 n A b x.
  Proof.
    intros HS Hb Hx. unfold dotn, res2. apply sum_n_ext. intros i Hi.
    rewrite el_sub by (rewrite (rprod_length n); done). rewrite (el_rprod n) by done. ring.
  Qed.
  Lemma dot_quad n A x : sparse n A -> dotn n x (rprod A x) = quad n A x.
  Proof. intros HS. unfold dotn, quad. apply sum_n_ext. intros i Hi. by rewrite (el_rprod n). Qed.
  Lemma res2_nonneg n A b x : 0 <= res2 n A b x.
  Proof. apply sum_n_nonneg. intros. apply pow2_ge_0. Qed.

  (** The solver in terms of [rloop]. *)
  Definition rsolve A x b (eps : R) : list R * bool := cg_solve (N := Rnum) A x b eps.
  Lemma rsolve_eq n A x b eps : sparse n A -> length b = n -> length x = n ->
    rsolve A x b eps =
      if Req_EM_T (res2 n A b x * eps * eps) 0 then (x, true)
      else rloop A (res2 n A b x * eps * eps) n x (rsub b (rprod A x)) (rsub b (rprod A x)) (res2 n A b x).
  Proof.
    intros HS Hb Hx. unfold rsolve, cg_solve. cbv zeta. change (ldot (N := Rnum)) with rdot. change (lsub (N := Rnum) b (lprod A x)) with (rsub b (rprod A x)).
    assert (length (rsub b (rprod A x)) = n) as HL by (rewrite rsub_length; rewrite ?(rprod_length n); congruence).
    rewrite (ldot_dotn _ _ n HL HL), residual_res2 by done. unfold neqb. cbn [Rnum nmul]. change (@nofZ Rnum 0) with 0.
    change (@length (nT Rnum) x) with (@length R x). rewrite Hx. by destruct (Req_EM_T _ _).
  Qed.

  (** ** C32 *)
  Theorem C32_solver n A x b (eps : R) x' (ok : bool) :
    sparse n A -> length b = n -> length x = n -> cg_solve (N := Rnum) A x b eps = (x', ok) ->
    length x' = n /\
    if ok then (x' = x /\ (eps = 0 \/ res2 n A b x = 0)) \/ res2 n A b x' < eps ^ 2 * res2 n A b x
    else eps ^ 2 * res2 n A b x <= res2 n A b x'.
  Proof.
    intros HS Hb Hx H. change (rsolve A x b eps = (x', ok)) in H. rewrite (rsolve_eq n) in H by done.
    destruct (Req_EM_T _ _) as [E|E].
    - injection H as <- <-. split; [done|]. left. split; [done|].
      apply Rmult_integral in E as [E|E]; [|by left]. apply Rmult_integral in E as [E|E]; [by right|by left].
    - destruct (cg_loop_residual n A (proj1 HS) b (res2 n A b x * eps * eps) n x (rsub b (rprod A x)) (rsub b (rprod A x)) (res2 n A b x)) as [L C]; try done.
      { rewrite rsub_length; rewrite ?(rprod_length n); congruence. }
      rewrite H in L, C. cbn [fst snd] in L, C. split; [done|]. rewrite residual_res2 in C by done.
      replace (eps ^ 2 * res2 n A b x) with (res2 n A b x * eps * eps) by ring. destruct ok; [by right|]. apply C.
      intros ->. destruct x; [|done]. apply E. unfold res2, sum_n, rsum. simpl. ring.
  Qed.

  (** ** C33 *)
  Theorem C33_solver_converges n A x b (eps : R) (E : nat -> Prop) :
    sparse n A -> length b = n -> length x = n ->
    (forall i j, (i < n)%nat -> (j < n)%nat -> elem A i j = elem A j i) ->
    (forall i j, (i < n)%nat -> (j < n)%nat -> E i -> ~ E j -> elem A i j = 0) ->
    (forall i, (i < n)%nat -> E i -> el b i = mat_vec n A x i) ->
    (forall i, (i < n)%nat -> Decision (E i)) ->
    (forall y, length y = n -> (forall i, (i < n)%nat -> E i -> el y i = 0) -> (exists i, (i < n)%nat /\ el y i <> 0) -> quad n A y <> 0) ->
    (cg_solve (N := Rnum) A x b eps).2 = true.
  Proof.
    intros HS Hb Hx Hsym HE Hr Hdec Hdef. change ((rsolve A x b eps).2 = true). rewrite (rsolve_eq n) by done.
    destruct (Req_EM_T _ _) as [E0|E0]; [done|]. pose proof (res2_nonneg n A b x) as HN.
    assert (res2 n A b x <> 0) as HN0 by (intros C; apply E0; rewrite C; ring).
    set (r := rsub b (rprod A x)).
    assert (length r = n) as HL by (unfold r; rewrite rsub_length; rewrite ?(rprod_length n); congruence).
    apply (cg_loop_converges n A (proj1 HS) (fun y => forall i, (i < n)%nat -> E i -> el y i = 0)) with (H := []).
    - intros y Hy HW i Hi Hi'. rewrite (el_rprod n) by done. unfold mat_vec. apply sum_n_zero. intros j Hj.
      destruct (Hdec j Hj) as [Ej|Ej]; [rewrite (HW j Hj Ej)|rewrite (HE i j)]; try done; ring.
    - intros y z c Hy Hz Wy Wz i Hi Hi'. rewrite el_add by (rewrite rscal_length; congruence). rewrite el_scal, Wy, Wz by done. ring.
    - intros y z c Hy Hz Wy Wz i Hi Hi'. rewrite el_sub by (rewrite rscal_length; congruence). rewrite el_scal, Wy, Wz by done. ring.
    - intros y z Hy Hz. unfold dotn.
      rewrite (sum_n_ext n (fun i => el y i * _) (fun i => sum_n n (fun j => el y i * (elem A i j * el z j)))).
      2:{ intros i Hi. rewrite (el_rprod n) by done. unfold mat_vec. by rewrite <- sum_n_scal. }
      rewrite (sum_n_ext n (fun i => el (rprod A y) i * _) (fun i => sum_n n (fun j => el z i * (elem A i j * el y j)))).
      2:{ intros i Hi. rewrite (el_rprod n) by done. unfold mat_vec. rewrite Rmult_comm. by rewrite <- sum_n_scal. }
      rewrite sum_n_swap. apply sum_n_ext. intros i Hi. apply sum_n_ext. intros j Hj. rewrite (Hsym j i) by done. ring.
    - intros y Hy HW Hyy. rewrite dot_quad by done. apply Hdef; [done|done|].
      assert ((exists i, (i < n)%nat /\ el y i <> 0) \/ forall i, (i < n)%nat -> el y i = 0) as [Hex|Hall]; [|done|].
      { clear. induction n as [|m IH]; [right; intros; lia|]. destruct IH as [(i & Hi & Hne)|Hall]; [left; exists i; split; [lia|done]|].
        destruct (Req_EM_T (el y m) 0) as [E0|E0]; [|left; exists m; split; [lia|done]]. right. intros i Hi.
        destruct (decide (i = m)) as [->|]; [done|]. apply Hall. lia. }
      exfalso. apply Hyy. unfold dotn. apply sum_n_zero. intros i Hi. rewrite Hall by done. ring.
    - assert (0 < res2 n A b x) by lra. assert (eps <> 0) by (intros ->; apply E0; ring).
      assert (0 < eps * eps) by (pose proof (Rsqr_pos_lt eps); unfold Rsqr in *; auto).
      rewrite Rmult_assoc. by apply Rmult_lt_0_compat.
    - apply cg_inv_init; [done| |].
      + intros i Hi Hi'. unfold r. rewrite el_sub by (rewrite (rprod_length n); done). rewrite (el_rprod n), Hr by done. ring.
      + unfold r. by rewrite residual_res2.
    - unfold r. by rewrite residual_res2.
    - done.
  Qed.

  (** Invariant subspaces of the iteration. *)
  Lemma loop_subspace n A (E : nat -> Prop) r0 fuel : sparse n A -> 
    (forall y, length y = n -> (forall i, E i -> el y i = 0) -> forall i, E i -> el (rprod A y) i = 0) ->
    forall x r p rr, length x = n -> length r = n -> length p = n ->
    (forall i, E i -> el x i = 0) -> (forall i, E i -> el r i = 0) -> (forall i, E i -> el p i = 0) ->
    forall i, E i -> el (rloop A r0 fuel x r p rr).1 i = 0.
  Proof.
    intros HS HA. induction fuel as [|fuel IH]; intros x r p rr Lx Lr Lp Wx Wr Wp i Hi; [by apply Wx|].
    rewrite rloop_S. cbv zeta. set (alpha := rr / _). set (x' := radd x _). set (r' := rsub r _).
    assert (length (rprod A p) = n) as LA by (by apply rprod_length).
    assert (length x' = n) as Lx' by (unfold x'; rewrite radd_length; rewrite ?rscal_length; congruence).
    assert (length r' = n) as Lr' by (unfold r'; rewrite rsub_length; rewrite ?rscal_length; congruence).
    assert (forall k, E k -> el x' k = 0) as Wx'.
    { intros k Hk. unfold x'. rewrite el_add by (rewrite rscal_length; congruence). rewrite el_scal, Wx, Wp by done. ring. }
    assert (forall k, E k -> el r' k = 0) as Wr'.
    { intros k Hk. unfold r'. rewrite el_sub by (rewrite rscal_length; congruence). rewrite el_scal, Wr, (HA p) by done. ring. }
    destruct (Rlt_dec _ _); [by apply Wx'|]. apply IH; try done.
    - rewrite radd_length; rewrite ?rscal_length; congruence.
    - intros k Hk. rewrite el_add by (rewrite rscal_length; congruence). rewrite el_scal, Wr', Wp by done. ring.
  Qed.
End Product.

Section Equation.
  Context {cfg : config} {wm : wallmotion Rnum (cDim cfg)}.
  Notation d := (cDim cfg).
  Notation part := (particle Rnum d).
  Notation computer := (computer cfg wm).
  Implicit Types (s t : computer) (p q : part) (env : environment Rnum cfg).

  Lemma ppe_sparse s t : midstep s -> set_ppe s = Some t -> sparse (psize s) (cA t).
  Proof.
    intros Hm H. apply (set_ppe_sparse s t H (ms_ax s Hm) (ms_ab s Hm)). intros i p Hp Hx. apply excluded_unknown in Hx.
    destruct (ms_cover s Hm i p Hp) as (l & Hl & _); [apply Hx|]. by exists l.
  Qed.
  Lemma ppe_lengths s t : midstep s -> set_ppe s = Some t -> length (cXv t : list R) = psize s /\ length (cBv t : list R) = psize s.
  Proof. intros Hm H. apply (set_ppe_length s t H (ms_ax s Hm) (ms_ab s Hm)). Qed.

  Definition off s (i j : nat) : R :=
    at_part s i 0 (fun p => if decide (unknown (cEnv s) p) then
      if decide (coupled s i j) then at_part s j 0 (fun q => laplacian (cEnv s) (edist (pX p) (pX q))) else 0 else 0).
  Lemma coupled_sym s i j p : cParts s !! i = Some p -> unknown (cEnv s) p -> coupled s i j -> coupled s j i.
  Proof.
    intros Hp Hu (p' & q & Hij & Hp' & Hq & HU & Hd)%coupled_inv. rewrite Hp in Hp'. injection Hp' as <-. split.
    - split; [done|]. exists q, p. rewrite edist_sym. repeat split; try done. apply Hu.
    - unfold at_part. by rewrite Hp.
  Qed.
  Lemma off_sym s i j : off s i j = off s j i.
  Proof.
    assert (forall i j, (exists p q, cParts s !! i = Some p /\ cParts s !! j = Some q /\ unknown (cEnv s) p /\ unknown (cEnv s) q /\ coupled s i j
        /\ off s i j = laplacian (cEnv s) (edist (pX p) (pX q))) \/ (off s i j = 0 /\ (forall p, cParts s !! i = Some p -> unknown (cEnv s) p -> ~ coupled s i j))) as H.
    { clear i j. intros i j. unfold off. destruct (cParts s !! i) as [p|] eqn:Hp; [|right; unfold at_part; by rewrite Hp]. rewrite (at_part_eq s i p) by done.
      destruct (decide (unknown _ p)) as [Hu|Hu]; [|right; split; [done|]; by intros ? [= <-]]. destruct (decide (coupled s i j)) as [C|C].
      - left. destruct (coupled_inv s i j C) as (p' & q & Hij & Hp' & Hq & HU & Hd). rewrite Hp in Hp'. injection Hp' as <-.
        exists p, q. rewrite (at_part_eq s j q) by done. done.
      - right. split; [done|]. by intros ? [= <-]. }
    destruct (H i j) as [(p & q & Hp & Hq & Hu & Hv & C & E)|[E N]]; destruct (H j i) as [(q' & p' & Hq' & Hp' & Hv' & Hu' & C' & E')|[E' N']].
    - rewrite Hp in Hp'. injection Hp' as <-. rewrite Hq in Hq'. injection Hq' as <-. rewrite E, E'. by rewrite edist_sym.
    - exfalso. apply (N' q Hq Hv). by eapply coupled_sym.
    - exfalso. apply (N p' Hp' Hu'). by eapply coupled_sym.
    - congruence.
  Qed.
  Lemma off_nonneg s i j : midstep s -> apart s -> positive_constants (cEnv s) -> 0 <= off s i j.
  Proof.
    intros Hm Hap [Hn Hl]. unfold off, at_part. destruct (cParts s !! i) as [p|] eqn:Hp; [|lra]. destruct (decide _) as [Hu|]; [|lra].
    destruct (decide _) as [C|]; [|lra]. destruct (cParts s !! j) as [q|] eqn:Hq; [|lra]. left. apply (leak_terms s i p j q); try done; [apply Hu|apply C].
  Qed.
  Lemma ppe_quad s t x : midstep s -> set_ppe s = Some t -> vanishes s x ->
    quad (psize s) (cA t) x = - (/ 2 * sum_n (psize s) (fun i => sum_n (psize s) (fun j => off s i j * (el x i - el x j) ^ 2)))
      - sum_n (psize s) (fun i => at_part s i 0 (fun p => if decide (unknown (cEnv s) p) then leak s i p * el x i ^ 2 else 0)).
  Proof.
    intros Hm H Hx.
    assert (forall i, Decision (at_part s i True (fun p => ~ unknown (cEnv s) p))) as Dec.
    { intros i. unfold at_part. destruct (cParts s !! i); apply _. }
    rewrite (quad_form (psize s) (off s) (fun i => at_part s i 0 (leak s i)) (fun i => at_part s i True (fun p => ~ unknown (cEnv s) p)) (cA t) x).
    - f_equal. apply sum_n_ext. intros i Hi. destruct (decide _) as [HE|HE]; unfold at_part in *; destruct (cParts s !! i) as [p|] eqn:Hp; try done.
      + by destruct (decide (unknown _ p)).
      + destruct (decide (unknown _ p)) as [_|]; [done|tauto].
    - intros i j _ _. apply off_sym.
    - intros i _. unfold off, at_part. destruct (cParts s !! i); [|done]. destruct (decide _); [|done]. destruct (decide _) as [[(C & _) _]|]; done.
    - intros i j _ HE. unfold off, at_part in *. destruct (cParts s !! i) as [p|]; [|done]. by destruct (decide _).
    - intros i Hi HE. unfold at_part in HE. destruct (lookup_lt_is_Some_2 (cParts s) i Hi) as [p Hp]. rewrite Hp in HE. by apply (Hx i p).
    - intros i j Hi Hj HE. unfold at_part in HE. destruct (lookup_lt_is_Some_2 (cParts s) i Hi) as [p Hp]. rewrite Hp in HE.
      assert (unknown (cEnv s) p) as Hu by (destruct (decide (unknown (cEnv s) p)); tauto).
      destruct (C30_rows s t i p Hm H Hp Hu) as (HR & HD & _).
      assert (forall j, off s i j = if decide (coupled s i j) then at_part s j 0 (fun q => laplacian (cEnv s) (edist (pX p) (pX q))) else 0) as Hoff.
      { intros k. unfold off. rewrite (at_part_eq s i p) by done. by rewrite decide_True by done. }
      destruct (Nat.eqb_spec j i) as [->|Hji].
      + rewrite HD, (at_part_eq s i p) by done. do 2 f_equal. apply sum_n_ext. intros k _. by rewrite Hoff.
      + rewrite HR by done. by rewrite Hoff.
  Qed.

  (** ** C31: the matrix is negative semi-definite on the unknowns ... *)
  Theorem C31_semidefinite s t x :
    midstep s -> apart s -> positive_constants (cEnv s) -> set_ppe s = Some t -> vanishes s x ->
    quad (psize s) (cA t) x <= 0.
  Proof.
    intros Hm Hap HC H Hx. rewrite (ppe_quad s t x) by done.
    assert (0 <= sum_n (psize s) (fun i => sum_n (psize s) (fun j => off s i j * (el x i - el x j) ^ 2))) as H1.
    { apply sum_n_nonneg. intros i _. apply sum_n_nonneg. intros j _. apply Rmult_le_pos; [by apply off_nonneg|apply pow2_ge_0]. }
    assert (0 <= sum_n (psize s) (fun i => at_part s i 0 (fun p => if decide (unknown (cEnv s) p) then leak s i p * el x i ^ 2 else 0))) as H2.
    { apply sum_n_nonneg. intros i _. unfold at_part. destruct (cParts s !! i) as [p|] eqn:Hp; [|lra]. destruct (decide _) as [Hu|]; [|lra].
      apply Rmult_le_pos; [|apply pow2_ge_0]. apply leak_nonneg; try done; [apply HC|apply HC|apply Hu]. }
    lra.
  Qed.
  (** ... and definite if all of them are connected to the free surface. *)
  Theorem C31_definite s t x :
    midstep s -> apart s -> positive_constants (cEnv s) -> set_ppe s = Some t -> vanishes s x ->
    (forall i p, cParts s !! i = Some p -> unknown (cEnv s) p -> surface_connected s i) ->
    (exists i, (i < psize s)%nat /\ el x i <> 0) ->
    quad (psize s) (cA t) x < 0.
  Proof.
    intros Hm Hap HC H Hx Hconn (k & Hk & Hne). destruct (Rle_lt_or_eq_dec _ _ (C31_semidefinite s t x Hm Hap HC H Hx)) as [L|E]; [done|].
    exfalso. apply Hne. rewrite (ppe_quad s t x) in E by done.
    assert (forall i, (i < psize s)%nat -> 0 <= sum_n (psize s) (fun j => off s i j * (el x i - el x j) ^ 2)) as P1.
    { intros i _. apply sum_n_nonneg. intros j _. apply Rmult_le_pos; [by apply off_nonneg|apply pow2_ge_0]. }
    assert (forall i, (i < psize s)%nat -> 0 <= at_part s i 0 (fun p => if decide (unknown (cEnv s) p) then leak s i p * el x i ^ 2 else 0)) as P2.
    { intros i _. unfold at_part. destruct (cParts s !! i) as [p|] eqn:Hp; [|lra]. destruct (decide _) as [Hu|]; [|lra].
      apply Rmult_le_pos; [|apply pow2_ge_0]. apply leak_nonneg; try done; [apply HC|apply HC|apply Hu]. }
    pose proof (sum_n_nonneg _ _ P1) as S1. pose proof (sum_n_nonneg _ _ P2) as S2.
    assert (forall i j, (i < psize s)%nat -> (j < psize s)%nat -> off s i j * (el x i - el x j) ^ 2 = 0) as Z1.
    { intros i j Hi Hj. pose proof (sum_n_ge _ _ i P1 Hi) as Q1. cbv beta in Q1.
      assert (forall j, (j < psize s)%nat -> 0 <= off s i j * (el x i - el x j) ^ 2) as P3.
      { intros j' _. apply Rmult_le_pos; [by apply off_nonneg|apply pow2_ge_0]. }
      pose proof (sum_n_ge _ _ j P3 Hj) as Q2. cbv beta in Q2. specialize (P3 j Hj). lra. }
    assert (forall i p, cParts s !! i = Some p -> unknown (cEnv s) p -> leak s i p * el x i ^ 2 = 0) as Z2.
    { intros i p Hp Hu. assert (i < psize s)%nat as Hi by (by eapply lookup_lt_Some). pose proof (sum_n_ge _ _ i P2 Hi) as Q. specialize (P2 i Hi).
      cbv beta in Q, P2. rewrite (at_part_eq s i p) in Q, P2 by done. rewrite decide_True in Q, P2 by done. lra. }
    assert (forall i, surface_connected s i -> el x i = 0) as Z3.
    { induction 1 as [i p Hp Hu HS|i p j Hp Hu Hc _ IH].
      - specialize (Z2 i p Hp Hu). destruct (leak_nonneg s i p) as [_ L]; try done; [apply HC|apply HC|apply Hu|]. specialize (L HS).
        apply Rmult_integral in Z2 as [Z2|Z2]; [lra|]. destruct (Req_EM_T (el x i) 0) as [|N]; [done|]. by apply (pow_nonzero _ 2) in N.
      - destruct (coupled_inv s i j Hc) as (p' & q & Hij & Hp' & Hq & HU & Hd). rewrite Hp in Hp'. injection Hp' as <-.
        specialize (Z1 i j ltac:(by eapply lookup_lt_Some) ltac:(by eapply lookup_lt_Some)). rewrite IH in Z1.
        assert (0 < off s i j).
        { unfold off. rewrite (at_part_eq s i p) by done. rewrite !decide_True by done. rewrite (at_part_eq s j q) by done.
          apply (leak_terms s i p j q); try done; [apply HC|apply HC|apply Hu|apply Hc]. }
        apply Rmult_integral in Z1 as [Z1|Z1]; [lra|]. replace (el x i - 0) with (el x i) in Z1 by ring.
        destruct (Req_EM_T (el x i) 0) as [|N]; [done|]. by apply (pow_nonzero _ 2) in N. }
    destruct (lookup_lt_is_Some_2 (cParts s) k Hk) as [p Hp]. destruct (decide (unknown (cEnv s) p)) as [Hu|Hu]; [|by apply (Hx k p)].
    apply Z3. by eapply Hconn.
  Qed.

  Lemma ppe_excluded_product s t i p x : midstep s -> set_ppe s = Some t -> cParts s !! i = Some p -> ~ unknown (cEnv s) p ->
    mat_vec (psize s) (cA t) x i = el x i.
  Proof.
    intros Hm H Hp Hu. unfold mat_vec. destruct (C30_excluded_rows s t i p H Hp Hu) as [HR _].
    rewrite (sum_n_ext _ _ (fun j => if (j =? i)%nat then el x j else 0)).
    - rewrite sum_n_delta; [done|]. by eapply lookup_lt_Some.
    - intros j _. rewrite HR. destruct (j =? i)%nat; simpl; ring.
  Qed.
  Lemma el_lookup (l : list R) i v : l !! i = Some v -> el l i = v.
  Proof. intros H. apply (nth_lookup_Some l i 0 v H). Qed.
  Lemma vanishes_start s t : set_ppe s = Some t -> vanishes s (cXv t) /\ vanishes s (cBv t).
  Proof.
    intros H. split; intros i p Hp Hu; destruct (C30_excluded_rows s t i p H Hp Hu) as (_ & Hb & Hx); by apply el_lookup.
  Qed.

  (** ** C33: if the fluid is connected to a free surface, the solver does not fail. *)
  Theorem C33_pressure s t :
    midstep s -> apart s -> positive_constants (cEnv s) -> set_ppe s = Some t ->
    (forall i p, cParts s !! i = Some p -> unknown (cEnv s) p -> surface_connected s i) ->
    exists t', solve_ppe t = Done t'.
  Proof.
    intros Hm Hap HC H Hconn. destruct (ppe_lengths s t Hm H) as [Lx Lb]. destruct (vanishes_start s t H) as [Vx Vb].
    pose proof (ppe_sparse s t Hm H) as HS.
    assert ((cg_solve (N := Rnum) (cA t) (cXv t) (cBv t) (cEps t)).2 = true) as HT; [|unfold solve_ppe; rewrite HT; eauto].
    assert (forall i, Decision (at_part s i True (fun p => ~ unknown (cEnv s) p))) as Dec.
    { intros i. unfold at_part. destruct (cParts s !! i); apply _. }
    apply (C33_solver_converges (psize s) (cA t) (cXv t) (cBv t) (cEps t) (fun i => at_part s i True (fun p => ~ unknown (cEnv s) p))); try done.
    - assert (forall i j p, j <> i -> cParts s !! i = Some p -> elem (cA t) i j = off s i j) as Hel.
      { intros i j p Hji Hp. unfold off. rewrite (at_part_eq s i p) by done. destruct (decide (unknown _ p)) as [Hu|Hu].
        - destruct (C30_rows s t i p Hm H Hp Hu) as (HR & _). by apply HR.
        - destruct (C30_excluded_rows s t i p H Hp Hu) as [HR _]. rewrite HR. by destruct (Nat.eqb_spec j i). }
      intros i j Hi Hj. destruct (decide (i = j)) as [->|Hij]; [done|].
      destruct (lookup_lt_is_Some_2 (cParts s) i Hi) as [p Hp]. destruct (lookup_lt_is_Some_2 (cParts s) j Hj) as [q Hq].
      rewrite (Hel i j p), (Hel j i q) by done. apply off_sym.
    - intros i j Hi Hj HE HE'. destruct (lookup_lt_is_Some_2 (cParts s) i Hi) as [p Hp]. unfold at_part in HE, HE'. rewrite Hp in HE.
      destruct (C30_excluded_rows s t i p H Hp HE) as [HR _]. rewrite HR. destruct (Nat.eqb_spec j i) as [->|]; [|done]. by rewrite Hp in HE'.
    - intros i Hi HE. destruct (lookup_lt_is_Some_2 (cParts s) i Hi) as [p Hp]. unfold at_part in HE. rewrite Hp in HE.
      rewrite (ppe_excluded_product s t i p) by done. by rewrite (Vx i p), (Vb i p).
    - intros y Ly Vy Hne E0. assert (vanishes s y) as V.
      { intros i p Hp Hu. apply Vy; [by eapply lookup_lt_Some|]. unfold at_part. by rewrite Hp. }
      pose proof (C31_definite s t y Hm Hap HC H V Hconn Hne). lra.
  Qed.

  (** ** C34: the unknowns of particles without an equation of their own stay 0 at every iteration: whatever the tolerance
      and the number of iterations. *)
  Theorem C34_excluded_stay_zero s t i p (tol : R) (fuel : nat) :
    midstep s -> set_ppe s = Some t -> cParts s !! i = Some p -> ~ unknown (cEnv s) p ->
    let r := lsub (N := Rnum) (cBv t) (lprod (cA t) (cXv t)) in
    el (cg_loop (N := Rnum) (cA t) tol fuel (cXv t) r r (ldot r r)).1 i = 0.
  Proof.
    intros Hm H Hp Hu r. destruct (ppe_lengths s t Hm H) as [Lx Lb]. destruct (vanishes_start s t H) as [Vx Vb].
    pose proof (ppe_sparse s t Hm H) as HS.
    assert (length (r : list R) = psize s) as Lr.
    { change (length (rsub (cBv t) (rprod (cA t) (cXv t))) = psize s). rewrite rsub_length; [done|]. rewrite (rprod_length (psize s)); done. }
    apply (loop_subspace (psize s) (cA t) (fun k => exists q, cParts s !! k = Some q /\ ~ unknown (cEnv s) q) tol fuel HS); try done.
    - intros y Ly Hy k (q & Hq & Hqu). rewrite (el_rprod (psize s)) by done. rewrite (ppe_excluded_product s t k q) by done. apply Hy. eauto.
    - intros k (q & Hq & Hqu). by apply (Vx k q).
    - intros k (q & Hq & Hqu). change (el (rsub (cBv t) (rprod (cA t) (cXv t))) k = 0). rewrite el_sub by (rewrite (rprod_length (psize s)); done).
      rewrite (el_rprod (psize s)) by done. rewrite (ppe_excluded_product s t k q), (Vx k q), (Vb k q) by done. ring.
    - intros k (q & Hq & Hqu). change (el (rsub (cBv t) (rprod (cA t) (cXv t))) k = 0). rewrite el_sub by (rewrite (rprod_length (psize s)); done).
      rewrite (el_rprod (psize s)) by done. rewrite (ppe_excluded_product s t k q), (Vx k q), (Vb k q) by done. ring.
    - eauto.
  Qed.

  (** ** C32 for a whole implicit phase *)
  Theorem C32_pressure s s' :
    midstep s -> cExplicit cfg = false -> compute_implicit s = Done s' ->
    exists t (x : list R), set_ppe s = Some t /\ length x = psize s /\
      ((x = cXv t /\ (cEps s = (0 : Rnum) \/ res2 (psize s) (cA t) (cBv t) (cXv t) = 0))
       \/ res2 (psize s) (cA t) (cBv t) x < (cEps s : R) ^ 2 * res2 (psize s) (cA t) (cBv t) (cXv t)) /\
      forall i p, cParts s !! i = Some p -> unknown (cEnv s) p ->
      exists p', cParts s' !! i = Some p' /\ pP p' = Rmax 0 (el x i).
  Proof.
    intros Hm Hx H. destruct (implicit_Done s s' H Hx) as (t & s2 & s3 & [H1 H2 H3 H4 H5]).
    destruct (ppe_lengths s t Hm H1) as [Lx Lb]. pose proof (ppe_sparse s t Hm H1) as HS.
    assert (cEps t = cEps s) as HEps by (by rewrite (set_ppe_rest _ _ H1)).
    destruct (cg_solve (N := Rnum) (cA t) (cXv t) (cBv t) (cEps t)) as [x ok] eqn:EC. cbn [fst snd] in H2, H3. subst ok.
    destruct (C32_solver (psize s) (cA t) (cXv t) (cBv t) (cEps t) x true HS Lb Lx EC) as [L HR].
    exists t, x. split; [done|]. split; [done|]. split; [by rewrite <- HEps|].
    intros i p Hp Hu. assert (cParts s2 !! i = Some p) as Hp2 by (rewrite H2; simpl; by rewrite (set_ppe_rest _ _ H1)).
    pose proof (assign_at _ _ _ _ H4 Hp2) as Ha. pose proof (proj2 (excluded_unknown _ _) Hu) as Hex. unfold ppe_excluded in Hex.
    apply orb_false_iff in Hex as [Hact Hsur]. apply negb_false_iff in Hact. rewrite Hact in Ha. destruct Ha as (v & Hv & Hp3).
    assert (cEnv s2 = cEnv s) as HE by (rewrite H2; simpl; by rewrite (set_ppe_rest _ _ H1)).
    assert (clamp s2 p v = Rmax 0 (el x i)) as Hcl.
    { unfold clamp. rewrite HE, Hsur, orb_false_r. assert (el x i = v) as -> by (apply el_lookup; rewrite H2 in Hv; exact Hv).
      destruct (_ <?. _) eqn:Elt.
      - apply Rltb_true in Elt. rewrite Rmax_left; [done|]. simpl in Elt. lra.
      - apply Rltb_false in Elt. rewrite Rmax_right; [done|]. simpl in Elt. lra. }
    pose proof (gradient_at _ _ _ _ H5 Hp3) as Hk. simpl in Hk. destruct (is_newton (pT p)).
    - destruct Hk as (a & _ & Hk). eexists. split; [exact Hk|]. simpl. exact Hcl.
    - eexists. split; [exact Hk|]. simpl. exact Hcl.
  Qed.
  (** A failing solver is reported as such, and only then. *)
  Theorem C32_failure s t' e :
    midstep s -> cExplicit cfg = false -> compute_implicit s = Throw e t' ->
    exists t, set_ppe s = Some t /\ e = CgNotConverged /\
      (cEps s : R) ^ 2 * res2 (psize s) (cA t) (cBv t) (cXv t) <= res2 (psize s) (cA t) (cBv t) (cXv t').
  Proof.
    intros Hm Hx H. unfold compute_implicit in H. rewrite Hx in H. destruct (set_ppe s) as [t|] eqn:H1; [|done]. simpl in H.
    destruct (ppe_lengths s t Hm H1) as [Lx Lb]. pose proof (ppe_sparse s t Hm H1) as HS.
    assert (cEps t = cEps s) as HEps by (by rewrite (set_ppe_rest _ _ H1)).
    unfold solve_ppe in H. destruct (cg_solve (N := Rnum) (cA t) (cXv t) (cBv t) (cEps t)) as [x ok] eqn:EC. cbn [fst snd] in H.
    destruct (C32_solver (psize s) (cA t) (cXv t) (cBv t) (cEps t) x ok HS Lb Lx EC) as [L HR].
    destruct ok.
    - exfalso. simpl in H. revert H. match goal with |- of_opt ?o >>o _ = _ -> _ => destruct o as [s3|] end; [|done]. simpl. by destruct (modify_by_gradient s3).
    - simpl in H. injection H as <- <-. exists t. split; [done|]. split; [done|]. simpl. by rewrite <- HEps.
  Qed.
End Equation.

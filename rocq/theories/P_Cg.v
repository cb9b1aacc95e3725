(** The conjugate gradient iteration over the reals. *)
From Coq Require Import ZifyBool.
From Verif Require Export P_AccR.
Open Scope R_scope.

(** Element [i] of a vector. *)
Notation el x i := (nth i (x : list R) 0).
(** Specification side: inner product. *)
Definition dotn (n : nat) (x y : list R) : R := sum_n n (fun i => el x i * el y i).

(** The vector operations of the model, at type [list R]. *)
Definition radd (x y : list R) : list R := ladd (N := Rnum) x y.
Definition rsub (x y : list R) : list R := lsub (N := Rnum) x y.
Definition rscal (c : R) (x : list R) : list R := lscal (N := Rnum) c x.
Definition rdot (x y : list R) : R := ldot (N := Rnum) x y.
Definition rprod (A : list (mrow (N := Rnum))) (x : list R) : list R := lprod (N := Rnum) A x.
Definition rloop (A : list (mrow (N := Rnum))) (r0 : R) (fuel : nat) (x r p : list R) (rr : R) : list R * bool :=
  cg_loop (N := Rnum) A r0 fuel x r p rr.
Lemma rloop_S A r0 fuel x r p rr : rloop A r0 (S fuel) x r p rr =
  let Ap := rprod A p in
  let alpha := rr / rdot p Ap in
  let x' := radd x (rscal alpha p) in
  let r' := rsub r (rscal alpha Ap) in
  if Rlt_dec (rdot r' r') r0 then (x', true)
  else rloop A r0 fuel x' r' (radd r' (rscal (rdot r' r' / rr) p)) (rdot r' r').
Proof.
  unfold rloop. cbn [cg_loop]. cbv zeta. unfold nltb. cbn [Rnum]. change (ldot (N := Rnum)) with rdot. change (lsub (N := Rnum)) with rsub.
  change (lscal (N := Rnum)) with rscal. change (lprod (N := Rnum)) with rprod. change (ladd (N := Rnum)) with radd.
  change (@ndiv Rnum) with Rdiv. by destruct (Rlt_dec _ _).
Qed.

Section Lists.
  Notation vec := (list R).
  Implicit Types x y z : vec.

  Lemma el_zip (f : R -> R -> R) x y i : length x = length y -> f 0 0 = 0 -> el (zip_with f x y) i = f (el x i) (el y i).
  Proof.
    intros H H0. revert y i H. induction x as [|a x IH]; intros [|b y] i H; try discriminate; [by destruct i|].
    destruct i as [|i]; [done|]. simpl in *. apply IH. lia.
  Qed.
  Lemma el_add x y i : length x = length y -> el (radd x y) i = el x i + el y i.
  Proof. intros. change (radd x y) with (zip_with Rplus x y). rewrite (el_zip Rplus); [done|done|lra]. Qed.
  Lemma el_sub x y i : length x = length y -> el (rsub x y) i = el x i - el y i.
  Proof. intros. change (rsub x y) with (zip_with Rminus x y). rewrite (el_zip Rminus); [done|done|lra]. Qed.
  Lemma el_scal (c : R) x i : el (rscal c x) i = c * el x i.
  Proof.
    change (rscal c x) with (map (Rmult c) x). revert i. induction x as [|a x IH]; intros i; [destruct i; simpl; lra|].
    destruct i as [|i]; [done|]. apply IH.
  Qed.
  Lemma ldot_dotn x y n : length x = n -> length y = n -> rdot x y = dotn n x y.
  Proof.
    intros Hx Hy. unfold rdot, ldot, dotn, sum_n.
    transitivity (rsum (map (fun p : R * R => p.1 * p.2) (zip x y))).
    - assert (forall (l : list (R * R)) (t : R), foldl (fun t p => t + p.1 * p.2) t l = t + rsum (map (fun p : R * R => p.1 * p.2) l)) as H.
      { induction l as [|a l IH]; intros t; unfold rsum; simpl; [lra|]. rewrite IH. unfold rsum. lra. }
      etransitivity; [exact (H (zip x y) 0)|]. lra.
    - subst n. revert y Hy. induction x as [|a x IH]; intros [|b y] Hy; try discriminate; [done|].
      simpl. unfold rsum in *. simpl. f_equal. rewrite IH by (simpl in Hy; lia). rewrite <- seq_shift, map_map. done.
  Qed.
  Lemma list_el_ext x y : length x = length y -> (forall i, (i < length x)%nat -> el x i = el y i) -> x = y.
  Proof.
    intros Hl H. apply nth_ext with (d := 0) (d' := 0); [done|]. done.
  Qed.
  Lemma dotn_comm n x y : dotn n x y = dotn n y x.
  Proof. unfold dotn. apply sum_n_ext. intros. lra. Qed.
  Lemma dotn_add n x y z : length x = length y -> dotn n z (radd x y) = dotn n z x + dotn n z y.
  Proof. intros H. unfold dotn. rewrite <- sum_n_plus. apply sum_n_ext. intros. rewrite el_add by done. lra. Qed.
  Lemma dotn_sub n x y z : length x = length y -> dotn n z (rsub x y) = dotn n z x - dotn n z y.
  Proof. intros H. unfold dotn. rewrite <- sum_n_sub. apply sum_n_ext. intros. rewrite el_sub by done. lra. Qed.
  Lemma dotn_scal n (c : R) x z : dotn n z (rscal c x) = c * dotn n z x.
  Proof. unfold dotn. rewrite <- sum_n_scal. apply sum_n_ext. intros. rewrite el_scal. lra. Qed.
  Lemma dotn_pos n x : 0 <= dotn n x x.
  Proof. unfold dotn. apply sum_n_nonneg. intros. nra. Qed.
  Lemma dotn_zero n x y : length x = n -> dotn n x x = 0 -> dotn n y x = 0.
  Proof.
    intros Hl H. unfold dotn. apply sum_n_zero. intros i Hi.
    assert (el x i * el x i <= 0).
    { eapply Rle_trans; [|right; exact H]. apply (sum_n_ge n (fun i => el x i * el x i)); [|done]. intros. nra. }
    assert (el x i = 0) as -> by nra. lra.
  Qed.
  Lemma radd_length x y : length x = length y -> length (radd x y) = length x.
  Proof. intros H. unfold radd. apply zip_with_length_l, Nat.eq_le_incl, H. Qed.
  Lemma rsub_length x y : length x = length y -> length (rsub x y) = length x.
  Proof. intros H. unfold rsub. apply zip_with_length_l, Nat.eq_le_incl, H. Qed.
  Lemma rscal_length (c : R) x : length (rscal c x) = length x.
  Proof. apply map_length. Qed.

  Lemma sum_n_const m (c : R) : sum_n m (fun _ => c) = INR m * c.
  Proof. induction m as [|m IH]; [unfold sum_n, rsum; simpl; lra|]. rewrite sum_n_S, IH, S_INR. lra. Qed.

  (** Bessel's inequality, and: there are at most [n] nonzero pairwise orthogonal vectors. *)
  Lemma bessel n (L : list vec) :
    (forall x, x ∈ L -> length x = n /\ dotn n x x <> 0) ->
    ForallOrdPairs (fun x y => dotn n x y = 0) L -> forall e, length e = n ->
    rsum (map (fun x => dotn n e x * dotn n e x / dotn n x x) L) <= dotn n e e.
  Proof.
    intros HL Ho. induction Ho as [|x L Hx Ho IH]; intros e He; [apply dotn_pos|].
    destruct (HL x) as [Hxl Hxx]; [by left|].
    set (c := dotn n e x / dotn n x x). set (e' := rsub e (rscal c x)).
    assert (length (rscal c x) = n) as Hs by (by rewrite rscal_length).
    assert (length e' = n) as He' by (unfold e'; rewrite rsub_length; congruence).
    assert (forall v, dotn n v e' = dotn n v e - c * dotn n v x) as Hd.
    { intros v. unfold e'. rewrite dotn_sub by congruence. by rewrite dotn_scal. }
    assert (forall y, y ∈ L -> dotn n e' y = dotn n e y) as Hy.
    { intros y Hyl. rewrite dotn_comm, Hd, (dotn_comm n y x), (dotn_comm n y e).
      rewrite Forall_forall in Hx. rewrite (Hx y Hyl). lra. }
    assert (dotn n e' e' = dotn n e e - dotn n e x * dotn n e x / dotn n x x) as HE.
    { rewrite Hd, (dotn_comm n e' e), Hd, (dotn_comm n e' x), Hd, (dotn_comm n x e). unfold c. field. done. }
    unfold rsum. simpl. fold (rsum (map (fun y => dotn n e y * dotn n e y / dotn n y y) L)).
    assert (rsum (map (fun y => dotn n e' y * dotn n e' y / dotn n y y) L) <= dotn n e' e') as HI.
    { apply IH; [|done]. intros y Hyl. apply HL. by right. }
    rewrite HE in HI.
    rewrite (rsum_map_ext _ (fun y => dotn n e y * dotn n e y / dotn n y y)) in HI.
    - lra.
    - intros y Hyl. by rewrite Hy.
  Qed.
  Definition unit n (i : nat) : vec := map (fun j => if (j =? i)%nat then 1 else 0) (seq 0 n).
  Lemma unit_length n i : length (unit n i) = n.
  Proof. unfold unit. by rewrite map_length, seq_length. Qed.
  Lemma el_unit n i j : (j < n)%nat -> el (unit n i) j = if (j =? i)%nat then 1 else 0.
  Proof.
    intros Hj. unfold unit. rewrite (nth_indep _ 0 (if (0 =? i)%nat then 1 else 0)) by (by rewrite map_length, seq_length).
    rewrite (map_nth (fun j => if (j =? i)%nat then 1 else 0)). by rewrite seq_nth.
  Qed.
  Lemma dotn_unit n i x : (i < n)%nat -> dotn n (unit n i) x = el x i.
  Proof.
    intros Hi. unfold dotn. rewrite <- (sum_n_delta n i (fun j => el x j)) by done. apply sum_n_ext. intros j Hj.
    rewrite el_unit by done. destruct (j =? i)%nat; lra.
  Qed.
  Lemma orthogonal_bound n (L : list vec) :
    (forall x, x ∈ L -> length x = n /\ dotn n x x <> 0) ->
    ForallOrdPairs (fun x y => dotn n x y = 0) L -> (length L <= n)%nat.
  Proof.
    intros HL Ho. apply INR_le.
    apply Rle_trans with (sum_n n (fun i => rsum (map (fun x => dotn n (unit n i) x * dotn n (unit n i) x / dotn n x x) L))).
    - unfold sum_n. rewrite rsum_map_swap. right.
      transitivity (rsum (map (fun _ : vec => 1) L)).
      + clear. induction L as [|x L IH]; [done|]. cbn [length]. rewrite S_INR, IH. unfold rsum. simpl. lra.
      + apply rsum_map_ext. intros x Hx. destruct (HL x Hx) as [Hl Hn].
        fold (sum_n n (fun i => dotn n (unit n i) x * dotn n (unit n i) x / dotn n x x)).
        rewrite (sum_n_ext n _ (fun i => / dotn n x x * (el x i * el x i))).
        * rewrite sum_n_scal. fold (dotn n x x). field. done.
        * intros i Hi. rewrite dotn_unit by done. unfold Rdiv. lra.
    - apply Rle_trans with (sum_n n (fun _ => 1)).
      + apply sum_n_le. intros i Hi. apply Rle_trans with (dotn n (unit n i) (unit n i)).
        * apply bessel; [done|done|apply unit_length].
        * rewrite dotn_unit, el_unit by done. rewrite Nat.eqb_refl. lra.
      + right. rewrite sum_n_const. lra.
  Qed.

  (** ** The iteration *)
  Variables (n : nat) (A : list (mrow (N := Rnum))).
  Notation "x '•' y" := (dotn n x y) (at level 40).
  Notation Ax x := (rprod A x).
  Hypothesis HA : length A = n.

  Lemma Ax_length x : length (Ax x) = n.
  Proof. unfold rprod, lprod. by rewrite map_length. Qed.
  Lemma row_prod_sum (row : mrow (N := Rnum)) x : row_prod row x = rsum (map (fun e : nat * R => e.2 * el x e.1) row).
  Proof.
    assert (forall (l : list (nat * R)) (t : R), foldl (fun t e => t + e.2 * el x e.1) t l = t + rsum (map (fun e : nat * R => e.2 * el x e.1) l)) as H.
    { induction l as [|e l IH]; intros t; unfold rsum; simpl; [lra|]. rewrite IH. unfold rsum. lra. }
    etransitivity; [exact (H row 0)|]. lra.
  Qed.
  Lemma el_Ax x i : el (Ax x) i = match A !! i with Some row => row_prod row x | None => 0 end.
  Proof.
    clear HA. unfold rprod, lprod. revert i. induction A as [|row B IH]; intros i; [by destruct i|]. destruct i as [|i]; [done|]. apply IH.
  Qed.
  Lemma Ax_lin x y (c : R) : length x = length y ->
    Ax (radd x (rscal c y)) = radd (Ax x) (rscal c (Ax y)).
  Proof.
    intros Hl. apply list_el_ext.
    - rewrite radd_length; rewrite ?rscal_length, ?Ax_length; done.
    - intros i _. rewrite el_add by (by rewrite rscal_length, !Ax_length). rewrite el_scal, !el_Ax.
      destruct (A !! i) as [row|]; [|lra]. rewrite !row_prod_sum, <- rsum_map_scal, <- rsum_map_plus.
      apply rsum_map_ext. intros e _. rewrite el_add by (by rewrite rscal_length). rewrite el_scal. lra.
  Qed.

  (** The residual updated along the way is the residual. *)
  Lemma residual_step x p b (c : R) : length x = n -> length p = n -> length b = n ->
    rsub (rsub b (Ax x)) (rscal c (Ax p))
    = rsub b (Ax (radd x (rscal c p))).
  Proof.
    intros Hx Hp Hb. rewrite Ax_lin by congruence.
    pose proof (Ax_length x). pose proof (Ax_length p). pose proof (rscal_length c (Ax p)).
    assert (length (radd (Ax x) (rscal c (Ax p))) = n) by (rewrite radd_length; congruence).
    assert (length (rsub b (Ax x)) = n) by (rewrite rsub_length; congruence).
    apply list_el_ext; [rewrite !rsub_length; congruence|].
    intros i _. rewrite !el_sub, el_add by congruence. lra.
  Qed.

  (** Result of the loop: convergence means that the true residual is below the tolerance; failure
      that it is not. *)
  Lemma cg_loop_residual b r0 fuel : forall x r p rr,
    length x = n -> length p = n -> length b = n -> r = rsub b (Ax x) ->
    let out := rloop A r0 fuel x r p rr in
    length out.1 = n /\ (if out.2 then rsub b (Ax out.1) • rsub b (Ax out.1) < r0
     else fuel <> O -> r0 <= rsub b (Ax out.1) • rsub b (Ax out.1)).
  Proof.
    induction fuel as [|fuel IH]; intros x r p rr Hx Hp Hb Hr; [split; [done|]; intros Hc; by destruct Hc|].
    rewrite rloop_S. cbv zeta. set (alpha := rr / _).
    set (x' := radd x _). set (r' := rsub r _).
    assert (r' = rsub b (Ax x')) as Hr' by (unfold r', x'; rewrite Hr; by apply residual_step).
    assert (length x' = n) as Hx' by (unfold x'; rewrite radd_length; rewrite ?rscal_length; congruence).
    assert (length r' = n) as Hrl by (rewrite Hr', rsub_length; rewrite ?Ax_length; congruence).
    destruct (Rlt_dec _ _) as [E|E].
    - rewrite (ldot_dotn _ _ n) in E by done. cbn [fst snd]. rewrite <- Hr'. done.
    - set (p' := radd r' _).
      assert (length p' = n) as Hp' by (unfold p'; rewrite radd_length; rewrite ?rscal_length; congruence).
      destruct (IH x' r' p' (rdot r' r') Hx' Hp' Hb Hr') as [I1 I2].
      destruct fuel as [|fuel].
      + cbn [rloop cg_loop fst snd]. split; [done|]. intros _. rewrite (ldot_dotn _ _ n) in E by done.
        rewrite <- Hr'. lra.
      + split; [exact I1|]. destruct (rloop _ _ _ _ _ _ _).2; [done|]. intros _. by apply I2.
  Qed.

  (** ** Convergence *)
  Variable W : vec -> Prop.
  Hypothesis WA : forall x, length x = n -> W x -> W (Ax x).
  Hypothesis Wlin : forall x y (c : R), length x = n -> length y = n -> W x -> W y -> W (radd x (rscal c y)).
  Hypothesis Wsub : forall x y (c : R), length x = n -> length y = n -> W x -> W y -> W (rsub x (rscal c y)).
  Hypothesis Hsym : forall x y, length x = n -> length y = n -> x • Ax y = Ax x • y.
  Hypothesis Hdef : forall x, length x = n -> W x -> x • x <> 0 -> x • Ax x <> 0.

  Record cg_inv (H : list (vec * vec)) (r p : vec) : Prop := {
    ci_r : length r = n; ci_p : length p = n;
    ci_H : forall h, h ∈ H -> length h.1 = n /\ length h.2 = n;
    ci_Wr : W r; ci_Wp : W p;
    ci_rr : forall h, h ∈ H -> h.1 • r = 0;
    ci_rp : forall h, h ∈ H -> h.2 • r = 0;
    ci_pp : forall h, h ∈ H -> p • Ax h.2 = 0;
    ci_S : forall v, length v = n -> (forall h, h ∈ H -> v • h.2 = 0) -> forall h, h ∈ H -> v • h.1 = 0;
    ci_S2 : forall v, length v = n -> (forall h, h ∈ H -> v • h.2 = 0) -> v • r = v • p;
    ci_I3 : forall v, length v = n -> (forall h, h ∈ H -> v • h.1 = 0) -> v • r = 0 -> forall h, h ∈ H -> v • Ax h.2 = 0;
    ci_orth : ForallOrdPairs (fun x y => x • y = 0) (map fst H ++ [r]);
    ci_nz : forall x, x ∈ map fst H ++ [r] -> x • x <> 0
  }.

  Lemma FOP_snoc {B} (R : B -> B -> Prop) l a : ForallOrdPairs R l -> (forall b : B, b ∈ l -> R b a) -> ForallOrdPairs R (l ++ [a]).
  Proof.
    induction 1 as [|x l Hx Hl IH]; intros Ha; simpl; [constructor; constructor|]. constructor.
    - apply Forall_app. split; [done|]. constructor; [|done]. apply Ha. by left.
    - apply IH. intros y Hy. apply Ha. by right.
  Qed.

  Lemma cg_inv_step H r p : cg_inv H r p ->
    let rr := r • r in
    let alpha := rr / (p • Ax p) in
    let r' := rsub r (rscal alpha (Ax p)) in
    let p' := radd r' (rscal ((r' • r') / rr) p) in
    r' • r' <> 0 -> cg_inv (H ++ [(r, p)]) r' p'.
  Proof.
    intros I rr alpha r' p' Hnz. pose proof (ci_r _ _ _ I) as Lr. pose proof (ci_p _ _ _ I) as Lp.
    pose proof (Ax_length p) as LA. assert (length (rscal alpha (Ax p)) = n) as Ls by (by rewrite rscal_length).
    assert (length r' = n) as Lr' by (unfold r'; rewrite rsub_length; congruence).
    assert (length (rscal ((r' • r') / rr) p) = n) as Lsp by (by rewrite rscal_length).
    assert (length p' = n) as Lp' by (unfold p'; rewrite radd_length; congruence).
    assert (rr <> 0) as Hrr by (apply (ci_nz _ _ _ I); apply elem_of_app; right; by left).
    assert (r • p = rr) as Hrp.
    { symmetry. apply (ci_S2 _ _ _ I); [done|]. intros h Hh. rewrite dotn_comm. by apply (ci_rp _ _ _ I). }
    assert (p • p <> 0) as Hpp by (intros E; apply Hrr; rewrite <- Hrp; by apply dotn_zero).
    assert (p • Ax p <> 0) as HpAp by (apply Hdef; [done|apply I|done]).
    assert (alpha <> 0) as Halpha by (unfold alpha, Rdiv; apply Rmult_integral_contrapositive_currified; [done|by apply Rinv_neq_0_compat]).
    assert (forall v, v • r' = v • r - alpha * (v • Ax p)) as Dr'.
    { intros v. unfold r'. rewrite dotn_sub by congruence. by rewrite dotn_scal. }
    assert (forall v, v • p' = v • r' + (r' • r') / rr * (v • p)) as Dp'.
    { intros v. unfold p'. rewrite dotn_add by congruence. by rewrite dotn_scal. }
    assert (forall h, h ∈ H -> Ax p • h.2 = 0) as HAp.
    { intros h Hh. destruct (ci_H _ _ _ I h Hh). rewrite <- Hsym by done. by apply (ci_pp _ _ _ I). }
    assert (Ax p • r = p • Ax p) as HApr.
    { rewrite (dotn_comm n p). by apply (ci_S2 _ _ _ I). }
    assert (forall h, h ∈ H -> h.1 • r' = 0) as Hr1.
    { intros h Hh. rewrite Dr', (ci_rr _ _ _ I h Hh), (dotn_comm n h.1), (ci_S _ _ _ I (Ax p) LA HAp h Hh). lra. }
    assert (r • r' = 0) as Hr2.
    { rewrite Dr', (dotn_comm n r (Ax p)), HApr. fold rr. unfold alpha. field. done. }
    assert (forall h, h ∈ H -> h.2 • r' = 0) as Hr3.
    { intros h Hh. rewrite Dr', (ci_rp _ _ _ I h Hh), (dotn_comm n h.2), (HAp h Hh). lra. }
    assert (p • r' = 0) as Hr4.
    { rewrite Dr', (dotn_comm n p r), Hrp. unfold alpha. field. done. }
    assert (forall h, h ∈ H -> r' • Ax h.2 = 0) as Hr5.
    { apply (ci_I3 _ _ _ I); [done| |]; [intros h Hh; rewrite dotn_comm; by apply Hr1|by rewrite dotn_comm]. }
    assert (forall v, v • r = 0 -> v • r' = 0 -> v • Ax p = 0) as HI3.
    { intros v E1 E2. rewrite Dr', E1 in E2. apply (Rmult_eq_reg_l alpha); [lra|done]. }
    split.
    - done.
    - done.
    - intros h [Hh|Hh%elem_of_list_singleton]%elem_of_app; [by apply (ci_H _ _ _ I)|by subst].
    - apply Wsub; [done|done|apply I|apply WA; [done|apply I]].
    - apply Wlin; [done|done| |apply I]. apply Wsub; [done|done|apply I|apply WA; [done|apply I]].
    - intros h [Hh|Hh%elem_of_list_singleton]%elem_of_app; [by apply Hr1|by subst].
    - intros h [Hh|Hh%elem_of_list_singleton]%elem_of_app; [by apply Hr3|by subst].
    - intros h [Hh|Hh%elem_of_list_singleton]%elem_of_app.
      + rewrite dotn_comm, Dp', (dotn_comm n _ r'), (dotn_comm n _ p), Hr5, (ci_pp _ _ _ I h Hh) by done. lra.
      + subst h. cbn [snd]. rewrite dotn_comm, Dp', (dotn_comm n _ p).
        assert (r' • Ax p = - (r' • r') / alpha) as HrA.
        { apply (Rmult_eq_reg_l alpha); [|done]. pose proof (Dr' r') as E. rewrite (dotn_comm n r' r), Hr2 in E.
          transitivity (- (r' • r')); [lra|]. field. done. }
        rewrite (dotn_comm n _ r'), HrA. unfold alpha. field. done.
    - intros v Lv Hv h [Hh|Hh%elem_of_list_singleton]%elem_of_app.
      + apply (ci_S _ _ _ I v Lv); [|done]. intros h' Hh'. apply Hv, elem_of_app. by left.
      + subst h. cbn [fst]. rewrite (ci_S2 _ _ _ I v Lv).
        * apply (Hv (r, p)), elem_of_app. right. by left.
        * intros h' Hh'. apply Hv, elem_of_app. by left.
    - intros v Lv Hv. rewrite Dp'. assert (v • p = 0) as ->; [|lra]. apply (Hv (r, p)), elem_of_app. right. by left.
    - intros v Lv Hv E h [Hh|Hh%elem_of_list_singleton]%elem_of_app.
      + apply (ci_I3 _ _ _ I v Lv); [| |done].
        * intros h' Hh'. apply Hv, elem_of_app. by left.
        * apply (Hv (r, p)), elem_of_app. right. by left.
      + subst h. cbn [snd]. apply HI3; [|done]. apply (Hv (r, p)), elem_of_app. right. by left.
    - rewrite map_app. simpl. apply FOP_snoc; [apply I|]. intros x [Hx|Hx%elem_of_list_singleton]%elem_of_app.
      + apply elem_of_list_In, in_map_iff in Hx as (h & <- & Hh). apply elem_of_list_In in Hh. by apply Hr1.
      + by subst.
    - rewrite map_app. simpl. intros x [Hx|Hx%elem_of_list_singleton]%elem_of_app; [by apply (ci_nz _ _ _ I)|by subst].
  Qed.

  Lemma cg_loop_converges r0 fuel : 0 < r0 -> forall H x r p rr,
    cg_inv H r p -> rr = r • r -> (length H + fuel = n)%nat -> (rloop A r0 fuel x r p rr).2 = true.
  Proof.
    intros Hr0. induction fuel as [|fuel IH]; intros H x r p rr I Hrr Hn.
    - exfalso. assert (length (map fst H ++ [r]) <= n)%nat as Hb.
      { apply orthogonal_bound.
        - intros y Hy. split; [|by apply (ci_nz _ _ _ I)]. apply elem_of_app in Hy as [Hy|Hy%elem_of_list_singleton].
          + apply elem_of_list_In, in_map_iff in Hy as (h & <- & Hh). apply elem_of_list_In in Hh. by apply (ci_H _ _ _ I).
          + subst. apply I.
        - apply I. }
      rewrite app_length, map_length in Hb. simpl in Hb. lia.
    - pose proof (ci_r _ _ _ I) as Lr. pose proof (ci_p _ _ _ I) as Lp.
      rewrite rloop_S. cbv zeta. rewrite (ldot_dotn p (Ax p) n Lp (Ax_length p)). rewrite Hrr.
      set (r' := rsub r _).
      assert (length r' = n) as Lr' by (unfold r'; rewrite rsub_length; rewrite ?rscal_length, ?Ax_length; congruence).
      rewrite (ldot_dotn r' r' n Lr' Lr'). destruct (Rlt_dec _ _) as [E|E]; [done|].
      apply (IH (H ++ [(r, p)])); [|done|rewrite app_length; simpl; lia].
      apply (cg_inv_step H r p I). cbv zeta. change (r' • r' <> 0). lra.
  Qed.

  Lemma cg_inv_init r : length r = n -> W r -> r • r <> 0 -> cg_inv [] r r.
  Proof.
    clear HA WA Wlin Wsub Hsym Hdef. intros Hl HW Hr. split; try done; try (intros h Hh; by apply elem_of_nil in Hh).
    - intros v _ _ h Hh. by apply elem_of_nil in Hh.
    - intros v _ _ _ h Hh. by apply elem_of_nil in Hh.
    - simpl. constructor; constructor.
    - intros x Hx%elem_of_list_singleton. by subst.
  Qed.
End Lists.

(** Property theorems: dummy particles (C27), in any arithmetic. *)
From Coq Require Import ZifyBool.
From Verif Require Import S_Dummy P_Life.

Section Dummy.
  Context {N : num} {cfg : config} {wm : wallmotion N (cDim cfg)}.
  Notation d := (cDim cfg).
  Notation V := (vec N d).
  Notation part := (particle N d).
  Notation computer := (computer cfg wm).
  Implicit Types (s : computer) (p q : part).

  Lemma variant_at s s' i : same_but_dummies s s' ->
    match cParts s !! i, cParts s' !! i with
    | Some p, Some p' => variant p p'
    | None, None => True
    | _, _ => False
    end.
  Proof.
    intros [_ HF]. rewrite Forall2_lookup in HF. specialize (HF i). by destruct HF.
  Qed.
  Lemma variant_same s s' i p : same_but_dummies s s' -> cParts s !! i = Some p -> pT p <> Dummy -> cParts s' !! i = Some p.
  Proof.
    intros H Hp Hn. pose proof (variant_at s s' i H) as HV. rewrite Hp in HV. destruct (cParts s' !! i); [|done].
    destruct HV as [->|(? & _)]; done.
  Qed.
  Lemma acc_variant {A} s s' i p (zero : A) plus f f' :
    same_but_dummies s s' -> cParts s !! i = Some p -> cParts s' !! i = Some p ->
    (forall j q q', variant q q' -> f j q = f' j q') ->
    acc s i zero plus f = acc s' i zero plus f'.
  Proof.
    intros H Hp Hp' Hf. unfold acc. assert (neighbor_list s' i = neighbor_list s i) as -> by (by rewrite (proj1 H)).
    destruct (neighbor_list s i) as [js|]; [|done]. cbn [mbind option_bind]. rewrite Hp, Hp'. cbn [mbind option_bind].
    assert (forall st, foldM (acc_step s i (pX p) plus f) st js = foldM (acc_step s' i (pX p) plus f') st js) as Hfold.
    { induction js as [|j js IH]; intros st; [done|]. simpl.
      assert (acc_step s i (pX p) plus f st j = acc_step s' i (pX p) plus f' st j) as ->.
      { unfold acc_step. destruct (j =? i)%nat; [done|]. pose proof (variant_at s s' j H) as HV.
        assert (cEnv s' = cEnv s) as -> by (by rewrite (proj1 H)).
        destruct (cParts s !! j) as [q|], (cParts s' !! j) as [q'|]; try done. cbn [mbind option_bind].
        assert (pX q' = pX q) as -> by (destruct HV as [->|(_ & _ & ->)]; done). rewrite (Hf _ _ _ HV). done. }
      destruct (acc_step s' i (pX p) plus f' st j); [apply IH|done]. }
    rewrite Hfold. destruct (foldM _ _ _) as [st|]; [|done]. cbn [mbind option_bind]. destruct (cSPP cfg); [|done].
    unfold acc_spp. assert (cEnv s' = cEnv s) as -> by (by rewrite (proj1 H)). assert (cNws s' = cNws s) as -> by (by rewrite (proj1 H)).
    destruct (cNws s !! i); [|done]. cbn [mbind option_bind]. destruct (_ <?. _); [|done]. destruct (_ <?. _); [|done].
    f_equal. f_equal. apply Hf. by left.
  Qed.
  (** Summands that leave dummies out. *)
  Lemma variant_skip {A} (f : Z -> part -> A) (z : A) :
    (forall j q, pT q = Dummy -> f j q = z) -> forall j q q', variant q q' -> f j q = f j q'.
  Proof. intros H j q q' [->|(H1 & H2 & _)]; [done|]. by rewrite !H. Qed.

  (** C27.  The explicit phase treats all particles other than dummies alike in both states ... *)
  Theorem C27_explicit s s' t t' i p :
    same_but_dummies s s' -> compute_explicit s = Some t -> compute_explicit s' = Some t' ->
    cParts s !! i = Some p -> pT p <> Dummy -> cParts t !! i = cParts t' !! i.
  Proof.
    intros H Ht Ht' Hp Hn. pose proof (variant_same s s' i p H Hp Hn) as Hp'.
    pose proof (explicit_at s t i p Ht Hp) as E1. pose proof (explicit_at s' t' i p Ht' Hp') as E2.
    assert (cEnv s' = cEnv s) as HE by (by rewrite (proj1 H)). assert (cWall s' = cWall s) as HW by (by rewrite (proj1 H)).
    rewrite HE, HW in E2. cbv zeta in *. destruct (is_newton (pT p)); [|congruence].
    destruct E1 as (v1 & A1 & ->). destruct E2 as (v2 & A2 & ->).
    rewrite (acc_variant s s' i p _ _ _ (vis_func (cEnv s) (pX p) (pU p)) H Hp Hp') in A1; [congruence|].
    apply (variant_skip _ vzero). intros j q Hq. unfold vis_func. by rewrite Hq.
  Qed.
  (** ... the coefficients of the pressure equation are the same ... *)
  Theorem C27_matrix s s' t t' i :
    same_but_dummies s s' -> set_ppe s = Some t -> set_ppe s' = Some t' -> (i < psize s)%nat -> cA t !! i = cA t' !! i.
  Proof.
    intros H Ht Ht' Hi. destruct (lookup_lt_is_Some_2 (cParts s) i Hi) as [p Hp]. pose proof (variant_at s s' i H) as HV.
    rewrite Hp in HV. destruct (cParts s' !! i) as [p'|] eqn:Hp'; [|done].
    destruct (set_ppe_at s t i p Ht Hp) as (_ & e1 & R1 & ->). destruct (set_ppe_at s' t' i p' Ht' Hp') as (_ & e2 & R2 & ->).
    do 2 f_equal. assert (cEnv s' = cEnv s) as HE by (by rewrite (proj1 H)). unfold row_entries in *. rewrite HE in R2.
    destruct (decide (pT p = Dummy)) as [HD|HD].
    - assert (pT p' = Dummy) as HD' by (destruct HV as [->|(_ & ? & _)]; done).
      unfold ppe_excluded in *. rewrite HD in R1. rewrite HD' in R2. simpl in *. congruence.
    - assert (p' = p) as -> by (destruct HV as [->|(? & _)]; done). destruct (ppe_excluded _ _); [congruence|].
      rewrite (acc_variant s s' i p _ _ _ (ppe_func (cEnv s) (pX p)) H Hp Hp') in R1; [congruence|].
      apply (variant_skip _ ([], nofZ 0)). intros j q Hq. unfold ppe_func. by rewrite Hq.
  Qed.
  (** ... and so are the effects of the pressure gradient ... *)
  Theorem C27_gradient s s' t t' i p :
    same_but_dummies s s' -> modify_by_gradient s = Some t -> modify_by_gradient s' = Some t' ->
    cParts s !! i = Some p -> pT p <> Dummy -> cParts t !! i = cParts t' !! i.
  Proof.
    intros H Ht Ht' Hp Hn. pose proof (variant_same s s' i p H Hp Hn) as Hp'.
    pose proof (gradient_at s t i p Ht Hp) as E1. pose proof (gradient_at s' t' i p Ht' Hp') as E2.
    assert (cEnv s' = cEnv s) as HE by (by rewrite (proj1 H)). rewrite HE in E2.
    destruct (is_newton (pT p)); [|congruence].
    destruct E1 as (v1 & A1 & ->). destruct E2 as (v2 & A2 & ->).
    assert (v1 = v2) as ->; [|done]. unfold grad_value in *. rewrite HE in A2. cbv zeta in *. destruct (cGC cfg).
    - rewrite (acc_variant s s' i p _ _ _ (gc_matrix_func (pX p) (eRe (cEnv s))) H Hp Hp') in A1.
      2:{ intros j q q' [->|(_ & _ & HX)]; [done|]. unfold gc_matrix_func. by rewrite HX. }
      destruct (acc s' i mzero madd _) as [C|]; [|done]. cbn [mbind option_bind] in *.
      rewrite (acc_variant s s' i p _ _ _ (gc_func cfg (pP p) (pX p) (eRe (cEnv s)) (minvert C (nofZ (Z.of_nat (dimn d)) /. eN0 (cEnv s)))) H Hp Hp') in A1; [congruence|].
      apply (variant_skip _ vzero). intros j q Hq. unfold gc_func. by rewrite Hq.
    - rewrite (acc_variant s s' i p _ _ _ (grad_func (pP p) (pX p) (eRe (cEnv s))) H Hp Hp') in A1; [congruence|].
      apply (variant_skip _ vzero). intros j q Hq. unfold grad_func. by rewrite Hq.
  Qed.
  (** ... and of the stabilisation. *)
  Theorem C27_stabilisation s s' t t' i p :
    same_but_dummies s s' -> stabilize s = Some t -> stabilize s' = Some t' ->
    cParts s !! i = Some p -> pT p <> Dummy -> cParts t !! i = cParts t' !! i.
  Proof.
    intros H Ht Ht' Hp Hn. pose proof (variant_same s s' i p H Hp Hn) as Hp'.
    pose proof (stabilize_at s t i p Ht Hp) as E1. pose proof (stabilize_at s' t' i p Ht' Hp') as E2.
    assert (cEnv s' = cEnv s) as HE by (by rewrite (proj1 H)). rewrite HE in E2.
    destruct (is_newton (pT p)); [|congruence].
    destruct E1 as (v1 & A1 & ->). destruct E2 as (v2 & A2 & ->).
    assert (v1 = v2) as ->; [|done]. unfold ds_value in *. rewrite HE in A2. cbv zeta in *.
    assert (cOrigX s' = cOrigX s) as HO by (by rewrite (proj1 H)). rewrite HO in A2.
    destruct (cOrigX s !! i) as [x0|]; [|done]. cbn [mbind option_bind] in *.
    assert (forall d2, acc s i (Some vzero) (ds_plus cfg) (ds_func s x0 (pX p) d2) = acc s' i (Some vzero) (ds_plus cfg) (ds_func s' x0 (pX p) d2)) as Hacc.
    { intros d2. apply (acc_variant s s' i p _ _ _ _ H Hp Hp'). intros j q q' HV.
      assert (ds_func s' x0 (pX p) d2 j q' = ds_func s x0 (pX p) d2 j q') as -> by (unfold ds_func; by rewrite HO).
      revert j q q' HV. apply (variant_skip _ (Some vzero)). intros j q Hq. unfold ds_func. by rewrite Hq. }
    rewrite Hacc in A1. congruence.
  Qed.
End Dummy.

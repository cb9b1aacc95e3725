(** The loops of a step have independent iterations. *)
From Verif Require Export M_Computer P_Loop.

Section P.
  Context {N : num} {cfg : config} {wm : wallmotion N (cDim cfg)}.
  Notation d := (cDim cfg).
  Notation V := (vec N d).
  Notation part := (particle N d).
  Notation computer := (computer cfg wm).

  Lemma neighbor_list_ext (s s' : computer) i :
    cNeighbor s !! i = cNeighbor s' !! i -> neighbor_list s i = neighbor_list s' i.
  Proof. unfold neighbor_list. by intros ->. Qed.

  Lemma foldM_ext {A S} (f g : S -> A -> option S) s l :
    (forall s a, a ∈ l -> f s a = g s a) -> foldM f s l = foldM g s l.
  Proof.
    revert s; induction l as [|a l IH]; intros s H; [done|]. simpl.
    rewrite H by left. destruct (g s a); [|done]. apply IH. intros ???; apply H; by right.
  Qed.

  (** Two states that agree on everything [acc] reads. *)
  Lemma acc_ext {A} (s s' : computer) i (zero : A) plus f f' :
    cNeighbor s !! i = cNeighbor s' !! i ->
    eRe (cEnv s) = eRe (cEnv s') -> eN0 (cEnv s) = eN0 (cEnv s') ->
    cNws s !! i = cNws s' !! i ->
    (forall j, pX <$> cParts s !! j = pX <$> cParts s' !! j) ->
    pU <$> cParts s !! i = pU <$> cParts s' !! i ->
    (forall j q q', cParts s !! j = Some q -> cParts s' !! j = Some q' -> f (Z.of_nat j) q = f' (Z.of_nat j) q') ->
    (forall x p, cParts s !! i = Some p -> f (-1)%Z (spp_particle p x) = f' (-1)%Z (spp_particle p x)) ->
    acc s i zero plus f = acc s' i zero plus f'.
  Proof.
    intros Hn Hre Hn0 Hnws HX HU Hf Hspp. unfold acc.
    rewrite (neighbor_list_ext s s') by done.
    destruct (neighbor_list s' i) as [js|]; [|done]. simpl.
    pose proof (HX i) as HXi.
    destruct (cParts s !! i) as [p|] eqn:Ep, (cParts s' !! i) as [p'|] eqn:Ep'; try done; cbn in HXi, HU.
    injection HXi as HXi; injection HU as HU. simpl.
    assert (foldM (acc_step s i (pX p) plus f) (zero, vzero) js
          = foldM (acc_step s' i (pX p') plus f') (zero, vzero) js) as ->.
    { apply foldM_ext. intros st j _. unfold acc_step. destruct (j =? i)%nat; [done|].
      pose proof (HX j) as HXj.
      destruct (cParts s !! j) as [q|] eqn:Eq, (cParts s' !! j) as [q'|] eqn:Eq'; try done; cbn in HXj.
      injection HXj as HXj. cbn. rewrite Hre, HXj, HXi. rewrite (Hf j q q') by done. done. }
    destruct (foldM _ _ _) as [st|]; [|done]. simpl. destruct (cSPP cfg); [|done].
    unfold acc_spp. rewrite Hnws. destruct (cNws s' !! i); [|done]. simpl.
    rewrite Hre, Hn0, HXi.
    destruct (_ <?. _); [|done]. destruct (neps <?. _); [|done].
    rewrite (Hspp _ p) by done.
    unfold spp_particle. rewrite HU. done.
  Qed.

  (** same state up to the fields [acc] does not read *)
  Lemma acc_same {A} (s s' : computer) i (zero : A) plus f :
    cNeighbor s = cNeighbor s' -> cEnv s = cEnv s' -> cNws s !! i = cNws s' !! i -> cParts s = cParts s' ->
    acc s i zero plus f = acc s' i zero plus f.
  Proof.
    intros Hn He Hw Hp. apply acc_ext; try congruence.
  Qed.

  Lemma neighbor_indep : indep (neighbor_loop cfg wm).
  Proof.
    intros s i j v Hij. simpl. destruct v as [l|]; [|done]. simpl.
    destruct (cParts s !! i) as [p|]; [|done]. simpl. destruct (is_disabled _); [done|].
    destruct (around d (cGrid s) (pX p)) as [js|]; [|done]. simpl.
    assert (forall js, near (with_neighbor s (alter (fun row => length l :: l ++ drop (S (length l)) row) j (cNeighbor s))) i p js = near s i p js) as ->.
    { intros js'. induction js' as [|k js' IH]; [done|]. simpl. destruct (k =? i)%nat; [done|]. by rewrite IH. }
    by rewrite list_lookup_alter_ne by done.
  Qed.

  Lemma dens_indep : indep (dens_loop cfg wm).
  Proof.
    intros s i j [v1 v2] Hij. simpl.
    destruct v2 as [nv|]; simpl.
    - rewrite list_lookup_alter_ne by done.
      destruct (cParts s !! i) as [p|] eqn:Ep; [|done]. simpl.
      rewrite list_lookup_insert_ne by done.
      destruct (cNws s !! i) as [w|] eqn:Ew; [|done]. simpl.
      destruct (is_active _); [|done].
      assert (acc (with_nws (upd_part j (set_N nv) (with_nws s (<[j:=v1]> (cNws s)))) (<[i:=eN0 (cEnv s)]> (<[j:=v1]> (cNws s)))) i (nofZ 0) nadd (dens_func cfg (pX p) (eRe (cEnv s)))
            = acc (with_nws s (<[i:=eN0 (cEnv s)]> (cNws s))) i (nofZ 0) nadd (dens_func cfg (pX p) (eRe (cEnv s)))) as Hacc.
      { apply acc_ext; simpl; try done.
        - rewrite !list_lookup_insert; [done|by eapply lookup_lt_Some|rewrite insert_length; by eapply lookup_lt_Some].
        - intros k. destruct (decide (k = j)) as [->|Hk].
          + rewrite list_lookup_alter. by destruct (cParts s !! j).
          + by rewrite list_lookup_alter_ne.
        - by rewrite list_lookup_alter_ne by done.
        - intros k q q' Hq Hq'. destruct (decide (k = j)) as [->|Hk].
          + rewrite list_lookup_alter in Hq. rewrite Hq' in Hq. simpl in Hq. by simplify_eq.
          + rewrite list_lookup_alter_ne in Hq by done. by simplify_eq. }
      rewrite <- Hacc. reflexivity.
    - destruct (cParts s !! i) as [p|] eqn:Ep; [|done]. simpl.
      rewrite list_lookup_insert_ne by done.
      destruct (cNws s !! i) as [w|] eqn:Ew; [|done]. simpl.
      destruct (is_active _); [|done].
      erewrite acc_same; [reflexivity|done|done| |done]. simpl.
      rewrite !list_lookup_insert; [done|by eapply lookup_lt_Some|rewrite insert_length; by eapply lookup_lt_Some].
  Qed.

  Lemma density_speed_same (s s' : computer) i :
    cNeighbor s = cNeighbor s' -> cEnv s = cEnv s' -> cNws s !! i = cNws s' !! i -> cParts s = cParts s' ->
    density_speed s i = density_speed s' i.
  Proof.
    intros Hn He Hw Hp. unfold density_speed. rewrite Hp, He, Hw.
    destruct (cParts s' !! i) as [p|]; [|done]. simpl.
    destruct (cHS cfg); [|done].
    rewrite (acc_same s s') by congruence. done.
  Qed.

  Ltac ins j i := first [rewrite list_lookup_insert_ne by done].

  Lemma ecs_indep : indep (ecs_loop cfg wm).
  Proof.
    intros s i j v Hij. simpl. destruct v as [e|]; [|done]. simpl.
    destruct (cParts s !! i) as [p|] eqn:Ep; [|done]. simpl. destruct (is_active _); [|done].
    rewrite (density_speed_same _ s) by done.
    by rewrite list_lookup_insert_ne by done.
  Qed.

  Lemma accel_indep : indep (accel_loop cfg wm).
  Proof.
    intros s i j v Hij. simpl. destruct v as [e|]; [|done]. simpl.
    destruct (cParts s !! i) as [p|] eqn:Ep; [|done]. simpl. destruct (is_newton _); [|done].
    rewrite (acc_same _ s) by done.
    by rewrite list_lookup_insert_ne by done.
  Qed.

  Lemma move_indep : indep (move_loop cfg wm).
  Proof. intros s i j v Hij. simpl. by rewrite list_lookup_alter_ne by done. Qed.

  Lemma savex_indep : indep (savex_loop cfg wm).
  Proof.
    intros s i j v Hij. simpl. destruct v as [e|]; [|done]. simpl.
    by rewrite list_lookup_insert_ne by done.
  Qed.

  Lemma rhs_indep : indep (rhs_loop cfg wm).
  Proof.
    intros s i j v Hij. simpl. rewrite !list_lookup_insert_ne by done.
    rewrite (density_speed_same _ s) by done. done.
  Qed.

  Lemma matrix_indep : indep (matrix_loop cfg wm).
  Proof.
    intros s i j v Hij. simpl. rewrite !list_lookup_insert_ne, insert_length by done.
    destruct (cParts s !! i) as [p|] eqn:Ep; [|done]. simpl.
    by rewrite (acc_same _ s) by done.
  Qed.

  Lemma assign_indep : indep (assign_loop cfg wm).
  Proof.
    intros s i j v Hij. simpl. destruct v as [e|]; [|done]. simpl.
    by rewrite list_lookup_alter_ne by done.
  Qed.

  Lemma explicit_indep : indep (explicit_loop cfg wm).
  Proof. intros s i j v Hij. simpl. by rewrite list_lookup_alter_ne by done. Qed.

  Lemma grad_indep : indep (grad_loop cfg wm).
  Proof.
    intros s i j v Hij. simpl. destruct v as [e|]; [|done]. simpl.
    destruct (cParts s !! i) as [p|] eqn:Ep; [|done]. simpl. destruct (is_newton _); [|done].
    rewrite !list_lookup_insert_ne by done.
    rewrite !(acc_same (with_du _ _) s) by done.
    destruct (cGC cfg); [|done].
    destruct (acc s i mzero madd _) as [C|]; [|done]. simpl.
    by rewrite !(acc_same (with_du _ _) s) by done.
  Qed.

  Lemma kick_indep : indep (kick_loop cfg wm).
  Proof.
    intros s i j v Hij. simpl. destruct v as [e|]; [|done]. simpl.
    by rewrite list_lookup_alter_ne by done.
  Qed.

  Lemma ds_indep : indep (ds_loop cfg wm).
  Proof.
    intros s i j v Hij. simpl. destruct v as [e|]; [|done]. simpl.
    destruct (cParts s !! i) as [p|] eqn:Ep; [|done]. simpl. destruct (is_newton _); [|done].
    rewrite !list_lookup_insert_ne by done.
    destruct (cOrigX s !! i) as [x0|]; [|done]. simpl.
    rewrite (acc_same _ s) by done. done.
  Qed.
End P.

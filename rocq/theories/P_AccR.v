(** Neighbour sums over the reals. *)
From Verif Require Export P_Real P_Life.
Open Scope R_scope.

Lemma weight_wt (r re : R) : @weight Rnum r re = wt r re.
Proof.
  unfold weight, wt. simpl. destruct (Rlt_dec 0 r); simpl; [|done]. by destruct (Rlt_dec r re).
Qed.

Section Acc.
  Context {cfg : config} {wm : wallmotion Rnum (cDim cfg)}.
  Notation d := (cDim cfg).
  Notation V := (vec Rnum d).
  Notation part := (particle Rnum d).
  Notation computer := (computer cfg wm).
  Implicit Types (s : computer) (p q : part).

  Lemma NoDup_filter_perm (P : nat -> Prop) `{forall j, Decision (P j)} (l : list nat) n :
    NoDup l -> (forall j, j ∈ l -> (j < n)%nat) -> (forall j, (j < n)%nat -> P j -> j ∈ l) ->
    filter P l ≡ₚ filter P (seq 0 n).
  Proof.
    intros Hnd Hin Hall. apply NoDup_Permutation.
    - by apply NoDup_filter.
    - apply NoDup_filter, NoDup_seq.
    - intros j. rewrite !elem_of_list_filter, elem_of_seq. split.
      + intros [HP Hj]. split; [done|]. apply Hin in Hj. lia.
      + intros [HP Hj]. split; [done|]. apply Hall; [lia|done].
  Qed.

  Lemma at_part_eq {A} s j q (z : A) f : cParts s !! j = Some q -> at_part s j z f = f q.
  Proof. unfold at_part. by intros ->. Qed.

  (** The loop over a neighbour list keeps exactly the entries closer than R_e. *)
  Lemma acc_fold {A} s i p (plus : A -> A -> A) f zero (l : list nat) st :
    0 <= eRe (cEnv s) -> cParts s !! i = Some p ->
    (forall j, j ∈ l -> j <> i /\ exists q, cParts s !! j = Some q /\ enabled q) ->
    foldM (acc_step s i (pX p) plus f) st l =
    Some (foldl plus st.1 (map (fun j => at_part s j zero (f (Z.of_nat j))) (filter (close (eRe (cEnv s)) s i) l)),
          foldl vadd st.2 (map (fun j => at_part s j vzero (fun q => (wt (edist (pX p) (pX q)) (eRe (cEnv s)) : Rnum) *^ (pX q -^ pX p)))
                             (filter (close (eRe (cEnv s)) s i) l))).
  Proof.
    intros Hre Hp. revert st. induction l as [|j l IH]; intros st Hl; [by destruct st|]. simpl foldM.
    destruct (Hl j) as (Hji & q & Hq & Hen); [by left|].
    assert (acc_step s i (pX p) plus f st j =
      if decide (close (eRe (cEnv s)) s i j)
      then Some (plus st.1 (f (Z.of_nat j) q), st.2 +^ (wt (edist (pX p) (pX q)) (eRe (cEnv s)) : Rnum) *^ (pX q -^ pX p))
      else Some st) as ->.
    { unfold acc_step. destruct (Nat.eqb_spec j i); [done|]. rewrite Hq. cbn [mbind option_bind].
      destruct (decide (close _ s i j)) as [Hc|Hc].
      - destruct Hc as (_ & p' & q' & Hp' & Hq' & _ & Hd). rewrite Hp in Hp'. rewrite Hq in Hq'. injection Hp' as <-. injection Hq' as <-.
        cbv zeta. assert ((vdot (pX q -^ pX p) (pX q -^ pX p) <?. eRe (cEnv s) ×. eRe (cEnv s)) = true) as -> by (by apply sq_test).
        rewrite <- weight_wt.
        do 4 f_equal. rewrite edist_sym, edist_len. unfold len. by rewrite <- vdot_inner.
      - destruct (_ <?. _) eqn:Hd; [|done]. exfalso. apply Hc. split; [done|]. exists p, q. apply sq_test in Hd; [|done]. done. }
    rewrite filter_cons. destruct (decide (close _ s i j)).
    - rewrite IH by (intros; apply Hl; by right). simpl. rewrite !(at_part_eq s j q) by done. done.
    - apply IH. intros; apply Hl; by right.
  Qed.

  Lemma foldl_vadd (l : list V) (v : V) : foldl vadd v l = v +^ vsum l.
  Proof.
    revert v; induction l as [|a l IH]; intros v; simpl.
    - apply coord_ext. intros k Hk. rewrite coord_add, coord_vsum by done. unfold rsum. simpl. lra.
    - rewrite IH. apply coord_ext. intros k Hk. rewrite !coord_add, !coord_vsum by done. unfold rsum. simpl. lra.
  Qed.
  Lemma vsum_perm (l1 l2 : list V) : l1 ≡ₚ l2 -> vsum l1 = vsum l2.
  Proof. intros H. apply coord_ext. intros k Hk. rewrite !coord_vsum by done. apply rsum_perm. by apply Permutation_map. Qed.
  Lemma vsum_filter (P : nat -> Prop) `{forall a, Decision (P a)} (f : nat -> V) l :
    vsum (map f (filter P l)) = vsum (map (fun a => if decide (P a) then f a else vzero) l).
  Proof.
    apply coord_ext. intros k Hk. rewrite !coord_vsum by done. rewrite !map_map. rewrite (rsum_filter P (fun a => coord (f a) k)).
    apply rsum_map_ext. intros a _. destruct (decide (P a)); [done|]. by rewrite coord_zero.
  Qed.

  (** [acc] as: fold over the particles within R_e (in the order of the list), then the
      virtual particle. *)
  Lemma acc_list {A} s i p (zero : A) plus f :
    0 <= eRe (cEnv s) -> lists_cover s -> cParts s !! i = Some p -> enabled p -> is_Some (cNws s !! i) ->
    exists l, l ≡ₚ filter (close (eRe (cEnv s)) s i) (seq 0 (psize s)) /\
    acc s i zero plus f =
      Some (let a := foldl plus zero (map (fun j => at_part s j zero (f (Z.of_nat j))) l) in
            of_virtual s i p a (fun v => plus a (f (-1)%Z v))).
  Proof.
    intros Hre Hcov Hp Hen [n Hn]. destruct (Hcov i p Hp Hen) as (l0 & Hl & Hnd & Hin & Hall).
    set (l := filter (close (eRe (cEnv s)) s i) l0).
    assert (l ≡ₚ filter (close (eRe (cEnv s)) s i) (seq 0 (psize s))) as Hperm.
    { apply NoDup_filter_perm; [done| |].
      - intros j Hj. destruct (Hin j Hj) as (_ & q & Hq & _). by eapply lookup_lt_Some.
      - intros j _. apply Hall. }
    exists l. split; [done|]. unfold acc. rewrite Hl. cbn [mbind option_bind]. rewrite Hp. cbn [mbind option_bind].
    rewrite (acc_fold s i p plus f zero l0 (zero, vzero) Hre Hp Hin). cbn [mbind option_bind fst snd].
    fold l. set (a := foldl plus zero _). set (c := foldl vadd vzero _).
    assert (c /^ (eN0 (cEnv s)) = centroid s i p) as Hcent.
    { unfold c, centroid, close_vsum, vsum_n. rewrite foldl_vadd, vadd_0_l.
      rewrite (vsum_perm _ _ (Permutation_map _ Hperm)), vsum_filter.
      apply coord_ext. intros k Hk. rewrite coord_div, !coord_vsum by done. unfold Rdiv at 1.
      rewrite !map_map, Rmult_comm, <- rsum_map_scal. apply rsum_map_ext. intros j _.
      destruct (decide _); [|rewrite coord_zero by done; lra].
      unfold at_part. destruct (cParts s !! j) as [q|]; [|rewrite coord_zero by done; lra].
      rewrite !coord_scal by done. unfold Rdiv. lra. }
    unfold of_virtual, virtual. destruct (cSPP cfg); [|done].
    unfold acc_spp. rewrite Hn. cbn [mbind option_bind fst snd]. rewrite Hcent.
    destruct (cNws s !! i) as [n'|]; [|done]. injection Hn as ->.
    unfold nltb at 1. cbn [Rnum]. destruct (Rlt_dec n (eN0 (cEnv s))); [|done].
    assert (@nsqrt Rnum (vdot (centroid s i p) (centroid s i p)) = len (centroid s i p)) as Hlen.
    { unfold len. by rewrite vdot_inner. }
    rewrite Hlen. unfold nltb. cbn [Rnum].
    assert (@neps Rnum = / 2 ^ 52) as Heps.
    { unfold neps. cbn [ndiv Rnum nofZ]. rewrite pow_IZR. unfold Rdiv. rewrite Rmult_1_l. done. }
    rewrite Heps. destruct (Rlt_dec (/ 2 ^ 52) _); [|done]. done.
  Qed.

  Lemma close_sum_filter r s i (f : nat -> part -> R) :
    rsum (map (fun j => at_part s j 0 (f j)) (filter (close r s i) (seq 0 (psize s)))) = close_sum r s i f.
  Proof. unfold close_sum, sum_n. apply rsum_filter. Qed.
  Lemma close_vsum_filter r s i (f : nat -> part -> V) :
    vsum (map (fun j => at_part s j vzero (f j)) (filter (close r s i) (seq 0 (psize s)))) = close_vsum r s i f.
  Proof. unfold close_vsum, vsum_n. apply vsum_filter. Qed.

  Lemma acc_R s i p (f : Z -> part -> R) :
    0 <= eRe (cEnv s) -> lists_cover s -> cParts s !! i = Some p -> enabled p -> is_Some (cNws s !! i) ->
    acc s i (@nofZ Rnum 0) (@nadd Rnum) f =
      Some (close_sum (eRe (cEnv s)) s i (fun j q => f (Z.of_nat j) q) + of_virtual s i p 0 (f (-1)%Z)).
  Proof.
    intros Hre Hcov Hp Hen Hn. destruct (acc_list s i p (@nofZ Rnum 0) (@nadd Rnum) f Hre Hcov Hp Hen Hn) as (l & Hl & ->).
    f_equal. cbv zeta. cbn [nadd nofZ Rnum]. rewrite rsum_foldl, Rplus_0_l.
    rewrite (rsum_perm _ _ (Permutation_map _ Hl)), (close_sum_filter _ _ _ (fun j q => f (Z.of_nat j) q)).
    unfold of_virtual. destruct (virtual s i p); [done|]. lra.
  Qed.
  Lemma acc_V s i p (f : Z -> part -> V) :
    0 <= eRe (cEnv s) -> lists_cover s -> cParts s !! i = Some p -> enabled p -> is_Some (cNws s !! i) ->
    acc s i vzero vadd f =
      Some (close_vsum (eRe (cEnv s)) s i (fun j q => f (Z.of_nat j) q) +^ of_virtual s i p vzero (f (-1)%Z)).
  Proof.
    intros Hre Hcov Hp Hen Hn. destruct (acc_list s i p vzero vadd f Hre Hcov Hp Hen Hn) as (l & Hl & ->).
    f_equal. cbv zeta. rewrite foldl_vadd, vadd_0_l.
    rewrite (vsum_perm _ _ (Permutation_map _ Hl)), (close_vsum_filter _ _ _ (fun j q => f (Z.of_nat j) q)).
    unfold of_virtual. destruct (virtual s i p); [done|]. by rewrite vadd_0_r.
  Qed.
End Acc.

(** Neighbour lists of reachable states over the reals. *)
From Verif Require Export P_Real P_Exact P_AccR.
Open Scope R_scope.

Section AnyN.
  Context {N : num} {cfg : config} {wm : wallmotion N (cDim cfg)}.
  Notation d := (cDim cfg).
  Notation computer := (computer cfg wm).
  Implicit Types (s : computer).

  Lemma search_searched env0 dt s s1 :
    square_ground env0 -> reachable env0 s -> search_neighbor (start_step dt s) = Done s1 ->
    searched (start_step dt s) s1.
  Proof.
    intros Hsq Hr H. pose proof (inv_ok _ _ Hsq (reachable_inv env0 s Hsq Hr)) as [Hwf Hok].
    pose proof (search_spec (start_step dt s) (wf_start dt s Hwf) Hok) as Hs. by rewrite H in Hs.
  Qed.

  Lemma reachable_geom env0 s : square_ground env0 -> reachable env0 s ->
    g_len d (cGrid s) = eNL env0 /\ g_origin d (cGrid s) = eMinX env0 /\ same_constants env0 (cEnv s).
  Proof.
    intros Hsq Hr. pose proof (reachable_inv env0 s Hsq Hr) as Hinv.
    destruct (inv_geom _ _ Hinv) as (g0 & Hg0 & (Hl & Ho & _)).
    destruct (new_grid_shape _ _ _ _ _ Hg0) as (Hl0 & Ho0 & _).
    split; [congruence|]. split; [congruence|]. apply Hinv.
  Qed.

  Lemma same_constants_fields (e e' : environment N cfg) : same_constants e e' ->
    eN0 e' = eN0 e /\ eMaxDt e' = eMaxDt e /\ eMaxDx e' = eMaxDx e /\ eL0 e' = eL0 e /\ eRe e' = eRe e /\ eNL e' = eNL e /\
    eMinX e' = eMinX e /\ eMaxX e' = eMaxX e.
  Proof. unfold same_constants. intros ->. by repeat split. Qed.
End AnyN.

Section R.
  Context {cfg : config} {wm : wallmotion Rnum (cDim cfg)}.
  Notation d := (cDim cfg).
  Notation V := (vec Rnum d).
  Notation part := (particle Rnum d).
  Notation computer := (computer cfg wm).
  Implicit Types (s : computer) (p q : part) (x y : V).

  Lemma block_axis_R (g : grid Rnum d) x k z :
    block_axis d g x k = Some z -> z = Zfloor ((coord x k - coord (g_origin d g) k) / g_len d g).
  Proof. unfold block_axis, floor_div. simpl. apply to_index_Some. Qed.

  Lemma block_of_lookup (g : grid Rnum d) x b k z :
    block_of d g x = Some b -> b !! k = Some z -> z = Zfloor ((coord x k - coord (g_origin d g) k) / g_len d g).
  Proof.
    unfold block_of. rewrite mapM_Some. intros H Hz.
    assert (k < dimn d)%nat as Hk.
    { apply lookup_lt_Some in Hz. apply Forall2_length in H. rewrite seq_length in H. lia. }
    eapply (Forall2_lookup_lr _ _ _ k k z H) in Hz; [|by apply lookup_seq]. by apply block_axis_R.
  Qed.

  Lemma close_adjacent (g : grid Rnum d) x y b b' :
    0 < g_len d g -> edist x y < g_len d g -> block_of d g x = Some b -> block_of d g y = Some b' -> adjacent b b'.
  Proof.
    intros Hl Hd Hb Hb'. apply Forall2_same_length_lookup_2.
    { apply block_length in Hb, Hb'. congruence. }
    intros k z z' Hz Hz'. pose proof (block_of_lookup _ _ _ _ _ Hb Hz) as ->. pose proof (block_of_lookup _ _ _ _ _ Hb' Hz') as ->.
    apply Zfloor_close. assert (k < dimn d)%nat as Hk.
    { apply block_length in Hb. apply lookup_lt_Some in Hz. lia. }
    replace ((coord x k - coord (g_origin d g) k) / g_len d g - (coord y k - coord (g_origin d g) k) / g_len d g)
      with ((coord x k - coord y k) / g_len d g) by (field; lra).
    unfold Rdiv. rewrite Rabs_mult, (Rabs_pos_eq (/ _)) by (left; by apply Rinv_0_lt_compat).
    apply (Rmult_lt_reg_r (g_len d g)); [done|]. rewrite Rmult_assoc, Rinv_l by lra.
    pose proof (edist_coord x y k Hk). lra.
  Qed.

  (** The lists after a search, over the reals. *)
  Lemma searched_lists s s1 i p :
    searched s s1 -> g_len d (cGrid s) = eNL (cEnv s) -> 0 < eNL (cEnv s) ->
    cParts s1 !! i = Some p -> enabled p ->
    exists l, neighbor_list s1 i = Some l /\ NoDup l /\ forall j, j ∈ l <-> close (eNL (cEnv s)) s1 i j.
  Proof.
    intros Hs Hl HNL Hp Hen. assert (is_disabled (pT p) = false) as Hdp by (by apply is_disabled_false).
    exists (found s1 i p). split; [by eapply found_list|]. split; [by eapply found_NoDup|].
    assert (cEnv s1 = cEnv s) as HE by (by rewrite (se_rest _ _ Hs)).
    intros j. split.
    - intros Hj. destruct (found_enabled s1 i p j Hj) as (Hne & q & Hq & Hdq).
      destruct (home_of_enabled s s1 i p (se_parts _ _ Hs) Hp Hdp) as (_ & b & Hb & _).
      apply (found_elem s s1 Hs i p j q b) in Hj as [Ht _]; try done.
      unfold near_test in Ht. rewrite Hq, HE in Ht. apply andb_true_iff in Ht as [_ Ht]. apply andb_true_iff in Ht as [_ Ht].
      apply Rltb_true in Ht. rewrite dist_edist in Ht.
      split; [done|]. exists p, q. split; [done|]. split; [done|]. split; [by apply is_disabled_false|done].
    - intros (Hne & p' & q & Hp' & Hq & Hq2 & Hc). assert (p' = p) as -> by congruence.
      apply is_disabled_false in Hq2.
      destruct (home_of_enabled s s1 i p (se_parts _ _ Hs) Hp Hdp) as (_ & b & Hb & _).
      destruct (home_of_enabled s s1 j q (se_parts _ _ Hs) Hq Hq2) as (_ & b' & Hb' & _).
      apply (found_elem s s1 Hs i p j q b); try done. split.
      + unfold near_test. rewrite Hq, HE, Hq2. cbn [negb].
        rewrite (proj2 (Nat.eqb_neq j i)) by done. cbn [negb andb]. apply Rltb_true. by rewrite dist_edist.
      + exists b'. split; [done|]. eapply close_adjacent; [| |done|done]; rewrite Hl; done.
  Qed.
End R.

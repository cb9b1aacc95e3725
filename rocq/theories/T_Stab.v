(** Property theorems: dynamic stabilisation (C36). *)
From Coq Require Import ZifyBool.
From Verif Require Import S_Terms.
From Verif Require Import P_Force T_Force.
Open Scope R_scope.

Section Pair.
  Context {d : dim}.
  Notation V := (vec Rnum d).
  Implicit Types dx : V.

  Lemma ds_term_R (d2 : R) dx dx0 : dx0 <> vzero ->
    ds_term (d2 : Rnum) dx dx0 = ((R_sqrt.sqrt (d2 - inner (perpendicular dx dx0) (perpendicular dx dx0)) - inner dx dx0 / len dx0) / len dx0 : Rnum) *^ dx0.
  Proof.
    intros Hn. assert (len dx0 <> 0) as Hl by (by rewrite len_zero_iff). pose proof (len_sqr dx0) as HS.
    unfold ds_term. cbv zeta. rewrite vnorm_len, !vdot_inner.
    assert (inner dx (dx0 /^ (len dx0 : Rnum)) = inner dx dx0 / len dx0) as Hin.
    { unfold inner. unfold Rdiv. rewrite Rmult_comm, <- sum_n_scal. apply sum_n_ext. intros k Hk. rewrite coord_div by done. unfold Rdiv. ring. }
    rewrite Hin.
    assert (dx -^ (inner dx dx0 / len dx0 : Rnum) *^ (dx0 /^ (len dx0 : Rnum)) = perpendicular dx dx0) as ->.
    { apply coord_ext. intros k Hk. unfold perpendicular. rewrite !coord_sub, !coord_scal, coord_div by done. rewrite <- HS. field. done. }
    apply coord_ext. intros k Hk. rewrite !coord_scal, coord_div by done. simpl. field. done.
  Qed.
  Lemma perp_inner dx dx0 : dx0 <> vzero ->
    inner (perpendicular dx dx0) (perpendicular dx dx0) = inner dx dx - (inner dx dx0 / len dx0) ^ 2.
  Proof.
    intros Hn. assert (len dx0 <> 0) as Hl by (by rewrite len_zero_iff). pose proof (len_sqr dx0) as HS.
    unfold perpendicular. rewrite inner_sub_l, !inner_sub_r, !inner_scal_l, !inner_scal_r. rewrite (inner_comm dx0 dx). rewrite <- HS. field. done.
  Qed.

  (** For an overlapping pair (relative position [dx] shorter than d) whose relative position before the step was [dx0]: the
      radicand is positive, the correction is a positive multiple of [dx0], namely the one that brings the pair to distance d. *)
  Theorem C36_pair (d2 : R) dx dx0 : inner dx dx < d2 -> dx0 <> vzero ->
    0 < d2 - inner (perpendicular dx dx0) (perpendicular dx dx0) /\
    (exists c : R, 0 < c /\ ds_term (d2 : Rnum) dx dx0 = (c : Rnum) *^ dx0) /\
    inner (dx +^ ds_term (d2 : Rnum) dx dx0) (dx +^ ds_term (d2 : Rnum) dx dx0) = d2.
  Proof.
    intros Hlt Hn. assert (0 < len dx0) as Hl.
    { pose proof (len_nonneg dx0). assert (len dx0 <> 0) by (by rewrite len_zero_iff). lra. }
    rewrite (ds_term_R d2 dx dx0 Hn), (perp_inner dx dx0 Hn). set (rp := inner dx dx0 / len dx0).
    assert (rp ^ 2 < d2 - (inner dx dx - rp ^ 2)) as Hr by lra.
    set (rad := d2 - (inner dx dx - rp ^ 2)) in *. assert (0 < rad) as Hrad by (pose proof (pow2_ge_0 rp); lra).
    assert (rp < R_sqrt.sqrt rad) as Hs.
    { destruct (Rle_lt_dec rp 0) as [L|L]; [pose proof (sqrt_lt_R0 rad Hrad); lra|].
      apply Rsqr_incrst_0; [|lra|apply sqrt_pos]. rewrite Rsqr_sqrt by lra. unfold Rsqr. lra. }
    split; [done|]. set (c := (R_sqrt.sqrt rad - rp) / len dx0). assert (0 < c) as Hc by (apply Rdiv_lt_0_compat; lra).
    split; [by exists c|].
    rewrite inner_add_l, !inner_add_r, !inner_scal_l, !inner_scal_r, (inner_comm dx0 dx).
    assert (inner dx dx0 = rp * len dx0) as -> by (unfold rp; field; lra). rewrite <- (len_sqr dx0).
    assert (c * len dx0 = R_sqrt.sqrt rad - rp) as Hcl by (unfold c; field; lra).
    replace (inner dx dx + c * (rp * len dx0) + (c * (rp * len dx0) + c * (c * (len dx0 * len dx0)))) with
      (inner dx dx + 2 * rp * (c * len dx0) + (c * len dx0) * (c * len dx0)) by ring.
    rewrite Hcl. replace (inner dx dx + 2 * rp * (R_sqrt.sqrt rad - rp) + (R_sqrt.sqrt rad - rp) * (R_sqrt.sqrt rad - rp))
      with (inner dx dx - rp ^ 2 + R_sqrt.sqrt rad * R_sqrt.sqrt rad) by ring.
    rewrite sqrt_def by lra. unfold rad. ring.
  Qed.
  (** Seen from the other particle the correction is the opposite one. *)
  Theorem C36_opposite (d2 : R) dx dx0 : dx0 <> vzero ->
    ds_term (d2 : Rnum) ((-1 : Rnum) *^ dx) ((-1 : Rnum) *^ dx0) = (-1 : Rnum) *^ ds_term (d2 : Rnum) dx dx0.
  Proof.
    intros Hn. assert ((-1 : Rnum) *^ dx0 <> vzero) as Hn'.
    { intros E. apply Hn. apply coord_ext. intros k Hk. apply (f_equal (fun x => coord x k)) in E. rewrite coord_scal in E by done. rewrite coord_zero in * by done. lra. }
    rewrite (ds_term_R d2 dx dx0 Hn), (ds_term_R d2 _ _ Hn').
    assert (perpendicular ((-1 : Rnum) *^ dx) ((-1 : Rnum) *^ dx0) = (-1 : Rnum) *^ perpendicular dx dx0) as ->.
    { assert (inner dx0 dx0 <> 0) by (by rewrite inner_zero_iff).
      apply coord_ext. intros k Hk. unfold perpendicular. rewrite !coord_sub, !coord_scal, coord_sub, coord_scal by done.
      rewrite !inner_scal_l, !inner_scal_r. field. done. }
    rewrite !inner_scal_l, !inner_scal_r, len_scal. rewrite Rabs_left by lra. 
    replace (-1 * (-1 * inner (perpendicular dx dx0) (perpendicular dx dx0))) with (inner (perpendicular dx dx0) (perpendicular dx dx0)) by ring.
    replace (-1 * (-1 * inner dx dx0)) with (inner dx dx0) by ring. replace (- -1 * len dx0) with (len dx0) by ring.
    apply coord_ext. intros k Hk. rewrite !coord_scal by done. ring.
  Qed.
End Pair.

Section Stab.
  Context {cfg : config} {wm : wallmotion Rnum (cDim cfg)}.
  Notation d := (cDim cfg).
  Notation V := (vec Rnum d).
  Notation part := (particle Rnum d).
  Notation computer := (computer cfg wm).
  Implicit Types (s : computer) (p q v : part) (env : environment Rnum cfg).

  Lemma ds_func_R s i p j q x0 : length (cOrigX s) = psize s -> cOrigX s !! i = Some x0 -> (j < psize s)%nat ->
    ds_func s x0 (pX p) ((eL0 (cEnv s) -. eMaxDx (cEnv s)) ×. (eL0 (cEnv s) -. eMaxDx (cEnv s))) (Z.of_nat j) q =
    Some (if decide (overlapping (cEnv s) p q) then ds_term (limit2 (cEnv s) : Rnum) (pX q -^ pX p) (saved s j -^ saved s i) else vzero).
  Proof.
    intros HL Hx0 Hj. unfold ds_func. assert ((0 <=? Z.of_nat j)%Z = true) as -> by lia. rewrite orb_true_r, andb_true_r. cbv zeta.
    destruct (lookup_lt_is_Some_2 (cOrigX s) j) as [xx Hxx]; [rewrite HL; done|]. rewrite Nat2Z.id, Hxx. cbn [mbind option_bind].
    unfold saved. rewrite Hx0, Hxx.
    assert (inner (pX q -^ pX p) (pX q -^ pX p) = edist (pX p) (pX q) ^ 2) as HI by (rewrite edist_sym, edist_len, <- len_sqr; ring).
    assert ((eL0 (cEnv s) -. eMaxDx (cEnv s)) ×. (eL0 (cEnv s) -. eMaxDx (cEnv s)) = limit2 (cEnv s)) as -> by (unfold limit2; simpl; ring).
    destruct (decide (overlapping (cEnv s) p q)) as [[HD HO]|HO].
    - assert (is_dummy (pT q) = false) as -> by (by destruct (pT q)). cbn [negb]. destruct (_ <?. _) eqn:E; [done|].
      apply Rltb_false in E. rewrite vdot_inner, HI in E. lra.
    - destruct (is_dummy (pT q)) eqn:HD; [done|]. cbn [negb]. destruct (_ <?. _) eqn:E; [|done]. exfalso. apply HO. split; [by intros HE; rewrite HE in HD|].
      apply Rltb_true in E. by rewrite vdot_inner, HI in E.
  Qed.
  Lemma foldl_ds_plus (l : list V) (v : V) : foldl (ds_plus cfg) (Some v) (map Some l) = Some (foldl vadd v l).
  Proof. revert v. induction l as [|a l IH]; intros v; [done|]. simpl. apply IH. Qed.

  (** The stabilisation phase on a fluid particle, in closed form; virtual particles and dummies take no part. *)
  Theorem C36_stabilisation_phase s s' i p :
    midstep s -> length (cOrigX s) = psize s -> stabilize s = Some s' -> cParts s !! i = Some p -> fluid p ->
    let du := (- (1 / (2 * eDt (cEnv s) * eN0 (cEnv s))) : Rnum) *^ stab_sum s i p in
    cParts s' !! i = Some (mkParticle (pX p +^ (eDt (cEnv s)) *^ du) (pU p +^ du) (pP p) (pN p) (pT p)).
  Proof.
    intros Hm HL H Hp Hf du. assert (enabled p) as He by (unfold enabled, fluid in *; congruence).
    pose proof (stabilize_at s s' i p H Hp) as HX. rewrite (proj2 (is_newton_true p) Hf) in HX. destruct HX as (a & Ha & HX). rewrite HX.
    assert (a = du) as ->.
    { unfold ds_value in Ha. cbv zeta in Ha. destruct (lookup_lt_is_Some_2 (cOrigX s) i) as [x0 Hx0]; [rewrite HL; by eapply lookup_lt_Some|].
      rewrite Hx0 in Ha. cbn [mbind option_bind] in Ha.
      destruct (acc_list s i p (Some vzero) (ds_plus cfg) (ds_func s x0 (pX p) ((eL0 (cEnv s) -. eMaxDx (cEnv s)) ×. (eL0 (cEnv s) -. eMaxDx (cEnv s))))
        (Rlt_le _ _ (ms_re s Hm)) (ms_cover s Hm) Hp He (ms_nws_at s i p Hm Hp)) as (l & Hl & E).
      rewrite E in Ha. clear E. cbv zeta in Ha.
      set (g (j : nat) := fun q => if decide (overlapping (cEnv s) p q) then ds_term (limit2 (cEnv s) : Rnum) (pX q -^ pX p) (saved s j -^ saved s i) else vzero).
      set (F := foldl _ _ _) in Ha. assert (F = Some (foldl vadd vzero (map (fun j => at_part s j vzero (g j)) l))) as HF.
      { unfold F. rewrite <- foldl_ds_plus. f_equal. rewrite map_map. apply map_ext_in. intros j Hj%elem_of_list_In.
        rewrite Hl in Hj. apply elem_of_list_filter in Hj as [_ Hj%elem_of_seq]. destruct (lookup_lt_is_Some_2 (cParts s) j ltac:(unfold psize in *; lia)) as [q Hq].
        rewrite !(at_part_eq s j q) by done. apply (ds_func_R s i p j q x0 HL Hx0). lia. }
      rewrite HF in Ha. 
      assert (of_virtual s i p (Some (foldl vadd vzero (map (fun j => at_part s j vzero (g j)) l)))
         (fun v => ds_plus cfg (Some (foldl vadd vzero (map (fun j => at_part s j vzero (g j)) l)))
            (ds_func s x0 (pX p) ((eL0 (cEnv s) -. eMaxDx (cEnv s)) ×. (eL0 (cEnv s) -. eMaxDx (cEnv s))) (-1) v))
         = Some (foldl vadd vzero (map (fun j => at_part s j vzero (g j)) l))) as HV.
      { unfold of_virtual. destruct (virtual s i p) as [v|] eqn:Ev; [|done]. apply virtual_fields in Ev as (_ & HT & _ & HSPP).
        unfold ds_func. rewrite HT, HSPP. simpl. f_equal. apply vadd_0_r. }
      rewrite HV in Ha. cbn [mbind option_bind] in Ha. injection Ha as <-. unfold du. f_equal.
      - simpl. unfold Rdiv. ring.
      - rewrite foldl_vadd, vadd_0_l. unfold stab_sum. fold g. rewrite <- (close_vsum_filter _ _ _ g). apply vsum_perm. by apply Permutation_map. }
    unfold kicked, set_U, set_X. simpl. f_equal. f_equal. f_equal. apply coord_ext. intros k Hk. rewrite coord_scalr, coord_scal by done. ring.
  Qed.
  (** Particles that overlap with nobody are left alone. *)
  Theorem C36_no_overlap s s' i p :
    midstep s -> length (cOrigX s) = psize s -> stabilize s = Some s' -> cParts s !! i = Some p -> fluid p ->
    (forall j q, close (eRe (cEnv s)) s i j -> cParts s !! j = Some q -> ~ overlapping (cEnv s) p q) ->
    cParts s' !! i = Some p.
  Proof.
    intros Hm HL H Hp Hf Hno. rewrite (C36_stabilisation_phase s s' i p Hm HL H Hp Hf).
    assert (stab_sum s i p = vzero) as ->.
    { apply close_vsum_zero. intros j q Hq C. destruct (decide _) as [O|]; [|done]. by destruct (Hno j q C Hq). }
    rewrite !vscal_zero, !vadd_0_r. by destruct p.
  Qed.
  (** If only fluid particles overlap, the total momentum of the fluid is not changed. *)
  Theorem C36_momentum s s' :
    midstep s -> length (cOrigX s) = psize s -> stabilize s = Some s' ->
    (forall i j p q, close (eRe (cEnv s)) s i j -> cParts s !! i = Some p -> cParts s !! j = Some q -> fluid p -> ~ fluid q -> ~ overlapping (cEnv s) p q) ->
    (forall i j p q, close (eRe (cEnv s)) s i j -> cParts s !! i = Some p -> cParts s !! j = Some q -> fluid p -> fluid q -> overlapping (cEnv s) p q -> saved s i <> saved s j) ->
    fluid_sum s' pU = fluid_sum s pU.
  Proof.
    intros Hm HL H Hno Hsep. apply coord_ext. intros k Hk. unfold fluid_sum. rewrite !coord_vsum_n by done.
    assert (psize s' = psize s) as -> by (apply (pr_size s s'), stabilize_pr, H).
    set (c := - (1 / (2 * eDt (cEnv s) * eN0 (cEnv s)))).
    transitivity (sum_n (psize s) (fun i => coord (at_part s i vzero (fun p => if decide (fluid p) then pU p else vzero)) k
      + c * at_part s i 0 (fun p => if decide (fluid p) then coord (stab_sum s i p) k else 0))).
    - apply sum_n_ext. intros i Hi. destruct (lookup_lt_is_Some_2 (cParts s) i Hi) as [p Hp]. unfold at_part. rewrite Hp.
      destruct (decide (fluid p)) as [Fp|Fp].
      + rewrite (C36_stabilisation_phase s s' i p Hm HL H Hp Fp). cbn [pU]. destruct (decide _) as [_|Fn]; [|by destruct Fn].
        rewrite coord_add, coord_scal by done. unfold c. ring.
      + pose proof (stabilize_at s s' i p H Hp) as HX. assert (is_newton (pT p) = false) as HN.
        { destruct (is_newton (pT p)) eqn:E; [|done]. by apply is_newton_true in E. }
        rewrite HN in HX. rewrite HX. destruct (decide _) as [Fn|_]; [by destruct Fp|]. rewrite coord_zero by done. ring.
    - rewrite sum_n_plus, sum_n_scal. enough (sum_n (psize s) (fun i => at_part s i 0 (fun p => if decide (fluid p) then coord (stab_sum s i p) k else 0)) = 0) as -> by ring.
      etransitivity; [|apply (pair_sum_zero (eRe (cEnv s)) s (fun i j p q =>
        if decide (close (eRe (cEnv s)) s i j) then if decide (overlapping (cEnv s) p q) then coord (ds_term (limit2 (cEnv s) : Rnum) (pX q -^ pX p) (saved s j -^ saved s i)) k else 0 else 0))].
      + apply sum_n_ext. intros i Hi. unfold at_part. destruct (cParts s !! i) as [p|]; [|done].
        destruct (decide (fluid p)); [|done]. unfold stab_sum. rewrite coord_close_vsum by done. apply close_sum_ext.
        intros j q _ C. rewrite (decide_True (P := close _ s i j)) by done. destruct (decide _); [done|]. by apply coord_zero.
      + intros i j p q Hp Hq Fp Fq. assert (close (eRe (cEnv s)) s i j <-> close (eRe (cEnv s)) s j i) as HCl.
        { unfold close. rewrite Hp, Hq. split; intros (Hij & ? & ? & [= <-] & [= <-] & He & Hd); (split; [done|]); do 2 eexists; (split; [done|]); (split; [done|]); rewrite edist_sym; (split; [|done]); unfold enabled, fluid in *; congruence. }
        destruct (decide (close (eRe (cEnv s)) s i j)) as [Cij|Cij], (decide (close (eRe (cEnv s)) s j i)) as [Cji|Cji]; try tauto; [|ring].
        assert (overlapping (cEnv s) p q <-> overlapping (cEnv s) q p) as HS.
        { unfold overlapping, fluid in *. rewrite Fp, Fq, edist_sym. done. }
        destruct (decide (overlapping (cEnv s) p q)) as [O|O], (decide (overlapping (cEnv s) q p)) as [O'|O']; try tauto; [|ring].
        assert (pX q -^ pX p = (-1 : Rnum) *^ (pX p -^ pX q)) as -> by (apply coord_ext; intros a Ha; rewrite coord_scal, !coord_sub by done; ring).
        assert (saved s j -^ saved s i = (-1 : Rnum) *^ (saved s i -^ saved s j)) as -> by (apply coord_ext; intros a Ha; rewrite coord_scal, !coord_sub by done; ring).
        rewrite C36_opposite, coord_scal by first [done|intros E; apply (Hsep i j p q Cij Hp Hq Fp Fq O);
          apply coord_ext; intros a Ha; apply (f_equal (fun x => coord x a)) in E; rewrite coord_sub, coord_zero in E by done; lra]. ring.
      + intros i j p q Hp Hq Fp Fq C. destruct (decide (close _ _ _ _)); [|done]. destruct (decide _) as [O|]; [|done]. by destruct (Hno i j p q C Hp Hq Fp Fq).
  Qed.
End Stab.

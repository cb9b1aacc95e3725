(** Property theorems: life of particles, time, walls, definedness. *)
From Verif Require Import M_Main M_NumR M_NumF P_Life.

Section Any.
  Context {N : num} {cfg : config} {wm : wallmotion N (cDim cfg)}.
  Notation d := (cDim cfg).
  Notation part := (particle N d).
  Notation computer := (computer cfg wm).
  Implicit Types (s : computer) (p : part).

  (** C08.  Whatever is called: the particles after a history are the initial ones followed
      by the added ones, in order, each with its type unchanged or [Disabled]. *)
  Theorem C08_types_permanent (ops : list (api cfg)) s s' :
    api_run ops s = Some s' ->
    Forall2 (fun p p' => pT p' = pT p \/ pT p' = Disabled) (cParts s ++ added ops) (cParts s').
  Proof.
    assert (forall l l' : list part, Forall2 (fun t t' => t' = t \/ t' = Disabled) (pT <$> l) (pT <$> l') <->
      Forall2 (fun p p' => pT p' = pT p \/ pT p' = Disabled) l l') as Hf by (intros; apply Forall2_fmap).
    revert s. induction ops as [|o ops IH]; intros s H.
    - simpl in *. injection H as ->. rewrite app_nil_r. apply Forall2_same_length_lookup_2; [done|].
      intros i x y Hx Hy. left. congruence.
    - rewrite api_run_cons in H. destruct (final (api_step o s)) as [s1|] eqn:E; [|done]. simpl in H.
      apply IH in H. apply forward_dt_frame in E. destruct o as [src|dt|]; simpl.
      + rewrite E in H. simpl in H. by rewrite app_assoc.
      + apply forward_frame in E as [_ E]. apply Hf in E.
        apply Forall2_app_inv_l in H as (l1 & l2 & F1 & F2 & ->). apply Forall2_app; [|done].
        eapply Forall2_transitive; [|exact E|exact F1]. simpl. intros x y z [Ha|Ha] [Hb|Hb]; rewrite ?Ha, ?Hb; eauto.
      + destruct E as (dt & _ & E). apply forward_frame in E as [_ E]. apply Hf in E.
        apply Forall2_app_inv_l in H as (l1 & l2 & F1 & F2 & ->). apply Forall2_app; [|done].
        eapply Forall2_transitive; [|exact E|exact F1]. simpl. intros x y z [Ha|Ha] [Hb|Hb]; rewrite ?Ha, ?Hb; eauto.
  Qed.

  (** C09.  No call from a reachable state has undefined behaviour, except [ForwardTime()] without
      particles and positions whose block number does not fit the index type. *)
  Theorem C09_no_out_of_bounds env0 (o : api cfg) s :
    square_ground env0 -> reachable env0 s -> api_step o s = Undef ->
    (o = ForwardTime cfg /\ cParts s = []) \/
    (exists i p k, cParts s !! i = Some p /\ enabled p /\ (k < dimn d)%nat /\
       nfloor ((tget d (pX p) k -. tget d (eMinX env0) k) /. eNL env0) = None).
  Proof.
    intros Hsq Hr Hu. pose proof (reachable_inv env0 s Hsq Hr) as Hinv. pose proof (inv_ok _ _ Hsq Hinv) as Hok.
    assert (forall dt, forward_dt dt s = Undef -> exists i p k, cParts s !! i = Some p /\ enabled p /\ (k < dimn d)%nat /\
       nfloor ((tget d (pX p) k -. tget d (eMinX env0) k) /. eNL env0) = None) as Hfw.
    { intros dt Hd. destruct (forward_Undef dt s Hok Hd) as (i & p & Hp & HT & Hb).
      destruct (inv_geom _ _ Hinv) as (g0 & Hg0 & (Hl & Ho & _)).
      destruct (new_grid_shape _ _ _ _ _ Hg0) as (Hl0 & Ho0 & _).
      unfold block_of in Hb. apply mapM_None, Exists_exists in Hb as (k & Hk & Hb).
      apply elem_of_seq in Hk. exists i, p, k. split; [done|]. split; [by apply is_disabled_false|]. split; [lia|].
      unfold block_axis, floor_div in Hb. by rewrite Ho, Ho0, Hl, Hl0 in Hb. }
    destruct o as [src|dt|]; simpl in Hu; [done|right; by eapply Hfw|].
    unfold forward in Hu. destruct (determine_dt s) eqn:E; [right; by eapply Hfw|].
    left. split; [done|]. unfold determine_dt in E. by destruct (cParts s).
  Qed.

  (** C10. *)
  Theorem C10_no_particles env0 s dt :
    square_ground env0 -> reachable env0 s -> cParts s = [] ->
    forward s = Undef /\ forward_dt dt s <> Undef.
  Proof.
    intros Hsq Hr He. split.
    - unfold forward, determine_dt. by rewrite He.
    - intros Hu. destruct (C09_no_out_of_bounds env0 (ForwardTimeBy cfg dt) s Hsq Hr Hu) as [[? _]|(i & p & _ & Hp & _)]; [done|].
      by rewrite He in Hp.
  Qed.

  (** C25.  [t] is the new time; the wall callbacks are asked with the state left by exactly one
      call of the pre-hook. *)
  Theorem C25_prescribed_motion dt s s' i p p' :
    forward_dt dt s = Done s' -> cParts s !! i = Some p -> cParts s' !! i = Some p' ->
    pT p' <> Newton ->
    let t := eT (cEnv s) +. dt in
    let w := wPre wm (cWall s) t dt in
    cWall s' = w /\ pX p' = wPos wm w i t dt /\ pU p' = (pX p' -^ pX p) /^ dt.
  Proof.
    intros Hf Hp Hp' HT t w. split; [by apply step_wall_state|]. by apply (step_wall dt s s' i p p').
  Qed.

  (** C37. *)
  Theorem C37_implicit_moves_fluid_only s s' i p :
    compute_implicit s = Done s' -> cParts s !! i = Some p ->
    exists p', cParts s' !! i = Some p' /\ pT p' = pT p /\ pN p' = pN p /\
      if decide (pT p = Newton)
      then exists du, pU p' = pU p +^ du /\ pX p' = pX p +^ vscalr du (eDt (cEnv s))
      else pU p' = pU p /\ pX p' = pX p.
  Proof.
    intros H Hp. destruct (implicit_at s s' i p H Hp) as (P & Hi).
    destruct (is_newton (pT p)) eqn:E; [apply is_newton_true in E; rewrite E in *|].
    - destruct Hi as (a & Hi). eexists. split; [exact Hi|]. split; [done|]. split; [done|]. rewrite decide_True by done. eauto.
    - eexists. split; [exact Hi|]. split; [done|]. split; [done|]. rewrite decide_False; [done|].
      intros HT. by rewrite HT in E.
  Qed.
  Theorem C37_stabilisation_moves_fluid_only s s' i p :
    stabilize s = Some s' -> cParts s !! i = Some p ->
    exists p', cParts s' !! i = Some p' /\ pT p' = pT p /\ pN p' = pN p /\ pP p' = pP p /\
      if decide (pT p = Newton)
      then exists du, pU p' = pU p +^ du /\ pX p' = pX p +^ vscalr du (eDt (cEnv s))
      else pU p' = pU p /\ pX p' = pX p.
  Proof.
    intros H Hp. pose proof (stabilize_at s s' i p H Hp) as Hi.
    destruct (is_newton (pT p)) eqn:E; [apply is_newton_true in E; rewrite E in *|].
    - destruct Hi as (a & _ & Hi). eexists. split; [exact Hi|]. split; [done|]. split; [done|]. split; [done|].
      rewrite decide_True by done. eauto.
    - eexists. split; [exact Hi|]. split; [done|]. split; [done|]. split; [done|]. rewrite decide_False; [done|].
      intros HT. by rewrite HT in E.
  Qed.

  (** C38.  The time is the running sum of the steps; a call sets [Dt()] to the step and
      changes nothing else in the environment. *)
  Theorem C38_time env0 dts s :
    timeline env0 dts s ->
    eT (cEnv s) = foldl nadd (eT env0) dts /\ eDt (cEnv s) = List.last dts (eDt env0) /\
    same_constants env0 (cEnv s).
  Proof.
    assert (forall dts dt s s', final (forward_dt dt s) = Some s' ->
      eT (cEnv s) = foldl nadd (eT env0) dts /\ eDt (cEnv s) = List.last dts (eDt env0) /\ same_constants env0 (cEnv s) ->
      eT (cEnv s') = foldl nadd (eT env0) (dts ++ [dt]) /\ eDt (cEnv s') = List.last (dts ++ [dt]) (eDt env0) /\ same_constants env0 (cEnv s')) as Hstep.
    { intros l dt s0 s1 Hf (HT & HD & HC). apply forward_frame in Hf as [He _]. rewrite He. simpl.
      rewrite foldl_app. simpl. rewrite HT, last_last. split; [done|]. split; [done|].
      unfold same_constants in *. rewrite HC. done. }
    induction 1 as [eps w s H|src dts s s' _ IH H|dt dts s s' _ IH H|dt dts s s' _ IH Hdt H].
    - unfold new_computer in H. destruct (new_grid _ _ _ _ _); [|done]. simpl in H. injection H as <-. simpl.
      split; [done|]. split; [done|]. apply same_constants_refl.
    - simpl in H. injection H as <-. done.
    - eapply Hstep; [|exact IH]. by destruct H as [H|[e H]]; simpl in H; rewrite H.
    - eapply Hstep; [|exact IH]. simpl in H. unfold forward in H. rewrite Hdt in H. by destruct H as [H|[e H]]; rewrite H.
  Qed.

  (** Every reachable state has such a timeline. *)
  Theorem C38_timeline_exists env0 s : reachable env0 s -> exists dts, timeline env0 dts s.
  Proof.
    induction 1 as [eps w s H|o s s' _ [dts IH] H|o s s' e _ [dts IH] H].
    - eexists. by eapply tl_new.
    - destruct o as [src|dt|].
      + eexists. by eapply tl_add.
      + eexists. eapply tl_by; eauto.
      + assert (is_Some (determine_dt s)) as [dt Hdt].
        { simpl in H. unfold forward in H. destruct (determine_dt s); [eauto|done]. }
        eexists. eapply tl_auto; eauto.
    - destruct o as [src|dt|]; [done| |].
      + eexists. eapply tl_by; eauto.
      + assert (is_Some (determine_dt s)) as [dt Hdt].
        { simpl in H. unfold forward in H. destruct (determine_dt s); [eauto|done]. }
        eexists. eapply tl_auto; eauto.
  Qed.

  (** C47. *)
  Theorem C47_add_particles env0 src s :
    square_ground env0 -> reachable env0 s ->
    exists s', api_step (AddParticles cfg src) s = Done s' /\
      cParts s' = cParts s ++ src /\ cEnv s' = cEnv s /\ cWall s' = cWall s /\
      (forall i, (i < psize s)%nat -> neighbor_list s' i = neighbor_list s i) /\
      (forall i, (psize s <= i < psize s')%nat -> neighbor_list s' i = Some []) /\
      length (cNeighbor s') = psize s' /\ length (cDu s') = psize s' /\ length (cEcs s') = psize s' /\
      length (cOrigX s') = psize s' /\ length (cNws s') = psize s'.
  Proof.
    intros Hsq Hr. pose proof (inv_ok _ _ Hsq (reachable_inv env0 s Hsq Hr)) as [Hwf Hok].
    exists (add_particles src s). split; [done|]. split; [done|]. split; [done|]. split; [done|].
    assert (psize (add_particles src s) = psize s + length src)%nat as Hn by (unfold psize, add_particles; apply app_length).
    assert (cNeighbor (add_particles src s) = cNeighbor s ++ replicate (length src) (replicate (row_len s) 0%nat)) as Hnb.
    { unfold add_particles. simpl. rewrite app_length, resize_ge by (rewrite (wf_nrows s Hwf); unfold psize; lia).
      rewrite (wf_nrows s Hwf). unfold psize. do 2 f_equal. lia. }
    split; [|split].
    - intros i Hi. apply neighbor_list_ext. rewrite Hnb. apply lookup_app_l. by rewrite (wf_nrows s Hwf).
    - intros i Hi. unfold neighbor_list. rewrite Hnb, lookup_app_r by (rewrite (wf_nrows s Hwf); lia).
      rewrite lookup_replicate_2 by (rewrite (wf_nrows s Hwf); lia). simpl. done.
    - rewrite <- (wf_nrows (add_particles src s)) by (apply ok_add; by split).
      pose proof (ok_add src s (conj Hwf Hok)) as [Hwf' _].
      rewrite (wf_nrows _ Hwf'). split; [done|]. split; [apply Hwf'|]. split; [apply Hwf'|]. split; apply Hwf'.
  Qed.

  (** C28, part for all arithmetics. *)
  Theorem C28_inactive_keep_pressure dt s s' i p p' :
    cExplicit cfg = false ->
    forward_dt dt s = Done s' -> cParts s !! i = Some p -> cParts s' !! i = Some p' ->
    pT p' = Dummy \/ pT p' = Disabled -> pP p' = pP p.
  Proof.
    intros Hx Hf Hp Hp' HT. pose proof (step_pressure dt s s' i p p' Hx Hf Hp Hp') as H.
    destruct HT as [HT|HT]; by rewrite HT in H.
  Qed.
End Any.

(** C28.  In exact arithmetic and in binary64 alike (there, a NaN is not negative either). *)
Theorem C28_pressure_not_negative_real cfg (wm : wallmotion Rnum (cDim cfg)) dt (s s' : computer cfg wm) i p' :
  cExplicit cfg = false -> forward_dt dt s = Done s' -> cParts s' !! i = Some p' -> fluid_or_wall p' ->
  (0 <= pP p')%R.
Proof.
  intros Hx Hf Hp' HT.
  assert (exists p, cParts s !! i = Some p) as [p Hp].
  { pose proof (forward_frame dt s s') as Hfr. rewrite Hf in Hfr. destruct (Hfr eq_refl) as [_ F].
    apply Forall2_length in F. rewrite !fmap_length in F. apply lookup_lt_is_Some. rewrite F. by eapply lookup_lt_Some. }
  pose proof (step_pressure dt s s' i p p' Hx Hf Hp Hp') as H.
  apply is_active_true in HT. rewrite HT in H. destruct H as [H|H].
  - rewrite H. simpl. lra.
  - simpl in H. destruct (Rlt_dec _ _); [done|]. lra.
Qed.
Theorem C28_pressure_not_negative_binary64 cfg (wm : wallmotion F64num (cDim cfg)) dt (s s' : computer cfg wm) i p' :
  cExplicit cfg = false -> forward_dt dt s = Done s' -> cParts s' !! i = Some p' -> fluid_or_wall p' ->
  SFltb (pP p') (S754_zero false) = false.
Proof.
  intros Hx Hf Hp' HT.
  assert (exists p, cParts s !! i = Some p) as [p Hp].
  { pose proof (forward_frame dt s s') as Hfr. rewrite Hf in Hfr. destruct (Hfr eq_refl) as [_ F].
    apply Forall2_length in F. rewrite !fmap_length in F. apply lookup_lt_is_Some. rewrite F. by eapply lookup_lt_Some. }
  pose proof (step_pressure dt s s' i p p' Hx Hf Hp Hp') as H.
  apply is_active_true in HT. rewrite HT in H. destruct H as [H|H].
  - by rewrite H.
  - done.
Qed.

(** A whole step and histories of API calls (any arithmetic). *)
From Verif Require Export S_Reach P_Phase.

Section Step.
  Context {N : num} {cfg : config} {wm : wallmotion N (cDim cfg)}.
  Notation d := (cDim cfg).
  Notation V := (vec N d).
  Notation part := (particle N d).
  Notation computer := (computer cfg wm).
  Implicit Types (s : computer) (dt : N).

  Lemma forward_Done dt s s' :
    forward_dt dt s = Done s' -> exists s1 s2 s3 s4 s5 s6 s7, step_trace dt s s1 s2 s3 s4 s5 s6 s7 s'.
  Proof.
    unfold forward_dt. intros H.
    apply obind_Done in H as (s7 & H & H8).
    apply obind_Done in H as (s6 & H & H7).
    apply obind_Done in H as (s5 & H & H6).
    apply obind_Done in H as (s4 & H & H5).
    apply obind_Done in H as (s3 & H & H4).
    apply obind_Done in H as (s2 & H & H3).
    apply obind_Done in H as (s1 & H1 & H2).
    exists s1, s2, s3, s4, s5, s6, s7. split; try done.
    - by apply of_opt_Done.
    - destruct (cECS cfg); [by apply of_opt_Done|congruence].
    - by apply of_opt_Done.
    - by apply of_opt_Done.
    - destruct (cDS cfg); [by apply of_opt_Done|congruence].
    - destruct (cDS cfg); [by apply of_opt_Done|congruence].
  Qed.

  Lemma step_trace_Done dt s s1 s2 s3 s4 s5 s6 s7 s8 :
    step_trace dt s s1 s2 s3 s4 s5 s6 s7 s8 -> forward_dt dt s = Done s8.
  Proof.
    intros [H1 H2 H3 H4 H5 H6 H7 H8]. unfold forward_dt. unfold start_step in H1. rewrite H1. simpl.
    rewrite H2. simpl. destruct (cECS cfg).
    - rewrite H3. simpl. rewrite H4. simpl. rewrite H5. simpl. destruct (cDS cfg).
      + rewrite H6. simpl. rewrite H7. simpl. by rewrite H8.
      + subst. simpl. rewrite H7. done.
    - subst s3. simpl. rewrite H4. simpl. rewrite H5. simpl. destruct (cDS cfg).
      + rewrite H6. simpl. rewrite H7. simpl. by rewrite H8.
      + subst. simpl. rewrite H7. done.
  Qed.

  Lemma of_opt_final (o : option computer) s : final (of_opt o) = Some s -> o = Some s.
  Proof. by destruct o. Qed.

  (** However a step ends, everything after the search is a [phase_rel]. *)
  Lemma forward_final dt s s' :
    final (forward_dt dt s) = Some s' ->
    (exists e, search_neighbor (start_step dt s) = Throw e s') \/
    (exists s1, search_neighbor (start_step dt s) = Done s1 /\ phase_rel s1 s').
  Proof.
    unfold forward_dt. fold (start_step dt s). intros H.
    destruct (search_neighbor (start_step dt s)) as [s1|e s1|] eqn:E; simpl in H; [|injection H as <-; eauto|done].
    right. exists s1. split; [done|].
    assert (forall (o : outcome computer) (f : computer -> outcome computer),
      (forall s2, final o = Some s2 -> phase_rel s1 s2) ->
      (forall s2 s3, final (f s2) = Some s3 -> phase_rel s2 s3) ->
      forall s2, final (o >>o f) = Some s2 -> phase_rel s1 s2) as Hb.
    { intros o f Ho Hf s2 H2. apply final_obind in H2 as [[e He]|(s3 & H3 & H4)].
      - apply Ho. by rewrite He.
      - eapply phase_rel_trans; [apply Ho; by rewrite H3|by apply Hf]. }
    revert s' H. repeat apply Hb.
    - intros s2 H%of_opt_final. by apply dens_pr.
    - intros s2 s3. destruct (cECS cfg).
      + intros H%of_opt_final. by apply ecs_pr.
      + simpl. intros [= <-]. apply phase_rel_refl.
    - intros s2 s3 H%of_opt_final. by apply explicit_pr.
    - intros s2 s3 H%of_opt_final. by apply dens_pr.
    - intros s2 s3. destruct (cDS cfg).
      + intros H%of_opt_final. by apply savex_pr.
      + simpl. intros [= <-]. apply phase_rel_refl.
    - intros s2 s3. apply implicit_pr.
    - intros s2 s3. destruct (cDS cfg).
      + intros H%of_opt_final. by apply stabilize_pr.
      + simpl. intros [= <-]. apply phase_rel_refl.
  Qed.

  (** ** The structural invariant *)
  Lemma wf_start dt s : wf s -> wf (start_step dt s).
  Proof. intros [? ? ? ? ? ? ? ? ? ?]. by split. Qed.

  Lemma leave_types (g : grid N d) (ps : list part) m :
    length (imap (fun i p => if (i <? m)%nat then leave g p else p) ps) = length ps.
  Proof. apply imap_length. Qed.

  Lemma same_geom_clear_ok (g g' : grid N d) : same_geom g g' -> clear_ok g -> clear_ok g'.
  Proof. unfold clear_ok. by intros (_ & _ & -> & _). Qed.

  Lemma wf_searched (s s' : computer) : wf s -> searched s s' -> wf s'.
  Proof.
    intros Hwf Hs. destruct (se_geom _ _ Hs) as (Hg1 & Hg2 & Hg3 & Hg4).
    assert (psize s' = psize s) as Hn by (unfold psize; by rewrite (se_parts _ _ Hs), fmap_length).
    assert (row_len s' = row_len s) as Hrl by (unfold row_len; by rewrite Hg4).
    assert (forall i row, cNeighbor s' !! i = Some row ->
       length row = row_len s' /\ exists js, neighbor_list s' i = Some js /\ Forall (fun j => (j < psize s')%nat) js) as Hrow.
    { intros i row Hr. assert (i < psize s')%nat as Hi.
      { apply lookup_lt_Some in Hr. rewrite (se_nrows _ _ Hs), (wf_nrows s Hwf) in Hr. lia. }
      destruct (lookup_lt_is_Some_2 (cParts s') i Hi) as [p Hp].
      destruct (is_disabled (pT p)) eqn:Hd.
      - pose proof (se_rows_dis _ _ Hs i p Hp Hd) as He. rewrite He in Hr.
        rewrite Hrl, (neighbor_list_ext s' s), Hn by done.
        split; [by eapply (wf_row s)|by eapply (wf_list s)].
      - destruct (se_rows _ _ Hs i p Hp Hd) as (row0 & Hr0 & Hlen & Hr').
        rewrite Hr in Hr'. injection Hr' as ->. split.
        + rewrite Hrl. rewrite <- (wf_row s Hwf i row0 Hr0). simpl. rewrite app_length, drop_length. lia.
        + exists (found s' i p). split; [by eapply row_read|].
          apply Forall_forall. intros j Hj. unfold found in Hj.
          destruct (block_of d (cGrid s') (pX p)) as [b|]; [|by apply elem_of_nil in Hj].
          apply elem_of_bfilter in Hj as [_ Hj].
          destruct (around_contents_bound s s' b j (se_contents _ _ Hs) Hj) as (k & _ & _ & _ & ?). lia. }
    pose proof (se_rest _ _ Hs) as Hrest.
    split.
    - apply Hs.
    - rewrite (se_nrows _ _ Hs), (wf_nrows s Hwf). lia.
    - intros i row Hr. by apply (Hrow i).
    - intros i row Hr. by apply (Hrow i row).
    - rewrite Hrest at 1. simpl. rewrite Hn. apply Hwf.
    - rewrite Hrest at 1. simpl. rewrite Hn. apply Hwf.
    - rewrite Hrest at 1. simpl. rewrite Hn. apply Hwf.
    - rewrite Hrest at 1. simpl. rewrite Hn. apply Hwf.
    - rewrite Hrest. simpl. apply Hwf.
    - rewrite Hrest. simpl. apply Hwf.
  Qed.

  (** Both facts the next step needs. *)
  Definition ok (s : computer) : Prop := wf s /\ clear_ok (cGrid s).

  Lemma wf_parts_grid (s : computer) ps g :
    wf s -> grid_wf g -> same_geom (cGrid s) g -> length ps = psize s ->
    wf (with_parts (with_grid s g) ps).
  Proof.
    intros Hwf Hg (H1 & H2 & H3 & H4) Hn.
    assert (forall l : list (list nat), l = cNeighbor s -> psize (with_parts (with_grid s g) ps) = psize s) as Hps by done.
    split; simpl; unfold psize in *; simpl; rewrite ?Hn; try apply Hwf; try done.
    - intros i row Hr. unfold row_len. simpl. rewrite H4. by apply (wf_row s Hwf i row).
  Qed.

  Lemma ok_forward dt s s' : ok s -> final (forward_dt dt s) = Some s' -> ok s'.
  Proof.
    intros [Hwf Hok] Hf. pose proof (search_spec (start_step dt s) (wf_start dt s Hwf) Hok) as Hs.
    apply forward_final in Hf as [[e He]|(s1 & H1 & Hp)].
    - rewrite He in Hs. destruct Hs as (_ & Hg & Hgeo & m & k & _ & _ & Hs').
      split; [|by eapply same_geom_clear_ok].
      rewrite Hs'. apply wf_parts_grid; [by apply wf_start|done|done|]. apply imap_length.
    - rewrite H1 in Hs. split.
      + eapply wf_phase; [exact Hp|]. eapply wf_searched; [by apply wf_start|done].
      + rewrite (pr_grid _ _ Hp). eapply same_geom_clear_ok; [apply Hs|done].
  Qed.

  (** A step is undefined only if a position has no block number. *)
  Lemma forward_Undef dt s :
    ok s -> forward_dt dt s = Undef ->
    exists i p, cParts s !! i = Some p /\ is_disabled (pT p) = false /\ block_of d (cGrid s) (pX p) = None.
  Proof.
    intros [Hwf Hok] Hu. pose proof (search_spec (start_step dt s) (wf_start dt s Hwf) Hok) as Hs.
    unfold forward_dt in Hu. fold (start_step dt s) in Hu.
    destruct (search_neighbor (start_step dt s)) as [s1|e s1|] eqn:E; simpl in Hu; [|done|by apply Hs].
    assert (wf s1) as Hwf1 by (eapply wf_searched; [by apply wf_start|done]).
    exfalso. revert Hu.
    destruct (dens_defined s1 Hwf1) as [s2 H2]. rewrite H2. simpl.
    assert (wf s2) as Hwf2 by (eapply wf_phase; [by apply dens_pr|done]).
    assert (exists s3, (if cECS cfg then of_opt (compute_ecs s2) else Done s2) = Done s3 /\ wf s3) as (s3 & -> & Hwf3).
    { destruct (cECS cfg); [|eauto]. destruct (ecs_defined s2 Hwf2) as [s3 H3]. rewrite H3. exists s3. split; [done|].
      eapply wf_phase; [by apply ecs_pr|done]. }
    simpl. destruct (explicit_defined s3 Hwf3) as [s4 H4]. rewrite H4. simpl.
    assert (wf s4) as Hwf4 by (eapply wf_phase; [by apply explicit_pr|done]).
    destruct (dens_defined s4 Hwf4) as [s5 H5]. rewrite H5. simpl.
    assert (wf s5) as Hwf5 by (eapply wf_phase; [by apply dens_pr|done]).
    assert (exists s6, (if cDS cfg then of_opt (save_x s5) else Done s5) = Done s6 /\ wf s6) as (s6 & -> & Hwf6).
    { destruct (cDS cfg); [|eauto]. destruct (savex_defined s5 Hwf5) as [s6 H6]. rewrite H6. exists s6. split; [done|].
      eapply wf_phase; [by apply savex_pr|done]. }
    simpl. pose proof (implicit_defined s6 Hwf6) as Himp.
    destruct (compute_implicit s6) as [s7|e s7|] eqn:E7; simpl; [|done|done].
    assert (wf s7) as Hwf7 by (eapply wf_phase; [apply implicit_pr; by rewrite E7|done]).
    destruct (cDS cfg); [|done]. destruct (stabilize_defined s7 Hwf7) as [s8 ->]. done.
  Qed.

  Lemma ok_add src s : ok s -> ok (add_particles src s).
  Proof.
    intros [Hwf Hok]. split; [|done].
    assert (psize (add_particles src s) = psize s + length src)%nat as Hn.
    { unfold psize, add_particles. simpl. apply app_length. }
    assert (row_len (add_particles src s) = row_len s) as Hrl by done.
    pose proof (wf_nrows s Hwf) as Hnr.
    assert (forall (A : Type) n (x : A) l, length l = psize s -> (psize s <= n)%nat -> resize n x l = l ++ replicate (n - psize s) x) as Hres.
    { intros A n x l Hl Hle. rewrite resize_ge by lia. by rewrite Hl. }
    assert (forall i row, cNeighbor (add_particles src s) !! i = Some row ->
      cNeighbor s !! i = Some row \/ row = replicate (row_len s) 0%nat) as Hrows.
    { intros i row. unfold add_particles. simpl. rewrite Hres; [|done|rewrite app_length; unfold psize; lia].
      rewrite lookup_app. destruct (cNeighbor s !! i); [by left|]. intros H.
      right. by apply lookup_replicate in H as [-> _]. }
    assert (forall i row, cNeighbor (add_particles src s) !! i = Some row ->
      exists js, neighbor_list (add_particles src s) i = Some js /\ Forall (fun j => (j < length (cParts s ++ src))%nat) js) as Hlists.
    { intros i row Hr. destruct (Hrows i row Hr) as [H|H].
      - destruct (wf_list s Hwf i row H) as (js & Hjs & Hall). exists js. split.
        + rewrite <- Hjs. apply neighbor_list_ext. by rewrite Hr, H.
        + eapply Forall_impl; [exact Hall|]. intros j Hj. simpl in Hj. rewrite app_length. unfold psize in Hj. lia.
      - exists []. split; [|by constructor]. unfold neighbor_list. rewrite Hr, H. unfold row_len. done. }
    split; try done; simpl; rewrite ?resize_length; unfold psize; simpl; try done; try apply Hwf.
    - intros i row Hr. rewrite Hrl. destruct (Hrows i row Hr) as [H| ->]; [by eapply (wf_row s)|apply replicate_length].
  Qed.

  Lemma ok_new eps env w s : new_computer cfg wm eps env w = Some s -> clear_ok (cGrid s) -> ok s.
  Proof.
    unfold new_computer. intros H Hok. split; [|done].
    destruct (new_grid _ _ _ _ _) as [g|] eqn:E; [|done]. simpl in H. simplify_eq.
    apply new_grid_wf in E. by split.
  Qed.

  Lemma api_step_ok o s s' : ok s -> final (api_step o s) = Some s' -> ok s'.
  Proof.
    intros Hok. destruct o as [src|dt|]; simpl.
    - intros [= <-]. by apply ok_add.
    - by apply ok_forward.
    - unfold forward. destruct (determine_dt s); [|done]. by apply ok_forward.
  Qed.
  Lemma api_run_cons o ops (s : computer) : api_run (o :: ops) s = s1 ← final (api_step o s); api_run ops s1.
  Proof. simpl. by destruct (api_step o s). Qed.

  (** Induction over histories. *)
  Lemma api_run_inv (I : computer -> Prop) ops s s' :
    (forall o s s', I s -> final (api_step o s) = Some s' -> I s') -> I s -> api_run ops s = Some s' -> I s'.
  Proof.
    intros Hstep. revert s. induction ops as [|o ops IH]; intros s Hs H; [by simplify_eq/=|].
    rewrite api_run_cons in H. destruct (final (api_step o s)) as [s1|] eqn:E; [|done]. simpl in H.
    eapply IH; [|exact H]. by eapply Hstep.
  Qed.
  Lemma api_run_ok ops s s' : ok s -> api_run ops s = Some s' -> ok s'.
  Proof. apply api_run_inv. intros. by eapply api_step_ok. Qed.
  Lemma api_run_app ops1 ops2 (s : computer) : api_run (ops1 ++ ops2) s = s1 ← api_run ops1 s; api_run ops2 s1.
  Proof.
    revert s; induction ops1 as [|o ops1 IH]; intros s; [done|]. simpl.
    destruct (api_step o s); [apply IH|apply IH|done].
  Qed.
End Step.

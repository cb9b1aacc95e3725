(** Lemmas on the step with the solver's sums in any order. *)
From Verif Require Export M_Red P_Par T_Par P_Life P_Reach.

Section Red.
  Context {N : num} {cfg : config} {wm : wallmotion N (cDim cfg)}.
  Notation d := (cDim cfg).
  Notation part := (particle N d).
  Notation computer := (computer cfg wm).
  Implicit Types (s : computer) (dt : N) (res : list N * bool).

  (** The phases with a given result of the solver. *)
  Definition solved res s : outcome computer :=
    let s' := with_ppe s (cA s) res.1 (cBv s) in if res.2 then Done s' else Throw CgNotConverged s'.
  Definition implicit_as res s : outcome computer :=
    (if cExplicit cfg then of_opt (run_loop (explicit_loop cfg wm) (psize s) s)
     else of_opt (set_ppe s) >>o solved res >>o (fun s => of_opt (run_loop (assign_loop cfg wm) (psize s) s)))
    >>o (fun s => of_opt (modify_by_gradient s)).
  Definition before dt s : outcome computer :=
    search_neighbor (start_step dt s) >>o
    (fun s => of_opt (compute_densities s)) >>o
    (fun s => if cECS cfg then of_opt (compute_ecs s) else Done s) >>o
    (fun s => of_opt (compute_explicit s)) >>o
    (fun s => of_opt (compute_densities s)) >>o
    (fun s => if cDS cfg then of_opt (save_x s) else Done s).
  Definition forward_as res dt s : outcome computer :=
    before dt s >>o implicit_as res >>o (fun s => if cDS cfg then of_opt (stabilize s) else Done s).

  Lemma forward_before dt s : forward_dt dt s = before dt s >>o compute_implicit >>o (fun s => if cDS cfg then of_opt (stabilize s) else Done s).
  Proof. done. Qed.
  Lemma solve_solved s : solve_ppe s = solved (cg_solve (cA s) (cXv s) (cBv s) (cEps s)) s.
  Proof. done. Qed.

  Definition allowed dt s res : Prop :=
    forall s6 t, before dt s = Done s6 -> cExplicit cfg = false -> set_ppe s6 = Some t ->
      some_cg_solve (cA t) (cXv t) (cBv t) (cEps t) res.

  Lemma par_set_iff s r : par_set_ppe s r <-> r = of_opt (set_ppe s).
  Proof.
    unfold par_set_ppe, set_ppe. rewrite of_opt_bind.
    set (s0 := if (psize s =? length (cBv s))%nat then s else _).
    rewrite (pseq_iff _ _ _ _ _ (pseq_iff _ _ _ _ _ (fun r => seqly_iff _ s r) (fun s r => par_iff _ _ s r rhs_free))
               (fun s r => par_iff _ _ s r matrix_free)).
    simpl. fold s0. assert (psize s0 = psize s) as Hn by (unfold s0; by destruct (_ =? _)%nat). rewrite Hn.
    destruct (run_loop (rhs_loop cfg wm) (psize s) s0) as [s2|] eqn:E; [|done]. simpl.
    assert (psize s2 = psize s) as ->; [|done]. rewrite <- Hn.
    by apply (run_loop_frame _ (fun s => psize s) _ _ _) in E.
  Qed.
  Lemma par_gradient_iff s r : pseq (par (grad_loop cfg wm) w_grad) (par (kick_loop cfg wm) w_kick) s r <-> r = of_opt (modify_by_gradient s).
  Proof.
    unfold modify_by_gradient. rewrite of_opt_bind.
    apply pseq_iff; intros; apply par_iff; [apply grad_free|apply kick_free].
  Qed.
  Lemma par_stab_iff s r : (if cDS cfg then par_stabilize else seqly Done) s r <-> r = (if cDS cfg then of_opt (stabilize s) else Done s).
  Proof.
    destruct (cDS cfg); [|done]. unfold par_stabilize, stabilize. rewrite of_opt_bind.
    apply pseq_iff; intros; apply par_iff; [apply ds_free|apply kick_free].
  Qed.
  Lemma par_before_iff dt s r :
    pseq (pseq (pseq (pseq (pseq (pseq (seqly (fun s => Done (with_env s (set_next_t (set_dt dt (cEnv s)))))) par_search) par_densities)
      (if cECS cfg then par_ecs else seqly Done)) par_explicit) par_densities)
      (if cDS cfg then seqly (fun s => of_opt (save_x s)) else seqly Done) s r <-> r = before dt s.
  Proof.
    assert (forall s r, par_search s r <-> r = search_neighbor s) as Hsearch.
    { intros s1 r1. unfold par_search.
      rewrite (pseq_iff _ _ _ _ _ (fun r => seqly_iff _ s1 r) (fun s r => par_iff _ _ s r neighbor_free)).
      unfold search_neighbor. by destruct (clear d (cGrid s1)). }
    assert (forall s r, par_densities s r <-> r = of_opt (compute_densities s)) as Hdens.
    { intros. apply par_iff, dens_free. }
    assert (forall s r, (if cECS cfg then par_ecs else seqly Done) s r <-> r = (if cECS cfg then of_opt (compute_ecs s) else Done s)) as Hecs.
    { intros. destruct (cECS cfg); [apply par_iff, ecs_free|done]. }
    assert (forall s r, par_explicit s r <-> r = of_opt (compute_explicit s)) as Hexp.
    { intros s1 r1. unfold par_explicit, compute_explicit. rewrite of_opt_bind.
      rewrite (pseq_iff _ _ _ _ _ (pseq_iff _ _ _ _ _ (fun r => par_iff _ _ s1 r accel_free) (fun s r => seqly_iff _ s r))
                 (fun s r => par_iff _ _ s r move_free)).
      by destruct (run_loop (accel_loop cfg wm) (psize s1) s1). }
    assert (forall s r, (if cDS cfg then seqly (fun s => of_opt (save_x s)) else seqly Done) s r <-> r = (if cDS cfg then of_opt (save_x s) else Done s)) as Hsave.
    { intros. by destruct (cDS cfg). }
    unfold before, start_step. revert r.
    apply pseq_iff; [|exact Hsave].
    apply pseq_iff; [|exact Hdens].
    apply pseq_iff; [|exact Hexp].
    apply pseq_iff; [|exact Hecs].
    apply pseq_iff; [|exact Hdens].
    intros r. by rewrite (pseq_iff _ _ _ _ _ (fun r => seqly_iff _ s r) Hsearch).
  Qed.

  Lemma red_implicit_iff s r : red_implicit s r <->
    exists res, r = implicit_as res s /\
      (forall t, cExplicit cfg = false -> set_ppe s = Some t -> some_cg_solve (cA t) (cXv t) (cBv t) (cEps t) res).
  Proof.
    unfold red_implicit, implicit_as. destruct (cExplicit cfg) eqn:Hx.
    { rewrite (pseq_iff _ _ _ _ _ (fun r => par_iff _ _ s r explicit_free) par_gradient_iff). split.
      - intros ->. exists ([], false). split; [done|]. intros t. done.
      - by intros (res & -> & _). }
    unfold pseq at 1. split.
    - intros (o & (o2 & (o1 & H1 & H2) & H3) & H4). apply par_set_iff in H1 as ->.
      destruct (set_ppe s) as [t|]; simpl in *.
      2:{ subst. exists ([], false). done. }
      destruct H2 as (res & Hres & ->). exists res. split; [|intros ? _ [= <-]; done].
      unfold solved. destruct res.2; simpl in *; [|by subst].
      apply (par_iff _ _ _ _ assign_free) in H3 as ->. destruct (run_loop (assign_loop cfg wm) _ _) as [t3|]; simpl in *; [|done].
      by apply par_gradient_iff in H4.
    - intros (res & -> & Hres). destruct (set_ppe s) as [t|] eqn:Et; simpl.
      2:{ exists Undef. split; [|done]. exists Undef. split; [|done]. exists Undef. split; [|done]. apply par_set_iff. by rewrite Et. }
      eexists. split.
      + eexists. split.
        * eexists. split; [apply par_set_iff; rewrite Et; reflexivity|]. simpl. exists res. split; [by apply (Hres t)|reflexivity].
        * instantiate (1 := solved res t >>o (fun s => of_opt (run_loop (assign_loop cfg wm) (psize s) s))).
          unfold solved. destruct res.2; simpl; [|done]. by apply par_iff; [apply assign_free|].
      + destruct (solved res t >>o _) as [t3|e t3|]; simpl; [|done|done]. by apply par_gradient_iff.
  Qed.

  Lemma red_iff dt s r : red_forward_dt dt s r <-> exists res, r = forward_as res dt s /\ allowed dt s res.
  Proof.
    unfold red_forward_dt, forward_as, allowed. split.
    - intros (o & (o6 & H6 & H7) & H8). apply par_before_iff in H6 as ->.
      destruct (before dt s) as [s6|e s6|]; simpl in *.
      + apply red_implicit_iff in H7 as (res & -> & Hres). exists res. split.
        * destruct (implicit_as res s6) as [s7|e s7|]; simpl; [by apply par_stab_iff in H8|done|done].
        * intros ? t [= <-] Hx Ht. by apply Hres.
      + subst. exists ([], false). done.
      + subst. exists ([], false). done.
    - intros (res & -> & Hres). eexists. split.
      + eexists. split; [by apply par_before_iff|]. instantiate (1 := before dt s >>o implicit_as res).
        destruct (before dt s) as [s6|e s6|] eqn:E; simpl; [|done|done]. apply red_implicit_iff. exists res. split; [done|].
        intros t Hx Ht. by apply (Hres s6).
      + destruct (before dt s >>o implicit_as res) as [s7|e s7|]; simpl; [by apply par_stab_iff|done|done].
  Qed.

  (** ** Sums *)
  Lemma foldl_some (l : list N) : sum_in_some_order l (foldl nadd (nofZ 0) l).
  Proof.
    induction l as [|x l IH] using rev_ind; [constructor|].
    rewrite foldl_app. simpl. eapply sum_join; [exact IH|constructor|done].
  Qed.
  Lemma ldot_fold (a b : list N) : ldot a b = foldl nadd (nofZ 0) (zip_with nmul a b).
  Proof.
    unfold ldot. generalize (nofZ 0 : N). revert b. induction a as [|x a IH]; intros [|y b] t; simpl; try done. 
  Qed.
  Lemma ldot_some (a b : list N) : some_dot a b (ldot a b).
  Proof. unfold some_dot. rewrite ldot_fold. apply foldl_some. Qed.
  Lemma cg_loop_some (A : list (@mrow N)) r0 fuel x r p rr : some_cg_loop A r0 fuel x r p rr (cg_loop A r0 fuel x r p rr).
  Proof.
    revert x r p rr. induction fuel as [|fuel IH]; intros x r p rr; [constructor|]. simpl.
    destruct (_ <?. _) eqn:E.
    - eapply some_converged; [apply ldot_some|apply ldot_some|done].
    - eapply some_continue; [apply ldot_some|apply ldot_some|done|apply IH].
  Qed.
  Lemma cg_solve_some (A : list (@mrow N)) x b eps : some_cg_solve A x b eps (cg_solve A x b eps).
  Proof.
    econstructor; [apply ldot_some|]. unfold cg_solve. destruct (_ =?. _); [done|apply cg_loop_some].
  Qed.

  (** ** Lengths *)
  Lemma some_loop_length (A : list (@mrow N)) r0 fuel x r p rr res :
    some_cg_loop A r0 fuel x r p rr res ->
    length x = length A -> length r = length A -> length p = length A -> length res.1 = length A.
  Proof.
    assert (forall a b : list N, length a = length A -> length b = length A -> length (ladd a b) = length A) as Hadd.
    { intros a b Ha Hb. unfold ladd. rewrite zip_with_length. lia. }
    assert (forall a b : list N, length a = length A -> length b = length A -> length (lsub a b) = length A) as Hsub.
    { intros a b Ha Hb. unfold lsub. rewrite zip_with_length. lia. }
    assert (forall (c : N) a, length (lscal c a) = length a) as Hsc by (intros; apply map_length).
    induction 1 as [x r p rr|fuel x r p rr pAp rrN _ al x' r' _ _|fuel x r p rr pAp rrN res _ al x' r' _ _ be _ IH]; intros Hx Hr Hp; [done| |].
    - apply Hadd; rewrite ?Hsc; done.
    - apply IH.
      + apply Hadd; rewrite ?Hsc; done.
      + apply Hsub; rewrite ?Hsc, ?lprod_length; done.
      + apply Hadd; rewrite ?Hsc; [apply Hsub; rewrite ?Hsc, ?lprod_length; done|done].
  Qed.
  Lemma some_solve_length (A : list (@mrow N)) x b eps res :
    some_cg_solve A x b eps res -> length x = length A -> length b = length A -> length res.1 = length A.
  Proof.
    intros [rr res' r Hd r0 H] Hx Hb. destruct (_ =?. _); [by subst|].
    eapply some_loop_length; [exact H|done|..]; unfold r, lsub; rewrite zip_with_length, lprod_length; lia.
  Qed.

  (** ** The phases *)
  Lemma before_Done dt s s6 : before dt s = Done s6 <-> exists s1 s2 s3 s4 s5, step_prefix dt s s1 s2 s3 s4 s5 s6.
  Proof.
    unfold before. split.
    - intros H.
      apply obind_Done in H as (s5 & H & H6). apply obind_Done in H as (s4 & H & H5). apply obind_Done in H as (s3 & H & H4).
      apply obind_Done in H as (s2 & H & H3). apply obind_Done in H as (s1 & H1 & H2).
      exists s1, s2, s3, s4, s5. split; try done.
      + by apply of_opt_Done.
      + destruct (cECS cfg); [by apply of_opt_Done|congruence].
      + by apply of_opt_Done.
      + by apply of_opt_Done.
      + destruct (cDS cfg); [by apply of_opt_Done|congruence].
    - intros (s1 & s2 & s3 & s4 & s5 & [H1 H2 H3 H4 H5 H6]). rewrite H1. simpl. rewrite H2. simpl. destruct (cECS cfg).
      + rewrite H3. simpl. rewrite H4. simpl. rewrite H5. simpl. destruct (cDS cfg); [by rewrite H6|by subst].
      + subst s3. simpl. rewrite H4. simpl. rewrite H5. simpl. destruct (cDS cfg); [by rewrite H6|by subst].
  Qed.
  Definition fits res s : Prop := length (cXv s) = length (cA s) -> length (cBv s) = length (cA s) -> length res.1 = length (cA s).
  Lemma solved_pr res s : fits res s -> exists s', (solved res s = Done s' \/ solved res s = Throw CgNotConverged s') /\
     phase_rel s s' /\ s' = with_ppe s (cA s) res.1 (cBv s).
  Proof.
    intros Hl. unfold solved. eexists. split; [destruct res.2; [by left|by right]|]. split; [|done].
    split; try done. intros Hx Hb. simpl. split; [|done]. by apply Hl.
  Qed.
  Lemma implicit_as_pr res s s' : (forall t, cExplicit cfg = false -> set_ppe s = Some t -> fits res t) ->
    final (implicit_as res s) = Some s' -> phase_rel s s'.
  Proof.
    unfold implicit_as. intros Hfit H. apply final_obind in H as [[e H]|(s1 & H1 & H2)].
    - destruct (cExplicit cfg).
      + apply of_opt_Throw in H as [].
      + apply obind_Throw in H as [H|(s2 & H & H')]; [|by apply of_opt_Throw in H'].
        apply obind_Throw in H as [H|(s3 & H & H')]; [by apply of_opt_Throw in H|].
        apply of_opt_Done in H. destruct (solved_pr res s3 (Hfit s3 eq_refl H)) as (s4 & Hs & Hp & _). apply set_ppe_pr in H.
        destruct Hs as [Hs|Hs]; rewrite Hs in H'; [done|]. injection H' as _ <-. by eapply phase_rel_trans.
    - assert (phase_rel s1 s') as Hp.
      { destruct (modify_by_gradient s1) eqn:E; [|done]. simpl in H2. injection H2 as <-. by apply gradient_pr. }
      eapply phase_rel_trans; [|exact Hp]. clear H2 Hp.
      destruct (cExplicit cfg).
      + apply of_opt_Done in H1. by eapply explicitp_pr.
      + apply obind_Done in H1 as (s2 & H & H'). apply of_opt_Done, assign_pr in H'.
        apply obind_Done in H as (s3 & H & H'').
        apply of_opt_Done in H. destruct (solved_pr res s3 (Hfit s3 eq_refl H)) as (s4 & Hs & Hp & _). apply set_ppe_pr in H.
        destruct Hs as [Hs|Hs]; rewrite Hs in H''; [|done]. injection H'' as <-.
        eapply phase_rel_trans; [exact H|]. by eapply phase_rel_trans.
  Qed.
  Lemma implicit_as_defined res s : (forall t, cExplicit cfg = false -> set_ppe s = Some t -> fits res t) ->
    wf s -> implicit_as res s <> Undef.
  Proof.
    intros Hfit Hwf. unfold implicit_as. destruct (cExplicit cfg).
    - destruct (explicitp_defined s) as [s1 H1]. rewrite H1. simpl.
      destruct (gradient_defined s1) as [s2 ->]; [|done]. eapply wf_phase; [by eapply explicitp_pr|done].
    - destruct (set_ppe_defined s Hwf) as (s1 & H1 & Hl). rewrite H1. simpl.
      pose proof (set_ppe_pr _ _ H1) as Hp1. pose proof (Hfit s1 eq_refl H1) as Hf1.
      assert (wf s1) as Hwf1 by (by eapply wf_phase).
      destruct (solved_pr res s1 Hf1) as (s2 & [->| ->] & Hp2 & Hs2); [|done]. simpl.
      assert (wf s2) as Hwf2 by (by eapply wf_phase).
      destruct (assign_defined s2 Hwf2) as [s3 H3].
      { rewrite Hs2 at 1. simpl. rewrite Hl. by rewrite (pr_size _ _ Hp2), (pr_size _ _ Hp1). }
      rewrite H3. simpl.
      destruct (gradient_defined s3) as [s4 ->]; [|done]. eapply wf_phase; [by eapply assign_pr|done].
  Qed.

  Lemma allowed_fits dt s s6 res : before dt s = Done s6 -> allowed dt s res ->
    forall t, cExplicit cfg = false -> set_ppe s6 = Some t -> fits res t.
  Proof.
    intros Hb Ha t Hx Ht HX HB. specialize (Ha s6 t Hb Hx Ht). by eapply some_solve_length.
  Qed.

  (** However a step ends, everything after the search is a [phase_rel]. *)
  Lemma before_final dt s s' :
    final (before dt s) = Some s' ->
    (exists e, search_neighbor (start_step dt s) = Throw e s' /\ before dt s = Throw e s') \/
    (exists s1, search_neighbor (start_step dt s) = Done s1 /\ before dt s = Done s' /\ phase_rel s1 s').
  Proof.
    intros H. destruct (before dt s) as [s6|e s6|] eqn:E; [| |done]; simpl in H; injection H as ->.
    - right. apply before_Done in E as (s1 & s2 & s3 & s4 & s5 & [H1 H2 H3 H4 H5 H6]). exists s1. split; [done|]. split; [done|].
      eapply phase_rel_trans; [by apply dens_pr|].
      assert (phase_rel s2 s3) by (destruct (cECS cfg); [by apply ecs_pr|subst; apply phase_rel_refl]).
      assert (phase_rel s5 s') by (destruct (cDS cfg); [by apply savex_pr|subst; apply phase_rel_refl]).
      eapply phase_rel_trans; [done|]. eapply phase_rel_trans; [by apply explicit_pr|].
      eapply phase_rel_trans; [by apply dens_pr|done].
    - left. exists e. split; [|done]. revert E. unfold before. intros H.
      apply obind_Throw in H as [H|(t & _ & H)]; [|by destruct (cDS cfg); [apply of_opt_Throw in H|]].
      apply obind_Throw in H as [H|(t & _ & H)]; [|by apply of_opt_Throw in H].
      apply obind_Throw in H as [H|(t & _ & H)]; [|by apply of_opt_Throw in H].
      apply obind_Throw in H as [H|(t & _ & H)]; [|by destruct (cECS cfg); [apply of_opt_Throw in H|]].
      apply obind_Throw in H as [H|(t & _ & H)]; [|by apply of_opt_Throw in H]. done.
  Qed.
  Lemma forward_as_final res dt s s' :
    allowed dt s res -> final (forward_as res dt s) = Some s' ->
    (exists e, search_neighbor (start_step dt s) = Throw e s') \/
    (exists s1, search_neighbor (start_step dt s) = Done s1 /\ phase_rel s1 s').
  Proof.
    intros Ha H. unfold forward_as in H. pose proof (before_final dt s) as HB.
    destruct (before dt s) as [s6|e s6|] eqn:E; simpl in H; [| |done].
    - right. destruct (HB s6 eq_refl) as [(e & _ & ?)|(s1 & H1 & _ & Hp)]; [done|]. exists s1. split; [done|].
      eapply phase_rel_trans; [exact Hp|].
      apply final_obind in H as [[e He]|(s7 & H7 & H8)].
      + eapply implicit_as_pr; [by eapply allowed_fits|by rewrite He].
      + eapply phase_rel_trans; [eapply implicit_as_pr; [by eapply allowed_fits|by rewrite H7]|].
        destruct (cDS cfg).
        * apply of_opt_final in H8. by apply stabilize_pr.
        * simpl in H8. injection H8 as ->. apply phase_rel_refl.
    - left. injection H as ->. destruct (HB s' eq_refl) as [(e' & ? & ?)|(s1 & H1 & ? & Hp)]; [|done]. by exists e'.
  Qed.

  Lemma ok_forward_as res dt s s' : ok s -> allowed dt s res -> final (forward_as res dt s) = Some s' ->
    ok s' /\ same_geom (cGrid s) (cGrid s') /\ cEnv s' = set_next_t (set_dt dt (cEnv s)).
  Proof.
    intros [Hwf Hok] Ha Hf. pose proof (search_spec (start_step dt s) (wf_start dt s Hwf) Hok) as Hs.
    apply forward_as_final in Hf as [[e He]|(s1 & H1 & Hp)]; [| |done].
    - rewrite He in Hs. destruct Hs as (_ & Hg & Hgeo & m & k & _ & _ & Hs'). split; [|split; [done|by rewrite Hs']].
      split; [|by eapply same_geom_clear_ok].
      rewrite Hs'. apply wf_parts_grid; [by apply wf_start|done|done|]. apply imap_length.
    - rewrite H1 in Hs. split; [split|].
      + eapply wf_phase; [exact Hp|]. eapply wf_searched; [by apply wf_start|done].
      + rewrite (pr_grid _ _ Hp). eapply same_geom_clear_ok; [apply Hs|done].
      + rewrite (pr_grid _ _ Hp), (pr_env _ _ Hp). split; [apply Hs|]. rewrite (se_rest _ _ Hs). done.
  Qed.

  (** After a successful search everything up to the implicit phase succeeds. *)
  Lemma search_before dt s s1 : ok s -> search_neighbor (start_step dt s) = Done s1 -> exists s6, before dt s = Done s6 /\ wf s6.
  Proof.
    intros [Hwf Hok] E. pose proof (search_spec (start_step dt s) (wf_start dt s Hwf) Hok) as Hs. rewrite E in Hs.
    unfold before. rewrite E. simpl.
    assert (wf s1) as Hwf1 by (eapply wf_searched; [by apply wf_start|done]).
    destruct (dens_defined s1 Hwf1) as [s2 H2]. rewrite H2. simpl.
    assert (wf s2) as Hwf2 by (eapply wf_phase; [by apply dens_pr|done]).
    assert (exists s3, (if cECS cfg then of_opt (compute_ecs s2) else Done s2) = Done s3 /\ wf s3) as (s3 & -> & Hwf3).
    { destruct (cECS cfg); [|eauto]. destruct (ecs_defined s2 Hwf2) as [s3 H3]. rewrite H3. exists s3. split; [done|].
      eapply wf_phase; [by apply ecs_pr|done]. }
    simpl. destruct (explicit_defined s3 Hwf3) as [s4 H4]. rewrite H4. simpl.
    assert (wf s4) as Hwf4 by (eapply wf_phase; [by apply explicit_pr|done]).
    destruct (dens_defined s4 Hwf4) as [s5 H5]. rewrite H5. simpl.
    assert (wf s5) as Hwf5 by (eapply wf_phase; [by apply dens_pr|done]).
    destruct (cDS cfg); [|eauto]. destruct (savex_defined s5 Hwf5) as [s6 H6]. rewrite H6. exists s6. split; [done|].
    eapply wf_phase; [by apply savex_pr|done].
  Qed.
  Lemma forward_as_ends res dt s s1 : ok s -> allowed dt s res -> search_neighbor (start_step dt s) = Done s1 ->
    (exists s', forward_as res dt s = Done s') \/ (cExplicit cfg = false /\ exists s', forward_as res dt s = Throw CgNotConverged s').
  Proof.
    intros Hok Ha E. destruct (search_before dt s s1 Hok E) as (s6 & H6 & Hwf6). unfold forward_as. rewrite H6. simpl.
    pose proof (implicit_as_defined res s6 (allowed_fits _ _ _ _ H6 Ha) Hwf6) as Hd.
    pose proof (implicit_as_pr res s6) as Hpr.
    destruct (implicit_as res s6) as [s7|e s7|] eqn:E7; simpl; [| |done].
    - left. specialize (Hpr s7 (allowed_fits _ _ _ _ H6 Ha) eq_refl).
      destruct (cDS cfg); [|eauto]. destruct (stabilize_defined s7) as [s8 ->]; [by eapply wf_phase|]. simpl. eauto.
    - right. revert E7. unfold implicit_as. intros H.
      apply obind_Throw in H as [H|(t & _ & H)]; [|by apply of_opt_Throw in H].
      destruct (cExplicit cfg); [by apply of_opt_Throw in H|]. split; [done|].
      apply obind_Throw in H as [H|(t & _ & H)]; [|by apply of_opt_Throw in H].
      apply obind_Throw in H as [H|(t & _ & H)]; [by apply of_opt_Throw in H|].
      unfold solved in H. destruct res.2; [done|]. injection H as <- _. eauto.
  Qed.

  (** One particle before the implicit phase. *)
  Lemma before_particle dt s s6 i p : before dt s = Done s6 -> cParts s !! i = Some p ->
    let t := eT (cEnv s) +. dt in
    cWall s6 = wPre wm (cWall s) t dt /\ cEnv s6 = set_next_t (set_dt dt (cEnv s)) /\
    exists p6, cParts s6 !! i = Some p6 /\ (pT p6 = pT p \/ pT p6 = Disabled) /\ pP p6 = pP p /\
      (pT p6 <> Newton -> pX p6 = wPos wm (wPre wm (cWall s) t dt) i t dt /\ pU p6 = (pX p6 -^ pX p) /^ dt).
  Proof.
    intros Hb Hp t. apply before_Done in Hb as (s1 & s2 & s3 & s4 & s5 & [H1 H2 H3 H4 H5 H6]).
    assert (search_rel (start_step dt s) s1) as [E1 F] by (apply search_frame; by rewrite H1).
    destruct (Forall2_lookup_l _ _ _ _ _ F Hp) as (p1 & Hp1 & Hk).
    destruct (dens_keep s1 s2 i p1 H2 Hp1) as (n1 & Hp2 & _).
    assert (cParts s3 = cParts s2 /\ cEnv s3 = cEnv s1 /\ cWall s3 = cWall s1) as (P3 & E3 & W3).
    { assert (cEnv s2 = cEnv s1 /\ cWall s2 = cWall s1) as [A B] by (by rewrite (dens_rest _ _ H2)).
      destruct (cECS cfg); [by rewrite (ecs_rest _ _ H3)|by subst]. }
    assert (cEnv s1 = set_next_t (set_dt dt (cEnv s)) /\ cWall s1 = cWall s) as [Henv Hw] by (by rewrite E1).
    rewrite <- P3 in Hp2. pose proof (explicit_at s3 s4 i _ H4 Hp2) as Hx. cbv zeta in Hx. simpl in Hx. rewrite E3, Henv, W3, Hw in Hx. simpl in Hx.
    assert (cParts s6 = cParts s5 /\ cEnv s6 = cEnv s5 /\ cWall s6 = cWall s5) as (P6 & E6 & W6).
    { destruct (cDS cfg); [by rewrite (savex_rest _ _ H6)|by subst]. }
    assert (pX p1 = pX p /\ pP p1 = pP p /\ (pT p1 = pT p \/ pT p1 = Disabled)) as (HX1 & HP1 & HT1).
    { destruct Hk as [->| ->]; simpl; auto. }
    split; [|split].
    { rewrite W6, (dens_rest _ _ H5). simpl. rewrite (explicit_rest _ _ H4). simpl. by rewrite E3, W3, Henv, Hw. }
    { rewrite E6, (dens_rest _ _ H5). simpl. rewrite (explicit_rest _ _ H4). simpl. by rewrite E3, Henv. }
    assert (exists p4, cParts s4 !! i = Some p4 /\ pT p4 = pT p1 /\ pP p4 = pP p1 /\
      (pT p4 <> Newton -> pX p4 = wPos wm (wPre wm (cWall s) t dt) i t dt /\ pU p4 = (pX p4 -^ pX p) /^ dt)) as (p4 & Hp4 & HT4 & HP4 & Hm).
    { destruct (is_newton (pT p1)) eqn:Hn; [destruct Hx as (vis & _ & Hx)|]; (eexists; split; [exact Hx|]; split; [done|]; split; [done|]).
      - intros HT. simpl in HT. apply is_newton_true in Hn. done.
      - intros _. simpl. rewrite HX1. done. }
    destruct (dens_keep s4 s5 i _ H5 Hp4) as (n2 & Hp5 & _). rewrite <- P6 in Hp5. eexists. split; [exact Hp5|]. simpl.
    rewrite HT4, HP4. split; [done|]. split; [done|]. by rewrite <- HT4.
  Qed.

  (** One particle through the implicit phase and the stabilisation. *)
  Lemma late_particle res dt s s6 s' i p6 : forward_as res dt s = Done s' -> before dt s = Done s6 -> cParts s6 !! i = Some p6 ->
    cWall s' = cWall s6 /\ cEnv s' = cEnv s6 /\
    exists p', cParts s' !! i = Some p' /\ pT p' = pT p6 /\ pN p' = pN p6 /\
      (pT p6 <> Newton -> pX p' = pX p6 /\ pU p' = pU p6) /\
      (if cExplicit cfg then pP p' = explicit_pressure (cEnv s6) (pN p6)
       else if is_active (pT p6) then pP p' = nofZ 0 \/ (pP p' <?. nofZ 0) = false else pP p' = pP p6).
  Proof.
    unfold forward_as. intros H Hb Hp. rewrite Hb in H. simpl in H. apply obind_Done in H as (s7 & H7 & H8).
    unfold implicit_as in H7. apply obind_Done in H7 as (sc & Hsc & Hg). apply of_opt_Done in Hg.
    assert (exists pc, cWall sc = cWall s6 /\ cEnv sc = cEnv s6 /\ cParts sc !! i = Some pc /\ pT pc = pT p6 /\ pN pc = pN p6 /\ pX pc = pX p6 /\ pU pc = pU p6 /\
      (if cExplicit cfg then pP pc = explicit_pressure (cEnv s6) (pN p6)
       else if is_active (pT p6) then pP pc = nofZ 0 \/ (pP pc <?. nofZ 0) = false else pP pc = pP p6)) as
      (pc & Wc & Ec & Hpc & HTc & HNc & HXc & HUc & HPc).
    { destruct (cExplicit cfg).
      - apply of_opt_Done in Hsc. pose proof (explicitp_at _ _ _ _ Hsc Hp) as Hp1. rewrite (explicitp_rest _ _ _ Hsc).
        simpl. eexists. split; [done|]. split; [done|]. split; [exact Hp1|]. done.
      - apply obind_Done in Hsc as (sb & Hsb & Hc). apply obind_Done in Hsb as (sa & Ha & Hsb). apply of_opt_Done in Ha, Hc.
        unfold solved in Hsb. destruct res.2; [|done]. injection Hsb as Hb'.
        assert (cParts sb !! i = Some p6) as Hpb by (rewrite <- Hb'; simpl; by rewrite (set_ppe_rest _ _ Ha)).
        pose proof (assign_at _ _ _ _ Hc Hpb) as Hpc.
        assert (cWall sc = cWall s6 /\ cEnv sc = cEnv s6) as [A B].
        { rewrite (assign_rest _ _ _ Hc). simpl. rewrite <- Hb'. simpl. by rewrite (set_ppe_rest _ _ Ha). }
        destruct (is_active (pT p6)).
        + destruct Hpc as (x & _ & Hpc). eexists. split; [done|]. split; [done|]. split; [exact Hpc|]. simpl. repeat split.
          unfold clamp. destruct (x <?. nofZ 0) eqn:Hx; simpl; [by left|]. destruct (_ && _); [by left|by right].
        + exists p6. done. }
    pose proof (gradient_at _ _ _ _ Hg Hpc) as Hp7.
    assert (exists p7, cParts s7 !! i = Some p7 /\ pT p7 = pT pc /\ pN p7 = pN pc /\ pP p7 = pP pc /\
      (pT pc <> Newton -> pX p7 = pX pc /\ pU p7 = pU pc)) as (p7 & Hp7' & HT7 & HN7 & HP7 & HM7).
    { destruct (is_newton (pT pc)) eqn:E; [destruct Hp7 as (a & _ & Hp7)|]; (eexists; split; [exact Hp7|]; repeat split);
        apply is_newton_true in E; done. }
    assert (cWall s7 = cWall s6 /\ cEnv s7 = cEnv s6) as [W7 E7] by (rewrite (gradient_rest _ _ Hg); done).
    assert (exists p', cParts s' !! i = Some p' /\ pT p' = pT p7 /\ pN p' = pN p7 /\ pP p' = pP p7 /\
      (pT p7 <> Newton -> pX p' = pX p7 /\ pU p' = pU p7)) as (p' & Hp8 & HT8 & HN8 & HP8 & HM8).
    { destruct (cDS cfg); [|simpl in H8; injection H8 as <-; by exists p7].
      apply of_opt_Done in H8. pose proof (stabilize_at _ _ _ _ H8 Hp7') as Hst.
      destruct (is_newton (pT p7)) eqn:E; [destruct Hst as (a & _ & Hst)|]; (eexists; split; [exact Hst|]; repeat split);
        apply is_newton_true in E; done. }
    assert (cWall s' = cWall s7 /\ cEnv s' = cEnv s7) as [W8 E8].
    { destruct (cDS cfg); [|simpl in H8; by injection H8 as <-]. apply of_opt_Done in H8. by rewrite (stabilize_rest _ _ H8). }
    split; [congruence|]. split; [congruence|]. exists p'. split; [done|]. split; [congruence|]. split; [congruence|]. split.
    - intros Hn. destruct HM8 as [-> ->]; [congruence|]. destruct HM7 as [-> ->]; [congruence|]. done.
    - rewrite HP8, HP7. done.
  Qed.

  Lemma late_wall res dt s s6 s' : forward_as res dt s = Done s' -> before dt s = Done s6 -> cWall s' = cWall s6.
  Proof.
    intros H H6. unfold forward_as in H. rewrite H6 in H. simpl in H. apply obind_Done in H as (s7 & H7 & H8).
    transitivity (cWall s7). { destruct (cDS cfg); [apply of_opt_Done in H8; by rewrite (stabilize_rest _ _ H8)|simpl in H8; by injection H8 as <-]. }
    unfold implicit_as in H7. apply obind_Done in H7 as (sc & Hsc & Hg). apply of_opt_Done in Hg. rewrite (gradient_rest _ _ Hg). simpl.
    destruct (cExplicit cfg).
    + apply of_opt_Done in Hsc. by rewrite (explicitp_rest _ _ _ Hsc).
    + apply obind_Done in Hsc as (sb & Hsb & Hc). apply obind_Done in Hsb as (sa & Hsa & Hsb). apply of_opt_Done in Hsa, Hc.
      unfold solved in Hsb. destruct res.2; [|done]. injection Hsb as <-. rewrite (assign_rest _ _ _ Hc). simpl. by rewrite (set_ppe_rest _ _ Hsa).
  Qed.
  Lemma before_wall dt s s6 : before dt s = Done s6 -> cWall s6 = wPre wm (cWall s) (eT (cEnv s) +. dt) dt.
  Proof.
    intros Hb. apply before_Done in Hb as (s1 & s2 & s3 & s4 & s5 & [H1 H2 H3 H4 H5 H6]).
    assert (search_rel (start_step dt s) s1) as [E1 F] by (apply search_frame; by rewrite H1).
    assert (cEnv s3 = cEnv s1 /\ cWall s3 = cWall s1) as (E3 & W3).
    { assert (cEnv s2 = cEnv s1 /\ cWall s2 = cWall s1) as [A B] by (by rewrite (dens_rest _ _ H2)).
      destruct (cECS cfg); [by rewrite (ecs_rest _ _ H3)|by subst]. }
    assert (cEnv s1 = set_next_t (set_dt dt (cEnv s)) /\ cWall s1 = cWall s) as [Henv Hw] by (by rewrite E1).
    assert (cWall s6 = cWall s5) as W6 by (destruct (cDS cfg); [by rewrite (savex_rest _ _ H6)|by subst]).
    rewrite W6, (dens_rest _ _ H5). simpl. rewrite (explicit_rest _ _ H4). simpl. by rewrite E3, W3, Henv, Hw.
  Qed.
End Red.

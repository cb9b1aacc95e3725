(** Phases of a step: what they leave alone, that they never go out of bounds,
    and their effect on each particle (any arithmetic). *)
From Verif Require Export P_Search.

Section Phase.
  Context {N : num} {cfg : config} {wm : wallmotion N (cDim cfg)}.
  Notation d := (cDim cfg).
  Notation V := (vec N d).
  Notation part := (particle N d).
  Notation computer := (computer cfg wm).

  (** ** Things no phase after the search changes *)
  Record phase_rel (s s' : computer) : Prop := {
    pr_grid : cGrid s' = cGrid s;
    pr_nb : cNeighbor s' = cNeighbor s;
    pr_env : cEnv s' = cEnv s;
    pr_eps : cEps s' = cEps s;
    pr_types : pT <$> cParts s' = pT <$> cParts s;
    pr_du : length (cDu s') = length (cDu s);
    pr_ecs : length (cEcs s') = length (cEcs s);
    pr_origx : length (cOrigX s') = length (cOrigX s);
    pr_nws : length (cNws s') = length (cNws s);
    pr_ppe : length (cXv s) = length (cA s) -> length (cBv s) = length (cA s) ->
             length (cXv s') = length (cA s') /\ length (cBv s') = length (cA s');
  }.

  Lemma phase_rel_refl (s : computer) : phase_rel s s.
  Proof. by split. Qed.
  Lemma phase_rel_trans s1 s2 s3 : phase_rel s1 s2 -> phase_rel s2 s3 -> phase_rel s1 s3.
  Proof.
    intros H1 H2. split; try (etransitivity; [apply H2|apply H1]).
    intros Ha Hb. destruct (pr_ppe _ _ H1 Ha Hb). by apply (pr_ppe _ _ H2).
  Qed.
  Lemma pr_size (s s' : computer) : phase_rel s s' -> psize s' = psize s.
  Proof. intros H. unfold psize. rewrite <- (fmap_length pT (cParts s')), (pr_types _ _ H). apply fmap_length. Qed.

  Lemma wf_phase (s s' : computer) : phase_rel s s' -> wf s -> wf s'.
  Proof.
    intros H Hwf. pose proof (pr_size _ _ H) as Hn.
    destruct (pr_ppe _ _ H (wf_ax s Hwf) (wf_ab s Hwf)) as [Hx Hb].
    split.
    - rewrite (pr_grid _ _ H). apply Hwf.
    - rewrite (pr_nb _ _ H), Hn. apply Hwf.
    - intros i row. rewrite (pr_nb _ _ H). unfold row_len. rewrite (pr_grid _ _ H). apply Hwf.
    - intros i row. rewrite (pr_nb _ _ H). intros Hr. rewrite (neighbor_list_ext s' s) by (by rewrite (pr_nb _ _ H)).
      rewrite Hn. by eapply (wf_list s).
    - rewrite (pr_du _ _ H), Hn. apply Hwf.
    - rewrite (pr_ecs _ _ H), Hn. apply Hwf.
    - rewrite (pr_origx _ _ H), Hn. apply Hwf.
    - rewrite (pr_nws _ _ H), Hn. apply Hwf.
    - done.
    - done.
  Qed.

  Lemma fmap_alter_id {A B} (f : A -> B) (g : A -> A) i (l : list A) :
    (forall a, f (g a) = f a) -> f <$> alter g i l = f <$> l.
  Proof.
    intros Hfg. apply list_eq. intros j. rewrite !list_lookup_fmap.
    destruct (decide (i = j)) as [->|Hne].
    - rewrite list_lookup_alter. destruct (l !! j); simpl; by rewrite ?Hfg.
    - by rewrite list_lookup_alter_ne.
  Qed.

  Lemma phase_rel_loop {W} (L : ploop computer W) n s s' :
    (forall s i v, phase_rel s (l_write L i v s)) -> run_loop L n s = Some s' -> phase_rel s s'.
  Proof.
    intros Hw Hr. refine (run_loop_inv L (phase_rel s) n s s' _ (phase_rel_refl s) Hr).
    intros s1 i v _ H1 _. eapply phase_rel_trans; [exact H1|apply Hw].
  Qed.

  Ltac phase_write :=
    split; simpl; rewrite ?insert_length; try done; try (by apply fmap_alter_id); try (intros; split; rewrite ?insert_length; done).

  Lemma pr_upd_part (s : computer) i f : (forall p, pT (f p) = pT p) -> phase_rel s (upd_part i f s).
  Proof. intros H. split; simpl; try done. by apply fmap_alter_id. Qed.
  Lemma pr_with_du (s : computer) i a : phase_rel s (with_du s (<[i := a]> (cDu s))).
  Proof. phase_write. Qed.
  Lemma pr_with_nws (s : computer) i a : phase_rel s (with_nws s (<[i := a]> (cNws s))).
  Proof. phase_write. Qed.
  Lemma pr_with_ecs (s : computer) i a : phase_rel s (with_ecs s (<[i := a]> (cEcs s))).
  Proof. phase_write. Qed.
  Lemma pr_with_origx (s : computer) i a : phase_rel s (with_origx s (<[i := a]> (cOrigX s))).
  Proof. phase_write. Qed.

  Lemma dens_pr (s s' : computer) : compute_densities s = Some s' -> phase_rel s s'.
  Proof.
    apply phase_rel_loop. intros s0 i [v1 [nv|]]; simpl; [|apply pr_with_nws].
    eapply phase_rel_trans; [apply pr_with_nws|]. by apply pr_upd_part.
  Qed.
  Lemma ecs_pr (s s' : computer) : compute_ecs s = Some s' -> phase_rel s s'.
  Proof. apply phase_rel_loop. intros s0 i [v|]; simpl; [apply pr_with_ecs|apply phase_rel_refl]. Qed.
  Lemma accel_pr n (s s' : computer) : run_loop (accel_loop cfg wm) n s = Some s' -> phase_rel s s'.
  Proof. apply phase_rel_loop. intros s0 i [v|]; simpl; [apply pr_with_du|apply phase_rel_refl]. Qed.
  Lemma move_pr n (s s' : computer) : run_loop (move_loop cfg wm) n s = Some s' -> phase_rel s s'.
  Proof. apply phase_rel_loop. intros s0 i v; simpl; by apply pr_upd_part. Qed.
  Lemma explicit_pr (s s' : computer) : compute_explicit s = Some s' -> phase_rel s s'.
  Proof.
    unfold compute_explicit. intros H. destruct (run_loop (accel_loop cfg wm) _ s) as [s1|] eqn:E; [|done]. simpl in H.
    apply accel_pr in E. apply move_pr in H.
    eapply phase_rel_trans; [exact E|]. eapply phase_rel_trans; [|exact H]. phase_write.
  Qed.
  Lemma savex_pr (s s' : computer) : save_x s = Some s' -> phase_rel s s'.
  Proof. apply phase_rel_loop. intros s0 i [v|]; simpl; [apply pr_with_origx|apply phase_rel_refl]. Qed.
  Lemma rhs_pr n (s s' : computer) : run_loop (rhs_loop cfg wm) n s = Some s' -> phase_rel s s'.
  Proof. apply phase_rel_loop. intros s0 i v; phase_write. Qed.
  Lemma matrix_pr n (s s' : computer) : run_loop (matrix_loop cfg wm) n s = Some s' -> phase_rel s s'.
  Proof. apply phase_rel_loop. intros s0 i v; phase_write. Qed.
  Definition resized (s : computer) : computer :=
    let n := psize s in
    if (n =? length (cBv s))%nat then s
    else with_ppe s (replicate n []) (replicate n (nofZ 0)) (replicate n (nofZ 0)).
  Lemma resized_pr (s : computer) : phase_rel s (resized s).
  Proof.
    unfold resized. destruct (_ =? _)%nat; [apply phase_rel_refl|]. split; try done. intros; simpl. by rewrite !replicate_length.
  Qed.
  Lemma set_ppe_unfold (s : computer) :
    set_ppe s = s1 ← run_loop (rhs_loop cfg wm) (psize s) (resized s); run_loop (matrix_loop cfg wm) (psize s) s1.
  Proof. done. Qed.
  Lemma set_ppe_pr (s s' : computer) : set_ppe s = Some s' -> phase_rel s s'.
  Proof.
    rewrite set_ppe_unfold. intros H. destruct (run_loop (rhs_loop cfg wm) _ _) as [s1|] eqn:E; [|done]. simpl in H.
    apply rhs_pr in E. apply matrix_pr in H.
    eapply phase_rel_trans; [apply resized_pr|]. by eapply phase_rel_trans.
  Qed.
  Lemma assign_pr n (s s' : computer) : run_loop (assign_loop cfg wm) n s = Some s' -> phase_rel s s'.
  Proof. apply phase_rel_loop. intros s0 i [v|]; simpl; [by apply pr_upd_part|apply phase_rel_refl]. Qed.
  Lemma explicitp_pr n (s s' : computer) : run_loop (explicit_loop cfg wm) n s = Some s' -> phase_rel s s'.
  Proof. apply phase_rel_loop. intros s0 i v; simpl; by apply pr_upd_part. Qed.
  Lemma grad_pr n (s s' : computer) : run_loop (grad_loop cfg wm) n s = Some s' -> phase_rel s s'.
  Proof. apply phase_rel_loop. intros s0 i [v|]; simpl; [apply pr_with_du|apply phase_rel_refl]. Qed.
  Lemma kick_pr n (s s' : computer) : run_loop (kick_loop cfg wm) n s = Some s' -> phase_rel s s'.
  Proof. apply phase_rel_loop. intros s0 i [v|]; simpl; [by apply pr_upd_part|apply phase_rel_refl]. Qed.
  Lemma gradient_pr (s s' : computer) : modify_by_gradient s = Some s' -> phase_rel s s'.
  Proof.
    unfold modify_by_gradient. intros H. destruct (run_loop (grad_loop cfg wm) _ s) as [s1|] eqn:E; [|done]. simpl in H.
    eapply phase_rel_trans; [eapply grad_pr|eapply kick_pr]; done.
  Qed.
  Lemma ds_pr n (s s' : computer) : run_loop (ds_loop cfg wm) n s = Some s' -> phase_rel s s'.
  Proof. apply phase_rel_loop. intros s0 i [v|]; simpl; [apply pr_with_du|apply phase_rel_refl]. Qed.
  Lemma stabilize_pr (s s' : computer) : stabilize s = Some s' -> phase_rel s s'.
  Proof.
    unfold stabilize. intros H. destruct (run_loop (ds_loop cfg wm) _ s) as [s1|] eqn:E; [|done]. simpl in H.
    eapply phase_rel_trans; [eapply ds_pr|eapply kick_pr]; done.
  Qed.

  Lemma lprod_length {M : num} (A : list (@mrow M)) x : length (lprod A x) = length A.
  Proof. unfold lprod. apply map_length. Qed.
  Lemma cg_loop_length {M : num} (A : list (@mrow M)) r0 fuel x r p rr :
    length x = length A -> length r = length A -> length p = length A ->
    length (cg_loop A r0 fuel x r p rr).1 = length A.
  Proof.
    revert x r p rr; induction fuel as [|fuel IH]; intros x r p rr Hx Hr Hp; [done|]. simpl.
    assert (forall a b : list M, length a = length A -> length b = length A -> length (ladd a b) = length A) as Hadd.
    { intros a b Ha Hb. unfold ladd. rewrite zip_with_length. lia. }
    assert (forall a b : list M, length a = length A -> length b = length A -> length (lsub a b) = length A) as Hsub.
    { intros a b Ha Hb. unfold lsub. rewrite zip_with_length. lia. }
    assert (forall (c : M) a, length (lscal c a) = length a) as Hsc by (intros; apply map_length).
    destruct (_ <?. _).
    - simpl. apply Hadd; rewrite ?Hsc; done.
    - apply IH.
      + apply Hadd; rewrite ?Hsc; done.
      + apply Hsub; rewrite ?Hsc, ?lprod_length; done.
      + apply Hadd; rewrite ?Hsc; [apply Hsub; rewrite ?Hsc, ?lprod_length; done|done].
  Qed.
  Lemma cg_solve_length {M : num} (A : list (@mrow M)) x b eps :
    length x = length A -> length b = length A -> length (cg_solve A x b eps).1 = length A.
  Proof.
    intros Hx Hb. unfold cg_solve. destruct (_ =?. _); [done|].
    apply cg_loop_length; [done|..]; unfold lsub; rewrite zip_with_length, lprod_length; lia.
  Qed.
  Lemma solve_pr (s : computer) : exists s', (solve_ppe s = Done s' \/ solve_ppe s = Throw CgNotConverged s') /\ phase_rel s s' /\
     s' = with_ppe s (cA s) (cg_solve (cA s) (cXv s) (cBv s) (cEps s)).1 (cBv s).
  Proof.
    unfold solve_ppe. eexists. split; [destruct (cg_solve _ _ _ _).2; [by left|by right]|]. split; [|done].
    split; try done. intros Hx Hb. simpl. split; [|done]. by apply cg_solve_length.
  Qed.

  Lemma final_Done {S} (s : S) : final (Done s) = Some s. Proof. done. Qed.

  Lemma implicit_pr (s s' : computer) : final (compute_implicit s) = Some s' -> phase_rel s s'.
  Proof.
    unfold compute_implicit. intros H. apply final_obind in H as [[e H]|(s1 & H1 & H2)].
    - destruct (cExplicit cfg).
      + apply of_opt_Throw in H as [].
      + apply obind_Throw in H as [H|(s2 & H & H')]; [|by apply of_opt_Throw in H'].
        apply obind_Throw in H as [H|(s3 & H & H')]; [by apply of_opt_Throw in H|].
        apply of_opt_Done, set_ppe_pr in H. destruct (solve_pr s3) as (s4 & Hs & Hp & _).
        destruct Hs as [Hs|Hs]; rewrite Hs in H'; [done|]. injection H' as _ <-. by eapply phase_rel_trans.
    - assert (phase_rel s1 s') as Hp.
      { destruct (modify_by_gradient s1) eqn:E; [|done]. simpl in H2. injection H2 as <-. by apply gradient_pr. }
      eapply phase_rel_trans; [|exact Hp]. clear H2 Hp.
      destruct (cExplicit cfg).
      + apply of_opt_Done in H1. by eapply explicitp_pr.
      + apply obind_Done in H1 as (s2 & H & H'). apply of_opt_Done, assign_pr in H'.
        apply obind_Done in H as (s3 & H & H'').
        apply of_opt_Done, set_ppe_pr in H. destruct (solve_pr s3) as (s4 & Hs & Hp & _).
        destruct Hs as [Hs|Hs]; rewrite Hs in H''; [|done]. injection H'' as <-.
        eapply phase_rel_trans; [exact H|]. by eapply phase_rel_trans.
  Qed.

  (** ** No phase goes out of bounds *)
  Lemma wf_neighbors (s : computer) i :
    wf s -> (i < psize s)%nat -> exists js, neighbor_list s i = Some js /\ Forall (fun j => (j < psize s)%nat) js.
  Proof.
    intros Hwf Hi. destruct (lookup_lt_is_Some_2 (cNeighbor s) i) as [row Hrow]; [by rewrite (wf_nrows s Hwf)|].
    by eapply (wf_list s).
  Qed.

  Lemma acc_step_defined {A} (s : computer) i x plus (f : Z -> part -> A) st j :
    (j < psize s)%nat -> is_Some (acc_step s i x plus f st j).
  Proof.
    intros Hj. unfold acc_step. destruct (_ =? _)%nat; [by eexists|].
    destruct (lookup_lt_is_Some_2 (cParts s) j Hj) as [q ->]. simpl. destruct (_ <?. _); by eexists.
  Qed.

  (** Anything that holds initially and is preserved by adding a contribution holds of the
      accumulated value; and the accumulation is defined. *)
  Lemma acc_ind {A} (s : computer) i (zero : A) plus f (Q : A -> Prop) :
    wf s -> (i < psize s)%nat ->
    Q zero ->
    (forall a j q, Q a -> cParts s !! j = Some q -> Q (plus a (f (Z.of_nat j) q))) ->
    (cSPP cfg = true -> forall a p x, Q a -> cParts s !! i = Some p -> Q (plus a (f (-1)%Z (spp_particle p x)))) ->
    exists a, acc s i zero plus f = Some a /\ Q a.
  Proof.
    intros Hwf Hi H0 Hj Hspp. unfold acc.
    destruct (wf_neighbors s i Hwf Hi) as (js & -> & Hjs). simpl.
    destruct (lookup_lt_is_Some_2 (cParts s) i Hi) as [p Hp]. rewrite Hp. simpl.
    destruct (foldM_is_Some (acc_step s i (pX p) plus f) (fun st => Q st.1) js (zero, vzero)) as (st & -> & Hst).
    - intros st j Hin HQ. rewrite Forall_forall in Hjs.
      destruct (acc_step_defined s i (pX p) plus f st j (Hjs j Hin)) as [st' Hst']. exists st'. split; [done|].
      unfold acc_step in Hst'. destruct (_ =? _)%nat; [by simplify_eq|].
      destruct (cParts s !! j) as [q|] eqn:Hq; [|done]. simpl in Hst'.
      destruct (_ <?. _); simplify_eq; [|done]. simpl. by apply Hj.
    - done.
    - simpl. destruct (cSPP cfg) eqn:Es; [|by eexists].
      unfold acc_spp. destruct (lookup_lt_is_Some_2 (cNws s) i) as [w Hw]; [by rewrite (wf_nws s Hwf)|].
      rewrite Hw. simpl. destruct (_ <?. _); [|by eexists]. destruct (neps <?. _); [|by eexists].
      eexists; split; [done|]. by apply Hspp.
  Qed.
  Lemma acc_defined {A} (s : computer) i (zero : A) plus f : wf s -> (i < psize s)%nat -> is_Some (acc s i zero plus f).
  Proof. intros Hwf Hi. destruct (acc_ind s i zero plus f (fun _ => True)) as (a & -> & _); try done. Qed.

  Ltac get l i H := destruct (lookup_lt_is_Some_2 l i) as [? H]; [try done; try lia|rewrite H; simpl].

  Lemma wf_with_nws (s : computer) l : wf s -> length l = length (cNws s) -> wf (with_nws s l).
  Proof. intros H Hl. eapply wf_phase; [|exact H]. by split. Qed.

  Lemma dens_defined (s : computer) : wf s -> is_Some (compute_densities s).
  Proof.
    intros Hwf. apply run_loop_defined; [apply dens_indep|]. intros i Hi. simpl.
    get (cParts s) i Hp. get (cNws s) i Hw; [by rewrite (wf_nws s Hwf)|].
    destruct (is_active _); [|by eexists].
    destruct (acc_defined (with_nws s (<[i:=eN0 (cEnv s)]> (cNws s))) i (nofZ 0) nadd (dens_func cfg (pX x) (eRe (cEnv s)))) as [a ->]; [|done|by eexists].
    apply wf_with_nws; [done|]. by rewrite insert_length.
  Qed.

  Lemma speed_defined (s : computer) i : wf s -> (i < psize s)%nat -> is_Some (density_speed s i).
  Proof.
    intros Hwf Hi. unfold density_speed. get (cParts s) i Hp.
    destruct (cHS cfg); [|by eexists].
    destruct (acc_defined s i (nofZ 0) nadd (speed_func cfg (pX x) (pU x)) Hwf Hi) as [a ->]. simpl.
    destruct (cSPP cfg); [|by eexists]. get (cNws s) i Hw; [by rewrite (wf_nws s Hwf)|].
    destruct (_ <?. _); by eexists.
  Qed.

  Lemma ecs_defined (s : computer) : wf s -> is_Some (compute_ecs s).
  Proof.
    intros Hwf. apply run_loop_defined; [apply ecs_indep|]. intros i Hi. simpl.
    get (cParts s) i Hp. destruct (is_active _); [|by eexists].
    destruct (speed_defined s i Hwf Hi) as [a ->]. simpl.
    get (cEcs s) i Hw; [by rewrite (wf_ecs s Hwf)|]. by eexists.
  Qed.

  Lemma accel_defined (s : computer) : wf s -> is_Some (run_loop (accel_loop cfg wm) (psize s) s).
  Proof.
    intros Hwf. apply run_loop_defined; [apply accel_indep|]. intros i Hi. simpl.
    get (cParts s) i Hp. destruct (is_newton _); [|by eexists].
    destruct (acc_defined s i vzero vadd (vis_func (cEnv s) (pX x) (pU x)) Hwf Hi) as [a ->]. simpl.
    get (cDu s) i Hw; [by rewrite (wf_du s Hwf)|]. by eexists.
  Qed.

  Lemma move_defined (s : computer) : wf s -> is_Some (run_loop (move_loop cfg wm) (psize s) s).
  Proof.
    intros Hwf. apply run_loop_defined; [apply move_indep|]. intros i Hi. simpl.
    get (cParts s) i Hp. destruct (is_newton _); [|by eexists].
    get (cDu s) i Hw; [by rewrite (wf_du s Hwf)|]. by eexists.
  Qed.

  Lemma wf_with_wall (s : computer) w : wf s -> wf (with_wall s w).
  Proof. intros H. eapply wf_phase; [|exact H]. by split. Qed.

  Lemma explicit_defined (s : computer) : wf s -> is_Some (compute_explicit s).
  Proof.
    intros Hwf. unfold compute_explicit. destruct (accel_defined s Hwf) as [s1 H1]. rewrite H1. simpl.
    apply (move_defined (with_wall s1 _)). apply wf_with_wall. eapply wf_phase; [by eapply accel_pr|done].
  Qed.

  Lemma savex_defined (s : computer) : wf s -> is_Some (save_x s).
  Proof.
    intros Hwf. apply run_loop_defined; [apply savex_indep|]. intros i Hi. simpl.
    get (cParts s) i Hp. destruct (is_active _); [|by eexists].
    get (cOrigX s) i Hw; [by rewrite (wf_origx s Hwf)|]. by eexists.
  Qed.

  Lemma resized_lengths (s : computer) : wf s -> length (cA (resized s)) = psize s /\ length (cXv (resized s)) = psize s /\ length (cBv (resized s)) = psize s.
  Proof.
    intros Hwf. unfold resized. pose proof (wf_ax s Hwf). pose proof (wf_ab s Hwf).
    destruct (Nat.eqb_spec (psize s) (length (cBv s))); simpl; [lia|]. by rewrite !replicate_length.
  Qed.

  Lemma rhs_lengths n (s s' : computer) : run_loop (rhs_loop cfg wm) n s = Some s' ->
    cA s' = cA s /\ length (cXv s') = length (cXv s) /\ length (cBv s') = length (cBv s).
  Proof.
    intros Hr. split; [|split].
    - refine (run_loop_frame _ (fun s => cA s) _ _ _ _ Hr). done.
    - refine (run_loop_frame _ (fun s => length (cXv s)) _ _ _ _ Hr). intros; simpl. apply insert_length.
    - refine (run_loop_frame _ (fun s => length (cBv s)) _ _ _ _ Hr). intros; simpl. apply insert_length.
  Qed.

  Lemma rhs_defined (s : computer) : wf s -> length (cA s) = psize s -> is_Some (run_loop (rhs_loop cfg wm) (psize s) s).
  Proof.
    intros Hwf Hl. pose proof (wf_ax s Hwf). pose proof (wf_ab s Hwf).
    apply run_loop_defined; [apply rhs_indep|]. intros i Hi. simpl.
    get (cParts s) i Hp. get (cBv s) i Hb. get (cXv s) i Hx.
    destruct (ppe_excluded _ _); [by eexists|].
    destruct (speed_defined s i Hwf Hi) as [a ->]. simpl.
    destruct (cECS cfg); [|by eexists]. get (cEcs s) i Hw; [by rewrite (wf_ecs s Hwf)|]. by eexists.
  Qed.

  Lemma matrix_defined (s : computer) : wf s -> length (cA s) = psize s -> is_Some (run_loop (matrix_loop cfg wm) (psize s) s).
  Proof.
    intros Hwf Hl. apply run_loop_defined; [apply matrix_indep|]. intros i Hi. simpl.
    get (cParts s) i Hp. get (cA s) i Ha.
    destruct (ppe_excluded _ _).
    - simpl. rewrite (proj2 (Nat.ltb_lt i (length (cA s)))) by lia. by eexists.
    - destruct (acc_ind s i ppe_zero ppe_plus (ppe_func (cEnv s) (pX x))
        (fun a : mrow * N => forallb (fun e : nat * N => (e.1 <? length (cA s))%nat) a.1 = true)) as (a & Hacc & Hq); try done.
      + intros a j q Ha' Hq. unfold ppe_plus. cbn [fst]. rewrite forallb_app, Ha'. simpl. unfold ppe_func.
        destruct (is_dummy _); [done|]. destruct (if cSPP cfg then _ else _); [|done]. simpl.
        rewrite Nat2Z.id. apply lookup_lt_Some in Hq.
        rewrite (proj2 (Nat.ltb_lt j (length (cA s)))) by (rewrite Hl; done). done.
      + intros Hspp a p y Ha' _. unfold ppe_plus. cbn [fst]. rewrite forallb_app, Ha'. simpl. unfold ppe_func. simpl. by rewrite Hspp.
      + rewrite Hacc. destruct a as [row dg]. cbn [fst] in Hq. cbn [mbind option_bind fst snd]. rewrite forallb_app. rewrite Hq. simpl.
        rewrite (proj2 (Nat.ltb_lt i (length (cA s)))) by lia. by eexists.
  Qed.

  Lemma set_ppe_defined (s : computer) : wf s -> exists s', set_ppe s = Some s' /\ length (cA s') = psize s.
  Proof.
    intros Hwf. rewrite set_ppe_unfold.
    destruct (resized_lengths s Hwf) as (Ha & Hx & Hb).
    assert (wf (resized s)) as Hwf' by (eapply wf_phase; [apply resized_pr|done]).
    assert (psize (resized s) = psize s) as Hn by (apply pr_size, resized_pr).
    destruct (rhs_defined (resized s) Hwf') as [s1 H1]; [lia|]. rewrite Hn in H1. rewrite H1. simpl.
    destruct (rhs_lengths _ _ _ H1) as (HA1 & _ & _).
    pose proof (rhs_pr _ _ _ H1) as Hp1. pose proof (pr_size _ _ Hp1) as Hn1.
    destruct (matrix_defined s1) as [s2 H2]; [by eapply wf_phase|rewrite HA1; lia|].
    rewrite Hn1, Hn in H2. rewrite H2. exists s2. split; [done|].
    transitivity (length (cA s1)); [|by rewrite HA1].
    refine (run_loop_frame _ (fun s => length (cA s)) _ _ _ _ H2). intros; simpl. apply insert_length.
  Qed.

  Lemma assign_defined (s : computer) : wf s -> length (cA s) = psize s -> is_Some (run_loop (assign_loop cfg wm) (psize s) s).
  Proof.
    intros Hwf Hl. pose proof (wf_ax s Hwf). apply run_loop_defined; [apply assign_indep|]. intros i Hi. simpl.
    get (cParts s) i Hp. destruct (is_active _); [|by eexists]. get (cXv s) i Hx. by eexists.
  Qed.
  Lemma explicitp_defined (s : computer) : is_Some (run_loop (explicit_loop cfg wm) (psize s) s).
  Proof.
    apply run_loop_defined; [apply explicit_indep|]. intros i Hi. simpl. get (cParts s) i Hp. by eexists.
  Qed.

  Lemma grad_defined (s : computer) : wf s -> is_Some (run_loop (grad_loop cfg wm) (psize s) s).
  Proof.
    intros Hwf. apply run_loop_defined; [apply grad_indep|]. intros i Hi. simpl.
    get (cParts s) i Hp. destruct (is_newton _); [|by eexists].
    get (cDu s) i Hw; [by rewrite (wf_du s Hwf)|].
    destruct (cGC cfg).
    - destruct (acc_defined s i mzero madd (gc_matrix_func (pX x) (eRe (cEnv s))) Hwf Hi) as [C ->]. simpl.
      match goal with |- context [acc s i vzero vadd ?f] => destruct (acc_defined s i vzero vadd f Hwf Hi) as [a ->] end.
      by eexists.
    - match goal with |- context [acc s i vzero vadd ?f] => destruct (acc_defined s i vzero vadd f Hwf Hi) as [a ->] end.
      by eexists.
  Qed.
  Lemma kick_defined (s : computer) : wf s -> is_Some (run_loop (kick_loop cfg wm) (psize s) s).
  Proof.
    intros Hwf. apply run_loop_defined; [apply kick_indep|]. intros i Hi. simpl.
    get (cParts s) i Hp. destruct (is_newton _); [|by eexists].
    get (cDu s) i Hw; [by rewrite (wf_du s Hwf)|]. by eexists.
  Qed.
  Lemma gradient_defined (s : computer) : wf s -> is_Some (modify_by_gradient s).
  Proof.
    intros Hwf. unfold modify_by_gradient. destruct (grad_defined s Hwf) as [s1 H1]. rewrite H1. simpl.
    apply kick_defined. eapply wf_phase; [by eapply grad_pr|done].
  Qed.
  Lemma ds_defined (s : computer) : wf s -> is_Some (run_loop (ds_loop cfg wm) (psize s) s).
  Proof.
    intros Hwf. apply run_loop_defined; [apply ds_indep|]. intros i Hi. simpl.
    get (cParts s) i Hp. destruct (is_newton _); [|by eexists].
    get (cOrigX s) i Hx; [by rewrite (wf_origx s Hwf)|]. rename x0 into x0i.
    match goal with |- context [acc s i ?z ?pl ?f] =>
      destruct (acc_ind s i z pl f is_Some Hwf Hi) as (a & -> & [v ->]) end.
    - by eexists.
    - intros a j q [a' ->] Hq. unfold ds_func.
      destruct (_ && _); [|by eexists]. destruct (_ <?. _); [|by eexists].
      rewrite Nat2Z.id. destruct (lookup_lt_is_Some_2 (cOrigX s) j) as [y ->]; [|by eexists].
      rewrite (wf_origx s Hwf). by eapply lookup_lt_Some.
    - intros Hspp a p y [a' ->] _. unfold ds_func. simpl. rewrite Hspp. simpl. by eexists.
    - simpl. get (cDu s) i Hw; [by rewrite (wf_du s Hwf)|]. by eexists.
  Qed.
  Lemma stabilize_defined (s : computer) : wf s -> is_Some (stabilize s).
  Proof.
    intros Hwf. unfold stabilize. destruct (ds_defined s Hwf) as [s1 H1]. rewrite H1. simpl.
    apply kick_defined. eapply wf_phase; [by eapply ds_pr|done].
  Qed.

  Lemma implicit_defined (s : computer) : wf s -> compute_implicit s <> Undef.
  Proof.
    intros Hwf. unfold compute_implicit. destruct (cExplicit cfg).
    - destruct (explicitp_defined s) as [s1 H1]. rewrite H1. simpl.
      destruct (gradient_defined s1) as [s2 ->]; [|done]. eapply wf_phase; [by eapply explicitp_pr|done].
    - destruct (set_ppe_defined s Hwf) as (s1 & H1 & Hl). rewrite H1. simpl.
      pose proof (set_ppe_pr _ _ H1) as Hp1.
      destruct (solve_pr s1) as (s2 & [->| ->] & Hp2 & Hs2); [|done]. simpl.
      assert (wf s2) as Hwf2 by (eapply wf_phase; [exact Hp2|]; by eapply wf_phase).
      destruct (assign_defined s2 Hwf2) as [s3 H3].
      { rewrite Hs2 at 1. simpl. rewrite Hl. by rewrite (pr_size _ _ Hp2), (pr_size _ _ Hp1). }
      rewrite H3. simpl.
      destruct (gradient_defined s3) as [s4 ->]; [|done]. eapply wf_phase; [by eapply assign_pr|done].
  Qed.
End Phase.

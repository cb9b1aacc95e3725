(** The application: C26, C41, C42, C43. *)
From Coq Require Import Reals Lra.
From Verif Require Export S_Main S_Reach T_Life.
From Verif Require Import P_Life P_Real P_Neigh T_Env T_Csv.

Section Any.
  Context {N : num} {cfg : config} {wm : wallmotion N (cDim cfg)}.
  Notation computer := (computer cfg wm).

  Lemma stepped_det (s : computer) n s1 s2 : stepped s n s1 -> stepped s n s2 -> s1 = s2.
  Proof.
    intros H. revert s2. induction H as [|n s' s'' _ IH Hf]; intros s2 H2; inversion H2 as [|? s3 ? H3 Hf3]; subst; [done|].
    apply IH in H3. subst. congruence.
  Qed.
  Lemma stepped_trans (s : computer) n m s1 s2 : stepped s n s1 -> stepped s1 m s2 -> stepped s (n + m) s2.
  Proof.
    intros H1 H2. induction H2 as [|m s' s'' _ IH Hf]; [by rewrite Nat.add_0_r|].
    rewrite Nat.add_succ_r. by econstructor.
  Qed.
  Lemma stepped_before (s : computer) n m s1 : stepped s n s1 -> (m <= n)%nat -> exists s2, stepped s m s2 /\ stepped s2 (n - m) s1.
  Proof.
    induction 1 as [|n s' s'' H IH Hf]; intros Hm.
    - assert (m = 0)%nat as -> by lia. eexists. split; constructor.
    - destruct (decide (m = S n)) as [->|Hne].
      + exists s''. split; [by econstructor|]. rewrite Nat.sub_diag. constructor.
      + destruct IH as (s2 & H2 & H3); [lia|]. exists s2. split; [done|].
        replace (S n - m)%nat with (S (n - m)) by lia. by econstructor.
  Qed.
  Lemma stepped_env (s : computer) n s' : stepped s n s' -> same_constants (cEnv s) (cEnv s').
  Proof.
    induction 1 as [|n s' s'' _ IH Hf]; [apply same_constants_refl|].
    unfold forward in Hf. destruct (determine_dt s') as [dt|]; [|done].
    assert (final (forward_dt dt s') = Some s'') as Hfin by (by rewrite Hf).
    apply forward_frame in Hfin as [He _]. rewrite He. unfold same_constants in *. rewrite IH. done.
  Qed.
  Lemma stepped_types (s : computer) n s' : stepped s n s' ->
    Forall2 (fun p p' => pT p' = pT p \/ pT p' = Disabled) (cParts s) (cParts s').
  Proof.
    induction 1 as [|n s' s'' _ IH Hf].
    - apply Forall2_same_length_lookup_2; [done|]. intros i x y Hx Hy. left. congruence.
    - unfold forward in Hf. destruct (determine_dt s') as [dt|]; [|done].
      assert (final (forward_dt dt s') = Some s'') as Hfin by (by rewrite Hf).
      apply forward_frame in Hfin as [_ F]. apply Forall2_fmap in F.
      eapply Forall2_transitive; [|exact IH|exact F]. simpl. intros x y z [Ha|Ha] [Hb|Hb]; rewrite ?Ha, ?Hb; eauto.
  Qed.
End Any.

Section Walls.
  Context {N : num} {cfg : config}.
  Notation part := (particle N (cDim cfg)).

  (** C26.  A particle that is not fluid (any more) after a successful step of
      the application is at its initial position. *)
  Theorem C26_position cond env (particles : list part) s n s' i p p' :
    initial cond env particles s -> stepped s n s' ->
    particles !! i = Some p -> cParts s' !! i = Some p' -> pT p' <> Newton ->
    pT p <> Newton \/ (0 < n)%nat ->
    pX p' = pX p.
  Proof.
    intros (s0 & Hs0 & ->) Hn Hp Hp' HT Hor. assert (cParts (add_particles particles s0) = particles) as Hini.
    { simpl. unfold new_computer in Hs0. destruct (new_grid _ _ _ _ _); [|done]. simpl in Hs0. by injection Hs0 as <-. }
    destruct Hn as [|n s1 s' Hn Hf].
    - rewrite Hini in Hp'. congruence.
    - unfold forward in Hf. destruct (determine_dt s1) as [dt|]; [|done].
      assert (exists p1, cParts s1 !! i = Some p1) as [p1 Hp1].
      { assert (final (forward_dt dt s1) = Some s') as Hfin by (by rewrite Hf).
        apply forward_frame in Hfin as [_ F]. apply Forall2_fmap in F.
        destruct (Forall2_lookup_r _ _ _ _ _ F Hp') as (p1 & ? & _). eauto. }
      destruct (C25_prescribed_motion _ _ _ _ _ _ Hf Hp1 Hp' HT) as (_ & HX & _).
      rewrite HX. simpl. erewrite nth_lookup_Some; [done|]. by rewrite list_lookup_fmap, Hp.
  Qed.

  (** C26.  Walls and dummies never move. *)
  Corollary C26_walls_never_move cond env (particles : list part) s n s' i p p' :
    initial cond env particles s -> stepped s n s' ->
    particles !! i = Some p -> cParts s' !! i = Some p' -> pT p <> Newton ->
    pX p' = pX p /\ pT p' <> Newton.
  Proof.
    intros Hi Hn Hp Hp' HT. assert (pT p' <> Newton) as HT'.
    { apply stepped_types in Hn. destruct Hi as (s0 & Hs0 & ->).
      assert (cParts (add_particles particles s0) = particles) as Hini.
      { simpl. unfold new_computer in Hs0. destruct (new_grid _ _ _ _ _); [|done]. simpl in Hs0. by injection Hs0 as <-. }
      rewrite Hini in Hn. pose proof (Forall2_lookup_lr _ _ _ _ _ _ Hn Hp Hp') as [->| ->]; done. }
    split; [|done]. eapply C26_position; eauto.
  Qed.
End Walls.

(** C26.  Their velocity is zero after every step (exact arithmetic; positive limits, so that the step is
    not zero). *)
Theorem C26_walls_at_rest cfg cond (env : environment Rnum cfg) particles s n s' i p p' :
  (0 < eMaxDx env)%R -> (0 < eMaxDt env)%R ->
  initial cond env particles s -> stepped s n s' -> (0 < n)%nat ->
  particles !! i = Some p -> cParts s' !! i = Some p' -> pT p <> Newton ->
  pU p' = vzero.
Proof.
  intros _ _ Hi Hn H0 Hp Hp' HT. destruct Hn as [|n s1 s' Hn Hf]; [lia|].
  assert (exists p1, cParts s1 !! i = Some p1) as [p1 Hp1].
  { unfold forward in Hf. destruct (determine_dt s1) as [dt|]; [|done].
    assert (final (forward_dt dt s1) = Some s') as Hfin by (by rewrite Hf).
    apply forward_frame in Hfin as [_ F]. apply Forall2_fmap in F.
    destruct (Forall2_lookup_r _ _ _ _ _ F Hp') as (p1 & ? & _). eauto. }
  destruct (C26_walls_never_move cond env particles s n s1 i p p1) as [HX1 _]; [done..|].
  destruct (C26_walls_never_move cond env particles s (S n) s' i p p') as [HX' HT']; [done|by econstructor|done..|].
  unfold forward in Hf. destruct (determine_dt s1) as [dt|]; [|done].
  destruct (C25_prescribed_motion _ _ _ _ _ _ Hf Hp1 Hp' HT') as (_ & _ & HU).
  rewrite HU, HX', HX1. apply coord_ext. intros k Hk.
  rewrite (coord_div dt), coord_sub, coord_zero by done. unfold Rdiv. rewrite Rminus_diag_eq by done. apply Rmult_0_l.
Qed.

(** ** The main loop *)
Section Loop.
  Context {N : num} {cfg : config} {init : list (vec N (cDim cfg))}.
  Notation computer := (computer cfg (fixed_walls cfg init)).
  Implicit Types (s : computer).

  Lemma stepped_first s s1 n s' : forward s = Done s1 -> stepped s1 n s' -> stepped s (S n) s'.
  Proof.
    intros Hf H. change (S n) with (1 + n)%nat. eapply stepped_trans; [|done].
    econstructor; [constructor|done].
  Qed.
  Lemma stepped_first_inv s n s' : stepped s (S n) s' -> exists s1, forward s = Done s1 /\ stepped s1 n s'.
  Proof.
    intros H. destruct (stepped_before s (S n) 1 s' H) as (s1 & H1 & H2); [lia|].
    inversion H1 as [|m s0 ? H0 Hf]; subst. inversion H0; subst. exists s1. split; [done|].
    by replace (S n - 1)%nat with n in H2 by lia.
  Qed.

  Lemma until_spec fuel target s iter o t iter' :
    until fuel target s iter = Some (o, t, iter') ->
    exists n s1, stepped s n s1 /\ iter' = (iter + n)%nat /\ t = eT (cEnv s1) /\
      (forall m s2, stepped s m s2 -> (m < n)%nat -> (eT (cEnv s2) <?. target) = true) /\
      match o with
      | Done s' => s' = s1 /\ (eT (cEnv s1) <?. target) = false
      | o => forward s1 = o /\ (eT (cEnv s1) <?. target) = true
      end.
  Proof.
    revert s iter. induction fuel as [|fuel IH]; intros s iter; cbn; [done|].
    destruct (eT (cEnv s) <?. target) eqn:E.
    - destruct (forward s) as [s1|e s1|] eqn:Ef.
      + intros H. apply IH in H as (n & s2 & H1 & H2 & H3 & H4 & H5).
        exists (S n), s2. split; [by eapply stepped_first|]. split; [lia|]. split; [done|]. split; [|done].
        intros m s3 Hm Hlt. destruct m as [|m]; [inversion Hm; subst; done|].
        apply stepped_first_inv in Hm as (s1' & Hs1 & Hm). assert (s1' = s1) as -> by congruence.
        apply (H4 m); [done|lia].
      + intros [= <- <- <-]. exists 0%nat, s. split; [constructor|]. split; [lia|]. split; [done|]. split; [lia|]. done.
      + intros [= <- <- <-]. exists 0%nat, s. split; [constructor|]. split; [lia|]. split; [done|]. split; [lia|]. done.
    - intros [= <- <- <-]. exists 0%nat, s. split; [constructor|]. split; [lia|]. split; [done|]. split; [lia|]. done.
  Qed.

  (** Outputs and ending, any arithmetic. *)
  Lemma main_loop_outputs fuel cond todo number next s iter outs e :
    main_loop fuel cond todo number next s iter = Some (outs, e) ->
    (forall k o, outs !! k = Some o ->
       exists n s', stepped s n s' /\ oNumber o = (number + Z.of_nat k)%Z /\ oIter o = (iter + n)%nat /\
         oTime o = eT (cEnv s') +. coStart cond /\ oParts o = cParts s' /\ oCount o = output_count (cParts s')) /\
    (length outs <= todo)%nat /\
    match e with
    | Finished => length outs = todo
    | ErrorMessage t iter' number' =>
        (length outs < todo)%nat /\ number' = (number + Z.of_nat (length outs))%Z /\
        exists n s1 s2, stepped s n s1 /\ iter' = (iter + n)%nat /\ t = eT (cEnv s1) /\ forward s1 = Throw CgNotConverged s2
    | Terminated =>
        (length outs < todo)%nat /\ exists n s1 s2, stepped s n s1 /\ forward s1 = Throw TooManyParticles s2
    | Undefined => (length outs < todo)%nat /\ exists n s1, stepped s n s1 /\ forward s1 = Undef
    end.
  Proof.
    revert number next s iter outs e. induction todo as [|todo IH]; intros number next s iter outs e; cbn.
    { intros [= <- <-]. split; [intros k o H; by rewrite lookup_nil in H|]. done. }
    destruct (until fuel _ s iter) as [[[o t] iter']|] eqn:Eu; [|done].
    apply until_spec in Eu as (n & s1 & H1 & -> & -> & H4 & H5).
    destruct o as [s'|[] s'|].
    - destruct H5 as [-> Hge].
      destruct (main_loop fuel cond todo _ _ s1 _) as [[outs' e']|] eqn:El; [|done]. intros [= <- <-].
      apply IH in El as (Ho & Hl & He). split; [|split].
      + intros [|k] o; cbn.
        * intros [= <-]. exists n, s1. cbn. split; [done|]. split; [lia|]. done.
        * intros Hk. apply Ho in Hk as (m & s2 & Hm & K1 & K2 & K3). exists (n + m)%nat, s2.
          split; [by eapply stepped_trans|]. split; [lia|]. split; [lia|]. done.
      + cbn. lia.
      + destruct e'; cbn.
        * lia.
        * destruct He as (L & Hn & m & s2 & s3 & Hm & K1 & K2 & K3). split; [lia|]. split; [lia|].
          exists (n + m)%nat, s2, s3. split; [by eapply stepped_trans|]. split; [lia|]. done.
        * destruct He as (L & m & s2 & s3 & Hm & K). split; [lia|]. exists (n + m)%nat, s2, s3. split; [by eapply stepped_trans|done].
        * destruct He as (L & m & s2 & Hm & K). split; [lia|]. exists (n + m)%nat, s2. split; [by eapply stepped_trans|done].
    - intros [= <- <-]. split; [intros k o H; by rewrite lookup_nil in H|]. split; [cbn; lia|].
      split; [cbn; lia|]. exists n, s1, s'. destruct H5. done.
    - intros [= <- <-]. split; [intros k o H; by rewrite lookup_nil in H|]. split; [cbn; lia|].
      split; [cbn; lia|]. split; [cbn; lia|]. exists n, s1, s'. destruct H5. done.
    - intros [= <- <-]. split; [intros k o H; by rewrite lookup_nil in H|]. split; [cbn; lia|].
      split; [cbn; lia|]. exists n, s1. destruct H5. done.
  Qed.
End Loop.

(** ** The program *)
Section Program.
  Context {N : num} {cfg : config}.
  Notation part := (particle N (cDim cfg)).

  Lemma main_program_inv fuel cond env (particles : list part) outs e :
    main_program fuel cond env particles = Some (outs, e) ->
    (outs = [] /\ e = Undefined) \/
    exists s offset, initial cond env particles s /\ ceil_size (coStart cond /. coInterval cond) = Some offset /\
      exists outs', outs = mkOutput cfg offset (coStart cond) 0 particles (output_count particles) :: outs' /\
      cParts s = particles /\ cEnv s = env /\
      match ceil_size ((coEnd cond -. coStart cond) /. coInterval cond) with
      | None => outs' = [] /\ e = Undefined
      | Some endCount => main_loop fuel cond (Z.to_nat endCount) (offset + 1) (nofZ 0) s 0 = Some (outs', e)
      end.
  Proof.
    unfold main_program. destruct (new_computer _ _ _ _ _) as [s0|] eqn:E0; [|intros [= <- <-]; by left].
    destruct (ceil_size (coStart cond /. _)) as [offset|] eqn:Es; [|intros [= <- <-]; by left].
    assert (cParts (add_particles particles s0) = particles /\ cEnv (add_particles particles s0) = env) as [Hp He].
    { simpl. unfold new_computer in E0. destruct (new_grid _ _ _ _ _); [|done]. simpl in E0. by injection E0 as <-. }
    intros H. right. exists (add_particles particles s0), offset. split; [by exists s0|]. split; [done|].
    rewrite Hp in H. destruct (ceil_size ((coEnd cond -. _) /. _)) as [endCount|] eqn:Ee.
    - destruct (main_loop _ _ _ _ _ _ _) as [[outs' e']|] eqn:El; [|done]. injection H as <- <-.
      exists outs'. split; [done|]. done.
    - injection H as <- <-. exists []. done.
  Qed.

  (** C43.  Every file holds the state after some number of successful steps: all particles,
      in index order, with the reported count those not disabled. *)
  Theorem C43_every_particle fuel cond env (particles : list part) outs e k o :
    main_program fuel cond env particles = Some (outs, e) -> outs !! k = Some o ->
    Forall2 (fun p p' => pT p' = pT p \/ pT p' = Disabled) particles (oParts o) /\
    oCount o = length (filter (fun p => pT p <> Disabled) (oParts o)) /\
    exists s s', initial cond env particles s /\ stepped s (oIter o) s' /\ oParts o = cParts s'.
  Proof.
    intros H Hk. apply main_program_inv in H as [[-> _]|(s & offset & Hi & _ & outs' & -> & Hp & _ & Hl)]; [done|].
    assert (exists s', stepped s (oIter o) s' /\ oParts o = cParts s' /\ oCount o = output_count (oParts o)) as (s' & H1 & H2 & H3).
    { destruct k as [|k]; cbn in Hk.
      - injection Hk as <-. cbn. exists s. split; [constructor|]. done.
      - destruct (ceil_size _) as [endCount|]; [|by destruct Hl as [-> _]].
        apply main_loop_outputs in Hl as (Ho & _ & _). apply Ho in Hk as (n & s' & K1 & K2 & K3 & K4 & K5 & K6).
        exists s'. rewrite K3, K5. done. }
    split; [|split].
    - rewrite H2. apply stepped_types in H1. by rewrite Hp in H1.
    - rewrite H3. apply C43_count.
    - eauto.
  Qed.

  (** C26, in the files: whatever is not fluid in a file is where it was in the input. *)
  Theorem C26_files fuel cond env (particles : list part) outs e k o i p p' :
    main_program fuel cond env particles = Some (outs, e) -> outs !! k = Some o ->
    particles !! i = Some p -> oParts o !! i = Some p' -> pT p' <> Newton -> pX p' = pX p.
  Proof.
    intros H Hk Hp Hp' HT. destruct (C43_every_particle _ _ _ _ _ _ _ _ H Hk) as (F & _ & s & s' & Hi & Hs & Ho).
    rewrite Ho in Hp'. eapply C26_position; [done|done|done|done|done|].
    destruct (oIter o) as [|n]; [|right; lia]. left. inversion Hs; subst.
    destruct Hi as (s0 & Hs0 & ->).
    assert (cParts (add_particles particles s0) = particles) as E.
    { simpl. unfold new_computer in Hs0. destruct (new_grid _ _ _ _ _); [|done]. simpl in Hs0. by injection Hs0 as <-. }
    rewrite E in Hp'. congruence.
  Qed.

  (** C42.  How the program ends, and why. *)
  Theorem C42_ending fuel cond env (particles : list part) outs e :
    main_program fuel cond env particles = Some (outs, e) ->
    match e with
    | Finished =>
        exists n, ceil_size ((coEnd cond -. coStart cond) /. coInterval cond) = Some n /\
        length outs = S (Z.to_nat n)
    | ErrorMessage t iter number =>
        exists s s1 s2 offset, initial cond env particles s /\ stepped s iter s1 /\
        forward s1 = Throw CgNotConverged s2 /\ t = eT (cEnv s1) /\
        ceil_size (coStart cond /. coInterval cond) = Some offset /\
        number = (offset + Z.of_nat (length outs))%Z
    | Terminated =>
        exists s n s1 s2, initial cond env particles s /\ stepped s n s1 /\
        forward s1 = Throw TooManyParticles s2
    | Undefined =>
        (forall s, ~ initial cond env particles s) \/
        ceil_size (coStart cond /. coInterval cond) = None \/
        ceil_size ((coEnd cond -. coStart cond) /. coInterval cond) = None \/
        exists s n s1, initial cond env particles s /\ stepped s n s1 /\ forward s1 = Undef
    end.
  Proof.
    intros H. destruct (main_program_inv _ _ _ _ _ _ H) as [[-> ->]|(s & offset & Hi & Hc & outs' & -> & Hp & _ & Hl)].
    - unfold main_program in H. destruct (new_computer _ _ _ _ _) as [s0|] eqn:E0.
      + destruct (ceil_size (coStart cond /. _)) as [offset|] eqn:Es; [|right; by left].
        destruct (ceil_size ((coEnd cond -. _) /. _)) as [endCount|]; [|done].
        by destruct (main_loop _ _ _ _ _ _ _) as [[outs' e']|].
      + left. intros s (s0 & Hs0 & _). congruence.
    - destruct (ceil_size ((coEnd cond -. _) /. _)) as [endCount|].
      + apply main_loop_outputs in Hl as (_ & Hlen & He). destruct e.
        * exists endCount. split; [done|]. cbn. lia.
        * destruct He as (_ & -> & n & s1 & s2 & H1 & -> & -> & H2). exists s, s1, s2, offset.
          split; [done|]. split; [done|]. split; [done|]. split; [done|]. split; [done|]. cbn. lia.
        * destruct He as (_ & n & s1 & s2 & H1 & H2). exists s, n, s1, s2. done.
        * destruct He as (_ & n & s1 & H1 & H2). right. right. right. exists s, n, s1. done.
      + destruct Hl as [-> ->]. right. right. by left.
  Qed.

  Lemma initial_det cond env (particles : list part) s s' :
    initial cond env particles s -> initial cond env particles s' -> s' = s.
  Proof. intros (s0 & H & ->) (s0' & H' & ->). by rewrite H in H'; injection H' as ->. Qed.

  Lemma stuck_unique {wm : wallmotion N (cDim cfg)} (s : computer cfg wm) n m s1 s2 :
    stepped s n s1 -> (forall s', forward s1 <> Done s') -> stepped s m s2 -> (m <= n)%nat.
  Proof.
    intros H1 Hst H2. destruct (decide (m <= n)%nat) as [?|Hlt]; [done|exfalso].
    destruct (stepped_before s m (S n) s2 H2) as (s3 & H3 & _); [lia|].
    inversion H3 as [|? s4 ? H4 Hf]; subst. rewrite (stepped_det _ _ _ _ H4 H1) in Hf. by apply (Hst s3).
  Qed.

  (** C42.  The other way round: when the step after [n] successful ones fails, no file shows a
      later state; and unless the files asked for were complete before that, a failing solver ends the
      program with the message and exit code 0, a block overflow abnormally. *)
  Theorem C42_failure fuel cond env (particles : list part) outs e s n s1 n0 n1 :
    main_program fuel cond env particles = Some (outs, e) ->
    ceil_size (coStart cond /. coInterval cond) = Some n0 ->
    ceil_size ((coEnd cond -. coStart cond) /. coInterval cond) = Some n1 ->
    initial cond env particles s -> stepped s n s1 ->
    (forall s2, forward s1 <> Done s2) ->
    (forall k o, outs !! k = Some o -> (oIter o <= n)%nat) /\
    (e = Finished /\ length outs = S (Z.to_nat n1) \/
     match forward s1 with
     | Throw CgNotConverged _ =>
         e = ErrorMessage (eT (cEnv s1)) n (n0 + Z.of_nat (length outs)) /\ exit_code e = Some 0%Z
     | Throw TooManyParticles _ => e = Terminated /\ exit_code e = None
     | _ => e = Undefined /\ exit_code e = None
     end).
  Proof.
    intros H E0 E1 Hi Hs Hst. split.
    - intros k o Hk. destruct (C43_every_particle _ _ _ _ _ _ _ _ H Hk) as (_ & _ & s' & s2 & Hi' & Hs2 & _).
      rewrite (initial_det _ _ _ _ _ Hi Hi') in Hs2. by eapply stuck_unique.
    - pose proof (C42_ending _ _ _ _ _ _ H) as He.
      assert (forall m s2, stepped s m s2 -> (forall s', forward s2 <> Done s') -> m = n /\ s2 = s1) as Hu.
      { intros m s2 Hm Hst2. assert (m = n) as ->.
        { pose proof (stuck_unique _ _ _ _ _ Hs Hst Hm). pose proof (stuck_unique _ _ _ _ _ Hm Hst2 Hs). lia. }
        split; [done|]. by eapply stepped_det. }
      destruct e as [|t iter number| |].
      + left. destruct He as (n1' & E1' & Hl). split; [done|]. congruence.
      + right. destruct He as (s' & s2 & s3 & offset & Hi' & Hs2 & Hf & -> & E0' & ->).
        rewrite (initial_det _ _ _ _ _ Hi Hi') in *. destruct (Hu _ _ Hs2) as [-> ->]; [congruence|].
        rewrite Hf. rewrite E0 in E0'. injection E0' as ->. done.
      + right. destruct He as (s' & m & s2 & s3 & Hi' & Hs2 & Hf).
        rewrite (initial_det _ _ _ _ _ Hi Hi') in *. destruct (Hu _ _ Hs2) as [-> ->]; [congruence|].
        by rewrite Hf.
      + right. destruct He as [He|[He|[He|(s' & m & s2 & Hi' & Hs2 & Hf)]]]; [by destruct (He s)|congruence|congruence|].
        rewrite (initial_det _ _ _ _ _ Hi Hi') in *. destruct (Hu _ _ Hs2) as [-> ->]; [congruence|].
        by rewrite Hf.
  Qed.
End Program.

(** ** The schedule (exact arithmetic) *)
Section Schedule.
  Context {cfg : config}.
  Open Scope R_scope.
  Notation part := (particle Rnum (cDim cfg)).
  Lemma forward_time {wm : wallmotion Rnum (cDim cfg)} (s s' : computer cfg wm) :
    0 < eMaxDx (cEnv s) -> 0 < eMaxDt (cEnv s) -> forward s = Done s' ->
    time_of s < time_of s' <= time_of s + eMaxDt (cEnv s).
  Proof.
    intros H1 H2 Hf. unfold forward in Hf. destruct (determine_dt s) as [dt|] eqn:E; [|done].
    apply determine_spec in E as [[H3 H4] _]; [|done|done].
    assert (final (forward_dt dt s) = Some s') as Hfin by (by rewrite Hf).
    apply forward_frame in Hfin as [He _]. unfold time_of. rewrite He. simpl. lra.
  Qed.
  Lemma stepped_time {wm : wallmotion Rnum (cDim cfg)} (s s' : computer cfg wm) n :
    0 < eMaxDx (cEnv s) -> 0 < eMaxDt (cEnv s) -> stepped s n s' ->
    time_of s <= time_of s' <= time_of s + INR n * eMaxDt (cEnv s).
  Proof.
    intros H1 H2 H. induction H as [|n s1 s' Hs IH Hf]; [simpl; lra|].
    apply stepped_env, same_constants_fields in Hs as (_ & E1 & E2 & _).
    apply forward_time in Hf; [|by rewrite E2|by rewrite E1]. rewrite E1 in Hf. rewrite S_INR. lra.
  Qed.

  (** Outputs of the loop: the first state whose time reaches the output time. *)
  Lemma main_loop_first {init} fuel cond todo number (next : R) (s : computer cfg (fixed_walls cfg init)) iter outs e :
    0 <= interval_of cond ->
    main_loop fuel cond todo number (next : Rnum) s iter = Some (outs, e) ->
    forall k o, outs !! k = Some o ->
      exists n s', stepped s n s' /\ oIter o = (iter + n)%nat /\
        next + INR (S k) * interval_of cond <= time_of s' /\
        (forall m s'', stepped s m s'' -> (m < n)%nat -> time_of s'' < next + INR (S k) * interval_of cond) /\
        (oTime o = time_of s' + start_of cond :> R) /\ oParts o = cParts s' /\ oNumber o = (number + Z.of_nat k)%Z.
  Proof.
    intros HI. revert number next s iter outs e. induction todo as [|todo IH]; intros number next s iter outs e; cbn [main_loop].
    { intros [= <- <-] k o Hk. by rewrite lookup_nil in Hk. }
    destruct (until fuel _ s iter) as [[[o t] iter']|] eqn:Eu; [|done].
    apply until_spec in Eu as (n & s1 & H1 & -> & -> & H4 & H5).
    destruct o as [s'|[] s'|]; [|intros [= <- <-] k o Hk; by rewrite lookup_nil in Hk..].
    destruct H5 as [-> Hge]. apply Rltb_false in Hge.
    destruct (main_loop fuel cond todo _ _ s1 _) as [[outs' e']|] eqn:El; [|done]. intros [= <- <-].
    specialize (IH _ _ _ _ _ _ El). intros [|k] o Hk; cbn in Hk.
    - injection Hk as <-. exists n, s1. cbn [oIter oTime oParts oNumber].
      replace (next + INR 1 * interval_of cond) with (next + interval_of cond) by (simpl; ring).
      split; [done|]. split; [done|]. split; [exact Hge|]. split; [|split; [done|split; [done|lia]]].
      intros m s2 Hm Hlt. specialize (H4 m s2 Hm Hlt). apply Rltb_true in H4. exact H4.
    - apply IH in Hk as (m & s2 & Hm & K1 & K2 & K3 & K4 & K5 & K6). exists (n + m)%nat, s2.
      assert (next + interval_of cond + INR (S k) * interval_of cond = next + INR (S (S k)) * interval_of cond) as E.
      { rewrite (S_INR (S k)). ring. }
      change (next + interval_of cond + INR (S k) * interval_of cond <= time_of s2) in K2.
      change (forall m0 s'', stepped s1 m0 s'' -> (m0 < m)%nat -> time_of s'' < next + interval_of cond + INR (S k) * interval_of cond) in K3.
      rewrite E in K2. setoid_rewrite E in K3.
      split; [by eapply stepped_trans|]. split; [lia|]. split; [done|]. split; [|split; [done|split; [done|lia]]].
      intros j s3 Hj Hlt. destruct (decide (j < n)%nat) as [Hjn|Hjn].
      + specialize (H4 j s3 Hj Hjn). apply Rltb_true in H4.
        change (time_of s3 < next + interval_of cond) in H4.
        rewrite <- E. pose proof (pos_INR (S k)). assert (0 <= INR (S k) * interval_of cond) by (by apply Rmult_le_pos). lra.
      + destruct (stepped_before s j n s3 Hj) as (s1' & Hs1 & Hj2); [lia|].
        rewrite (stepped_det _ _ _ _ Hs1 H1) in Hj2. apply (K3 (j - n)%nat); [done|lia].
  Qed.

  Lemma ceil_size_R (x : R) z : ceil_size (x : Rnum) = Some z -> ceiling x z /\ (0 <= z)%Z.
  Proof.
    unfold ceil_size. simpl. unfold to_index. destruct (_ && _)%bool; [|done]. cbn [mbind option_bind].
    destruct (0 <=? Zceil x)%Z eqn:E; [|done]. intros [= <-]. split; [|by apply Z.leb_le].
    unfold ceiling. pose proof (Zceil_ub x). pose proof (Zceil_lb x). lra.
  Qed.

  (** C41.  Numbers and times of the files: file number ceil(start/interval) holds the input;
      the [k]-th file after it holds the first state whose time is at least [k] intervals, which is
      less than the largest time step late; and between two files there are at least as many steps as
      asked for. *)
  Theorem C41_schedule fuel cond minSteps courant g rho nu surf ratio c l_0 minX maxX (env : environment Rnum cfg)
      (particles : list part) outs e s :
    load_environment cond minSteps courant g rho nu surf ratio c l_0 minX maxX = Some env ->
    (1 <= minSteps)%Z -> 0 < interval_of cond -> 0 < eMaxDx env -> 0 < eMaxDt env ->
    main_program fuel cond env particles = Some (outs, e) -> initial cond env particles s ->
    forall k o, outs !! k = Some o ->
      (exists n0, ceiling (start_of cond / interval_of cond) n0 /\ oNumber o = (n0 + Z.of_nat k)%Z) /\
      (exists s', stepped s (oIter o) s' /\ oParts o = cParts s' /\ (oTime o = time_of s' + start_of cond :> R) /\
         INR k * interval_of cond <= time_of s' < INR k * interval_of cond + eMaxDt env) /\
      (forall m s'', stepped s m s'' -> (m < oIter o)%nat -> time_of s'' < INR k * interval_of cond) /\
      (forall o', outs !! (S k) = Some o' -> (Z.of_nat (oIter o) + minSteps <= Z.of_nat (oIter o'))%Z).
  Proof.
    intros Henv Hm HI Hdx Hdt H Hini.
    assert (eMaxDt env <= interval_of cond / IZR minSteps) as HmaxDt.
    { unfold load_environment in Henv. apply C15_limits in Henv as [? _]. done. }
    assert ((eT env = 0 :> R)) as HT0.
    { unfold load_environment, new_env in Henv. destruct (nceil ratio) as [range|]; [|done].
      destruct (_ || _)%bool; [done|]. by injection Henv as <-. }
    apply main_program_inv in H as [[-> _]|(s0 & offset & Hi & Hc & outs' & -> & Hp & HE & Hl)]; [done|].
    assert (s0 = s) as -> by by eapply initial_det.
    apply ceil_size_R in Hc as [Hc _].
    assert (forall k o, (mkOutput cfg offset (coStart cond) 0 particles (output_count particles) :: outs') !! k = Some o ->
      oNumber o = (offset + Z.of_nat k)%Z /\
      (exists s', stepped s (oIter o) s' /\ oParts o = cParts s' /\ (oTime o = time_of s' + start_of cond :> R) /\
         INR k * interval_of cond <= time_of s') /\
      (forall m s'', stepped s m s'' -> (m < oIter o)%nat -> time_of s'' < INR k * interval_of cond)) as Hall.
    { intros [|k] o Hk; cbn in Hk.
      - injection Hk as <-. cbn [oNumber oIter oParts oTime]. split; [lia|]. split; [|intros; lia].
        exists s. split; [constructor|]. split; [done|]. unfold time_of. rewrite HE.
        assert ((eT env : R) = 0) as -> by exact HT0. simpl INR. split; [|lra]. unfold start_of. lra.
      - destruct (ceil_size _) as [endCount|]; [|by destruct Hl as [-> _]].
        assert (0 <= interval_of cond) as HI' by lra.
        destruct (main_loop_first _ _ _ _ _ _ _ _ _ HI' Hl k o Hk) as (n & s' & K1 & K2 & K3 & K4 & K5 & K6 & K7).
        change (0 + INR (S k) * interval_of cond <= time_of s') in K3. rewrite Rplus_0_l in K3.
        change (forall m s'', stepped s m s'' -> (m < n)%nat -> time_of s'' < 0 + INR (S k) * interval_of cond) in K4.
        assert (oIter o = n) as -> by (rewrite K2; lia). split; [lia|]. split.
        + exists s'. done.
        + intros m s2 Hm2 Hlt. specialize (K4 m s2 Hm2 Hlt). lra. }
    assert (forall k o, (mkOutput cfg offset (coStart cond) 0 particles (output_count particles) :: outs') !! k = Some o ->
      exists s', stepped s (oIter o) s' /\ oParts o = cParts s' /\ (oTime o = time_of s' + start_of cond :> R) /\
         INR k * interval_of cond <= time_of s' < INR k * interval_of cond + eMaxDt env) as Hlate.
    { intros k o Hk. destruct (Hall k o Hk) as (_ & (s' & H1 & H2 & H3 & H4) & H5). exists s'.
      split; [done|]. split; [done|]. split; [done|]. split; [done|].
      destruct H1 as [|n s1 s' Hs1 Hf].
      - assert (time_of s = 0) as E0 by (unfold time_of; rewrite HE; exact HT0).
        rewrite E0 in *. destruct k as [|k].
        + simpl INR. lra.
        + exfalso. assert (0 < INR (S k) * interval_of cond); [|lra].
          apply Rmult_lt_0_compat; [apply lt_0_INR; lia|done].
      - assert (time_of s1 < INR k * interval_of cond) as Hlt by (apply (H5 n); [done|lia]).
        assert (eMaxDt (cEnv s1) = eMaxDt env /\ eMaxDx (cEnv s1) = eMaxDx env) as [E1 E2].
        { apply stepped_env, same_constants_fields in Hs1 as (_ & E1 & E2 & _). by rewrite E1, E2, HE. }
        apply forward_time in Hf; [|by rewrite E2|by rewrite E1]. rewrite E1 in Hf. lra. }
    intros k o Hk. destruct (Hall k o Hk) as (Hnum & _ & Hfirst).
    split; [by exists offset|]. split; [by apply Hlate|]. split; [done|].
    intros o' Hk'. destruct (Hlate k o Hk) as (s1 & H1 & _ & _ & H1b). destruct (Hlate (S k) o' Hk') as (s2 & H2 & _ & _ & H2b).
    rewrite S_INR in H2b.
    assert (oIter o <= oIter o')%nat as Hle.
    { destruct (decide (oIter o <= oIter o')%nat) as [?|Hgt]; [done|exfalso].
      assert (time_of s2 < INR k * interval_of cond) by (apply (Hfirst (oIter o')); [done|lia]). lra. }
    destruct (stepped_before s (oIter o') (oIter o) s2 H2 Hle) as (s1' & H1' & H12).
    rewrite (stepped_det _ _ _ _ H1' H1) in H12.
    assert (eMaxDt (cEnv s1) = eMaxDt env /\ eMaxDx (cEnv s1) = eMaxDx env) as [E1 E2].
    { apply stepped_env, same_constants_fields in H1 as (_ & E1 & E2 & _). by rewrite E1, E2, HE. }
    apply stepped_time in H12; [|by rewrite E2|by rewrite E1]. rewrite E1 in H12.
    set (n := (oIter o' - oIter o)%nat) in *.
    assert (IZR minSteps < INR n + 1) as Hlast.
    { assert (0 < IZR minSteps) as Hmp by (apply IZR_lt; lia).
      assert (interval_of cond < (INR n + 1) * eMaxDt env) as Hq by lra.
      assert ((INR n + 1) * eMaxDt env <= (INR n + 1) * (interval_of cond / IZR minSteps)) as Hq2.
      { apply Rmult_le_compat_l; [|done]. pose proof (pos_INR n). lra. }
      assert (interval_of cond < (INR n + 1) * (interval_of cond / IZR minSteps)) as Hq3 by lra.
      apply (Rmult_lt_reg_r (interval_of cond)); [done|].
      apply (Rmult_lt_compat_r (IZR minSteps)) in Hq3; [|done].
      replace ((INR n + 1) * (interval_of cond / IZR minSteps) * IZR minSteps) with ((INR n + 1) * interval_of cond) in Hq3 by (field; lra).
      lra. }
    rewrite INR_IZR_INZ, <- plus_IZR in Hlast. apply lt_IZR in Hlast. lia.
  Qed.

  (** C41.  A run that finishes has written all files: ceil((end - start)/interval) after
      the first one. *)
  Theorem C41_complete fuel cond (env : environment Rnum cfg) (particles : list part) outs :
    main_program fuel cond env particles = Some (outs, Finished) ->
    exists n, ceiling ((end_of cond - start_of cond) / interval_of cond) n /\ Z.of_nat (length outs) = (n + 1)%Z.
  Proof.
    intros H. apply C42_ending in H as (n & Hn & Hl). apply ceil_size_R in Hn as [Hc Hpos].
    exists n. split; [exact Hc|]. lia.
  Qed.

  (** C38.  Time never decreases (steps of [ForwardTime()]). *)
  Theorem C38_monotone {wm : wallmotion Rnum (cDim cfg)} (s s' : computer cfg wm) :
    0 < eMaxDx (cEnv s) -> 0 < eMaxDt (cEnv s) ->
    (forward s = Done s' \/ exists ex, forward s = Throw ex s') ->
    time_of s < time_of s' <= time_of s + eMaxDt (cEnv s).
  Proof.
    intros H1 H2 Hf. unfold forward in Hf. destruct (determine_dt s) as [dt|] eqn:E; [|by destruct Hf as [?|[? ?]]].
    apply determine_spec in E as [[H3 H4] _]; [|done|done].
    assert (final (forward_dt dt s) = Some s') as Hfin by (by destruct Hf as [->|[ex ->]]).
    apply forward_frame in Hfin as [He _]. unfold time_of. rewrite He. simpl. lra.
  Qed.

  (** The step ForwardTime() takes is the largest that meets both limits. *)
  Theorem C16_step_taken {wm : wallmotion Rnum (cDim cfg)} (env0 : environment Rnum cfg) (s s' : computer cfg wm) :
    0 < eMaxDx env0 -> 0 < eMaxDt env0 -> square_ground env0 -> reachable env0 s ->
    (forward s = Done s' \/ exists ex, forward s = Throw ex s') ->
    let dt := eDt (cEnv s') in
    time_of s' = time_of s + dt /\ (0 < dt <= eMaxDt env0) /\
    (forall p, p ∈ cParts s -> len (pU p) * dt <= eMaxDx env0) /\
    (forall dt', dt' <= eMaxDt env0 -> (forall p, p ∈ cParts s -> len (pU p) * dt' <= eMaxDx env0) -> dt' <= dt).
  Proof.
    intros H1 H2 Hsq Hr Hf. unfold forward in Hf. destruct (determine_dt s) as [dt|] eqn:E; [|by destruct Hf as [?|[? ?]]].
    destruct (C16_cfl env0 s dt H1 H2 Hsq Hr E) as (H3 & H4 & H5).
    assert (final (forward_dt dt s) = Some s') as Hfin by (by destruct Hf as [->|[ex ->]]).
    apply forward_frame in Hfin as [He _]. unfold time_of. rewrite He. simpl. done.
  Qed.
End Schedule.

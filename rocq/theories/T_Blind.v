(** Property theorems: the number densities a step starts with do not matter (C88). *)
From Verif Require Import P_Point P_Reach P_Sim P_Indep S_Blind T_Obs T_Life.

Section Blind.
  Context {N : num} {cfg : config} {wm : wallmotion N (cDim cfg)}.
  Notation d := (cDim cfg).
  Notation part := (particle N d).
  Notation computer := (computer cfg wm).
  Implicit Types (p q : part) (s t : computer).

  (** ** Other densities *)
  Definition dense (ns : nat -> N) (l : list part) : list part := imap (fun i p => set_N (ns i) p) l.
  Definition redense (ns : nat -> N) s : computer := with_parts s (dense ns (cParts s)).
  Definition on_state (f : computer -> computer) (o : outcome computer) : outcome computer :=
    match o with Done s => Done (f s) | Throw e s => Throw e (f s) | Undef => Undef end.
  Lemma dense_at ns l i : dense ns l !! i = set_N (ns i) <$> l !! i.
  Proof. unfold dense. by rewrite list_lookup_imap. Qed.
  Lemma dense_insert ns l i p : dense ns (<[i := p]> l) = <[i := set_N (ns i) p]> (dense ns l).
  Proof.
    apply list_eq. intros j. rewrite dense_at. destruct (decide (i = j)) as [->|Hne].
    - destruct (decide (j < length l)%nat).
      + rewrite !list_lookup_insert; [done| |done]. unfold dense. by rewrite imap_length.
      + rewrite !lookup_ge_None_2; [done|..]; rewrite insert_length; [unfold dense; rewrite imap_length|]; lia.
    - rewrite !list_lookup_insert_ne by done. by rewrite dense_at.
  Qed.
  Lemma dense_length ns l : length (dense ns l) = length l.
  Proof. apply imap_length. Qed.
  Lemma store_one_dense ns s i : store_one (redense ns s) i = on_state (redense ns) (store_one s i).
  Proof.
    unfold store_one. change (cParts (redense ns s)) with (dense ns (cParts s)). rewrite dense_at. destruct (cParts s !! i) as [p|]; [|done]. cbn [fmap option_fmap option_map].
    change (pT (set_N (ns i) p)) with (pT p). change (pX (set_N (ns i) p)) with (pX p). destruct (is_disabled (pT p)); [done|]. change (cGrid (redense ns s)) with (cGrid s).
    destruct (store _ _ _ _); try done. unfold on_state, redense. cbn [with_parts cParts]. rewrite dense_insert. done.
  Qed.
  Lemma store_all_dense ns l : forall s, store_all l (redense ns s) = on_state (redense ns) (store_all l s).
  Proof.
    induction l as [|i l IH]; intros s; [done|]. cbn [store_all]. rewrite store_one_dense. destruct (store_one s i); cbn [on_state obind]; done.
  Qed.
  Lemma near_dense ns s i p n js : near (redense ns s) i (set_N n p) js = near s i p js.
  Proof.
    induction js as [|j js IH]; [done|]. cbn [near]. rewrite IH. destruct (j =? i)%nat; [done|].
    change (cParts (redense ns s)) with (dense ns (cParts s)). rewrite dense_at. destruct (cParts s !! j) as [q|]; done.
  Qed.
  Lemma search_dense ns s : search_neighbor (redense ns s) = on_state (redense ns) (search_neighbor s).
  Proof.
    unfold search_neighbor. change (cGrid (redense ns s)) with (cGrid s). destruct (clear _ _) as [g|]; [|done].
    change (with_grid (redense ns s) g) with (redense ns (with_grid s g)). rewrite store_all_dense.
    assert (psize (redense ns s) = psize s) as -> by apply dense_length.
    destruct (store_all _ _) as [t|e t|]; cbn [on_state obind]; try done.
    assert (psize (redense ns t) = psize t) as -> by apply dense_length.
    assert (opt_rel (fun u u' => u' = redense ns u) (run_loop (neighbor_loop cfg wm) (psize t) t) (run_loop (neighbor_loop cfg wm) (psize t) (redense ns t))) as H.
    { apply run_loop_sim_eq; [| |done].
      - intros i u u' _ ->. cbn [neighbor_loop l_compute]. change (cParts (redense ns u)) with (dense ns (cParts u)). rewrite dense_at. destruct (cParts u !! i) as [p|]; [|done]. cbn [mbind option_bind fmap option_fmap option_map].
        change (pT (set_N (ns i) p)) with (pT p). destruct (is_disabled (pT p)); [done|]. change (pX (set_N (ns i) p)) with (pX p). change (cGrid (redense ns u)) with (cGrid u).
        destruct (around _ _ _); [|done]. cbn [mbind option_bind]. rewrite near_dense. done.
      - intros i v u u' ->. cbn [neighbor_loop l_write]. by destruct v. }
    destruct (run_loop _ _ t), (run_loop _ _ (redense ns t)); cbn in H |- *; try done. by subst.
  Qed.
  (** ** The densities are computed anew *)
  Definition dense_upto (m : nat) s s' : Prop := s' = with_parts s (cParts s') /\ length (cParts s') = length (cParts s) /\
    forall j p, cParts s !! j = Some p -> exists n, cParts s' !! j = Some (set_N n p) /\ (pT p = Dummy -> n = pN p) /\ ((j < m)%nat -> enabled p -> n = pN p).
  Lemma set_own p : set_N (pN p) p = p. Proof. by destruct p. Qed.
  Lemma dens_dense s s' : dense_upto 0 s s' -> opt_rel (fun t t' => dense_upto (psize t) t t') (compute_densities s) (compute_densities s').
  Proof.
    intros H. unfold compute_densities. assert (psize s' = psize s) as -> by apply H.
    assert (opt_rel (fun t t' => dense_upto (psize s) t t' /\ psize t = psize s) (run_loop (dens_loop cfg wm) (psize s) s) (run_loop (dens_loop cfg wm) (psize s) s')) as HR.
    2:{ destruct (run_loop _ _ s), (run_loop _ _ s'); cbn in *; try done. by destruct HR as [? ->]. }
    apply (run_loop_sim _ _ (fun m t t' => dense_upto m t t' /\ psize t = psize s)); [|done].
    clear H. generalize (psize s) as n. clear s s'. intros n i s s' Hi ((E & Hl & H) & Hsz). cbn [l_compute dens_loop].
    destruct (cParts s !! i) as [p|] eqn:Hp.
    2:{ apply lookup_ge_None in Hp. unfold psize in Hsz. lia. }
    destruct (H i p Hp) as (m & Hp' & Hd & Ho). rewrite Hp'. cbn [mbind option_bind].
    assert (cEnv s' = cEnv s) as EE by (by rewrite E). assert (cNws s' = cNws s) as EW by (by rewrite E). assert (cNeighbor s' = cNeighbor s) as EN by (by rewrite E).
    rewrite EE, EW. destruct (cNws s !! i) as [x|]; [|done]. cbn [mbind option_bind]. change (pT (set_N m p)) with (pT p). change (pX (set_N m p)) with (pX p).
    assert (forall v : N * option N, (v.2 = None -> is_active (pT p) = false) ->
      dense_upto (1 + i) (l_write (dens_loop cfg wm) i v s) (l_write (dens_loop cfg wm) i v s') /\ psize (l_write (dens_loop cfg wm) i v s) = n) as Hw.
    { intros v Hv. cbn [l_write dens_loop]. destruct v as [v1 [v2|]]; cbn [fst snd] in *.
      - split; [|unfold psize, upd_part; cbn; by rewrite alter_length]. split; [|split].
        + unfold upd_part. cbn. rewrite E. done.
        + unfold upd_part. cbn. by rewrite !alter_length.
        + unfold upd_part. cbn [with_parts with_nws cParts]. intros j q Hq. destruct (decide (i = j)) as [<-|Hne].
          * rewrite list_lookup_alter, Hp in Hq. injection Hq as <-. exists v2. rewrite list_lookup_alter, Hp'. done.
          * rewrite list_lookup_alter_ne in Hq by done. destruct (H j q Hq) as (n' & H1 & H2 & H3). exists n'. rewrite list_lookup_alter_ne by done.
            split; [done|]. split; [done|]. intros Hj. apply H3. lia.
      - split; [|done]. split; [|split].
        + cbn. rewrite E. done.
        + done.
        + cbn [with_nws cParts]. intros j q Hq. destruct (H j q Hq) as (n' & H1 & H2 & H3). exists n'. split; [done|]. split; [done|]. intros Hj He.
          destruct (decide (j = i)) as [->|Hne]; [|apply H3; [lia|done]]. rewrite Hp in Hq. injection Hq as <-. apply H2.
          specialize (Hv eq_refl). destruct (decide (pT p = Dummy)); [done|]. assert (is_active (pT p) = true); [by apply is_active_true|congruence]. }
    destruct (is_active (pT p)) eqn:HA; [|by apply Hw].
    rewrite (acc_ext (with_nws s' (<[i:=eN0 (cEnv s)]> (cNws s))) (with_nws s (<[i:=eN0 (cEnv s)]> (cNws s))) i _ _ _ (dens_func cfg (pX p) (eRe (cEnv s)))).
    - destruct (acc _ _ _ _ _); [|done]. cbn [mbind option_bind opt_rel]. by apply Hw.
    - cbn. by rewrite EN.
    - cbn. by rewrite EE.
    - cbn. by rewrite EE.
    - done.
    - intros j. cbn. destruct (cParts s !! j) as [q|] eqn:Hq.
      + destruct (H j q Hq) as (? & -> & _). done.
      + apply lookup_ge_None in Hq. rewrite (lookup_ge_None_2 (cParts s')) by lia. done.
    - cbn. by rewrite Hp, Hp'.
    - cbn. intros j q q' Hq Hq'. destruct (H j q' Hq') as (? & Hq1 & _). rewrite Hq in Hq1. injection Hq1 as ->. done.
    - done.
  Qed.
  (** ** One step *)
  Lemma alike_self s : alike true s s.
  Proof. split; try done. apply Forall2_same_length_lookup_2; [done|]. intros i p q Hp Hq. left. congruence. Qed.
  Definition densities (ps : list part) (i : nat) : N := default (nofZ 0) (pN <$> ps !! i).
  Lemma redense_inv env0 ns s : inv env0 s -> inv env0 (redense ns s).
  Proof.
    intros [W G E]. split; [|done|done]. assert (psize (redense ns s) = psize s) as HP by apply dense_length.
    destruct W. split; rewrite ?HP; done.
  Qed.
  Lemma redense_but s s' : same_but_density s s' -> same_but_density s (redense (densities (cParts s')) s) /\ alike true (redense (densities (cParts s')) s) s'.
  Proof.
    intros H. assert (forall i p, cParts s !! i = Some p -> exists p', cParts s' !! i = Some p' /\ but_density p p') as Hat.
    { intros i p Hp. destruct (Forall2_lookup_l _ _ _ _ _ (sb_parts _ _ H) Hp) as (p' & ? & ?). eauto. }
    assert (length (cParts s') = length (cParts s)) as Hl by (symmetry; eapply Forall2_length, H). split.
    - split; try done. cbn. apply Forall2_same_length_lookup_2; [by rewrite dense_length|]. intros i p q Hp Hq. rewrite dense_at, Hp in Hq. cbn in Hq. injection Hq as <-.
      split; [done|]. split; [done|]. split; [done|]. split; [done|]. intros HD. cbn. unfold densities. destruct (Hat i p Hp) as (p' & -> & (_ & _ & _ & _ & Hn)). cbn. by apply Hn.
    - split; try apply H. cbn. apply Forall2_same_length_lookup_2; [by rewrite dense_length|]. intros i p q Hp Hq. rewrite dense_at in Hp.
      destruct (cParts s !! i) as [p0|] eqn:Hp0; [|done]. cbn in Hp. injection Hp as <-. destruct (Hat i p0 Hp0) as (p' & Hp' & (B1 & B2 & B3 & B4 & B5)). rewrite Hq in Hp'. injection Hp' as <-.
      destruct (decide (pT p0 = Disabled)) as [HD|HD]; [right; cbn; split; [done|]; split; [done|congruence]|]. left. unfold densities. rewrite Hq. cbn.
      specialize (B4 HD). destruct q, p0; cbn in *. by subst.
  Qed.
  Lemma blind_dense env0 dt ns s : square_ground env0 -> inv env0 s -> (forall i p, cParts s !! i = Some p -> pT p = Dummy -> ns i = pN p) ->
    same_kind (alike true) (fun e t t' => alike true t t' \/ e = TooManyParticles /\ t' = redense ns t /\ (forall i p, cParts t !! i = Some p -> pT p = Dummy -> ns i = pN p)) (forward_dt dt s) (forward_dt dt (redense ns s)).
  Proof.
    intros Hsq HI Hns. pose proof (redense_inv env0 ns s HI) as HI'. pose proof (inv_ok _ _ Hsq HI) as [HW HO].
    set (RT := fun e t t' => alike true t t' \/ e = TooManyParticles /\ t' = redense ns t /\ (forall i p, cParts t !! i = Some p -> pT p = Dummy -> ns i = pN p)).
    apply (after_alike true RT (search_neighbor (start_step dt s) >>o (fun s => of_opt (compute_densities s))) (search_neighbor (start_step dt (redense ns s)) >>o (fun s => of_opt (compute_densities s)))).
    { intros e t t' H. by left. }
    change (start_step dt (redense ns s)) with (redense ns (start_step dt s)). rewrite search_dense.
    pose proof (search_linked true (start_step dt s) (start_step dt s) (alike_self _)) as HL.
    specialize (HL ltac:(split; [by apply wf_start|done]) ltac:(split; [by apply wf_start|done]) ltac:(done)).
    pose proof (search_spec (start_step dt s) (wf_start dt s HW) HO) as HSp.
    destruct (search_neighbor (start_step dt s)) as [t|e t|]; cbn [on_state obind same_kind] in *; [| |done].
    2:{ split; [done|]. right. destruct HSp as (-> & _ & _ & m & k & _ & _ & Et). split; [done|]. split; [done|]. intros i p Hp HT. rewrite Et in Hp. cbn [with_parts cParts] in Hp.
        rewrite list_lookup_imap in Hp. destruct (cParts (start_step dt s) !! i) as [p0|] eqn:Hp0; [|done]. cbn [fmap option_fmap option_map] in Hp. injection Hp as <-. unfold leave in HT |- *.
        destruct (i <? m)%nat; [|by apply (Hns i p0)]. destruct (is_disabled (pT p0)); [by apply (Hns i p0)|]. destruct (in_grid _ _); [by apply (Hns i p0)|done]. }
    destruct HL as (HL & HWt & _). pose proof (dens_linked true t t HL) as HD.
    assert (dense_upto 0 t (redense ns t)) as H0.
    { split; [done|]. split; [apply dense_length|]. intros j p Hp. exists (ns j). cbn. rewrite dense_at, Hp. split; [done|]. split; [|lia].
      intros HT. rewrite (se_parts _ _ HSp), list_lookup_fmap in Hp. destruct (cParts (start_step dt s) !! j) as [p0|] eqn:Hp0; [|done]. cbn [fmap option_fmap option_map] in Hp. injection Hp as <-.
      unfold leave in HT |- *. destruct (is_disabled (pT p0)); [by apply (Hns j p0)|]. destruct (in_grid _ _); [by apply (Hns j p0)|done]. }
    pose proof (dens_dense t (redense ns t) H0) as HN.
    destruct (compute_densities t) as [u|] eqn:Eu, (compute_densities (redense ns t)) as [u'|] eqn:Eu'; cbn [of_opt same_kind opt_rel] in *; try done.
    destruct HN as (E & Hl & Hat). destruct HD as [HD HU].
    assert (forall j p, cParts u !! j = Some p -> exists q, cParts u' !! j = Some q /\ twin true p q) as Htw.
    { intros j p Hp. destruct (Hat j p Hp) as (m & Hm & _ & Hm'). exists (set_N m p). split; [done|]. destruct (decide (pT p = Disabled)); [right; done|].
      left. rewrite (Hm' (lookup_lt_Some _ _ _ Hp)) by done. apply set_own. }
    assert (alike true u u') as HA.
    { split; try (by rewrite E). apply Forall2_same_length_lookup_2; [done|]. intros j p q Hp Hq. destruct (Htw j p Hp) as (q' & Hq' & ?). congruence. }
    assert (P_Search.wf u) as HWu by exact (wf_phase _ _ (dens_pr _ _ Eu) HWt).
    split; [|split; [done|]].
    - split; [|by rewrite E]. split; [done| |by rewrite E..]. intros i p Hp He. destruct (li_list _ _ _ HD i p Hp He) as (l & H1 & _ & H3). exists l. split; [done|]. split; [|done].
      rewrite <- H1. apply neighbor_list_ext. by rewrite E.
    - assert (psize u' = psize u) as HP by done. rewrite E. destruct HWu. split; cbn; rewrite ?Hl; done.
  Qed.

  Lemma but_max (ps ps' : list part) : forall p p', Forall2 but_density ps ps' -> but_density p p' -> pU (foldl max_u_step p' ps') = pU (foldl max_u_step p ps).
  Proof.
    intros p p' H. revert p p'. induction H as [|q q' ps ps' Hq _ IH]; intros p p' Hp; cbn [foldl]; [apply Hp|]. apply IH.
    unfold max_u_step. destruct Hp as (P1 & P2 & P3), Hq as (Q1 & Q2 & Q3). rewrite P2, Q2. by destruct (_ <?. _).
  Qed.
  Lemma but_dt s s' : same_but_density s s' -> determine_dt s' = determine_dt s.
  Proof.
    intros H. unfold determine_dt. rewrite (sb_env _ _ H). pose proof (sb_parts _ _ H) as HP. destruct HP as [|p p' ps ps' Hp HP]; [done|]. by rewrite (but_max ps ps' p p').
  Qed.
  Lemma blind_forward env0 dt s s' : square_ground env0 -> inv env0 s -> inv env0 s' -> same_but_density s s' ->
    same_kind (fun t t' => alike true t t' /\ same_but_density t t')
      (fun e t t' => cEnv t' = cEnv t /\ Forall2 (fun p p' => but_density p p' \/ pT p = Disabled /\ pT p' = Disabled) (cParts t) (cParts t') /\ (e = TooManyParticles \/ alike true t t'))
      (forward_dt dt s) (forward_dt dt s').
  Proof.
    intros Hsq HI HI' H. destruct (redense_but s s' H) as [HB HA]. set (ns := densities (cParts s')) in *.
    assert (forall i p, cParts s !! i = Some p -> pT p = Dummy -> ns i = pN p) as Hns.
    { intros i p Hp HT. destruct (Forall2_lookup_l _ _ _ _ _ (sb_parts _ _ HB) Hp) as (q & Hq & (_ & _ & _ & _ & Hn)). cbn in Hq. rewrite dense_at, Hp in Hq. injection Hq as <-. by apply Hn. }
    pose proof (blind_dense env0 dt ns s Hsq HI Hns) as H1.
    pose proof (forward_alike true env0 dt (redense ns s) s' Hsq (redense_inv _ _ _ HI) HI' HA) as H2. unfold ends_alike in H2.
    assert (forall p q, twin true p q -> but_density p q \/ pT p = Disabled /\ pT q = Disabled) as Htb.
    { intros p q [->|(_ & ? & ?)]; [left|by right]. done. }
    assert (forall t u v : computer, alike true t u -> alike true u v -> alike true t v) as Htrans.
    { intros t u v [P1 E1 S1 W1] [P2 E2 S2 W2]. split; [|congruence..]. apply Forall2_same_length_lookup_2; [by rewrite (Forall2_length _ _ _ P1), (Forall2_length _ _ _ P2)|].
      intros i p r Hp Hr. destruct (Forall2_lookup_l _ _ _ _ _ P1 Hp) as (q & Hq & T1). destruct (Forall2_lookup_l _ _ _ _ _ P2 Hq) as (r' & Hr' & T2). assert (r' = r) as -> by congruence.
      destruct T1 as [->|(_ & ? & ?)], T2 as [->|(_ & ? & ?)]; [by left|by right..]. }
    destruct (forward_dt dt s) as [t|e t|] eqn:Es, (forward_dt dt (redense ns s)) as [u|e' u|], (forward_dt dt s') as [v|e'' v|] eqn:Es'; cbn [same_kind] in *; try done.
    - assert (alike true t v) as HT by (by eapply Htrans). split; [done|]. split; try apply HT.
      apply Forall2_same_length_lookup_2; [eapply Forall2_length, HT|]. intros i p q Hp Hq. destruct (Forall2_lookup_l _ _ _ _ _ (al_parts _ _ _ HT) Hp) as (q' & Hq' & Tw).
      assert (q' = q) as -> by congruence. destruct Tw as [->|(_ & D1 & D2)]; [done|].
      pose proof (C08_types_permanent [ForwardTimeBy cfg dt] s t) as HL. cbn [api_run api_step added] in HL. rewrite Es, app_nil_r in HL. specialize (HL eq_refl).
      destruct (Forall2_lookup_r _ _ _ _ _ HL Hp) as (p0 & Hp0 & _). destruct (Forall2_lookup_l _ _ _ _ _ (sb_parts _ _ H) Hp0) as (q0 & Hq0 & (X0 & _)).
      destruct (C25_prescribed_motion dt s t i p0 p Es Hp0 Hp) as (_ & A1 & A2); [congruence|]. destruct (C25_prescribed_motion dt s' v i q0 q Es' Hq0 Hq) as (_ & B1 & B2); [congruence|].
      rewrite (sb_env _ _ H), (sb_wall _ _ H) in B1. assert (pX q = pX p) as EX by congruence. split; [done|]. split; [rewrite B2, A2, EX, X0; done|]. split; [congruence|]. split; congruence.
    - destruct H1 as [<- H1], H2 as [<- H2]. split; [done|]. destruct H1 as [H1|(-> & -> & Hd)].
      + assert (alike true t v) as HT by (by eapply Htrans). split; [apply HT|]. split; [|by right]. eapply Forall2_impl; [apply HT|done].
      + split; [apply H2|]. split; [|by left]. pose proof (al_parts _ _ _ H2) as HP. cbn in HP. apply Forall2_same_length_lookup_2; [apply Forall2_length in HP; by rewrite dense_length in HP|].
        intros i p q Hp Hq. destruct (Forall2_lookup_r _ _ _ _ _ HP Hq) as (p1 & Hp1 & Tw). rewrite dense_at, Hp in Hp1. injection Hp1 as <-.
        destruct Tw as [->|(_ & ? & ?)]; [|by right]. destruct (decide (pT p = Dummy)) as [HD|HD]; [|left; done]. left. split; [done|]. split; [done|]. split; [done|]. split; [done|]. intros _. cbn. by apply Hd.
  Qed.
  (** C88.  One call.  Two computers whose particles in use differ at most in their number densities (those of dummy particles, which are never computed, being equal): the call ends the same
      way; if it returns, all particles in use are equal from then on, and the others have the same positions, velocities and types. *)
  Theorem C88_call env0 o s s' : square_ground env0 -> reachable env0 s -> reachable env0 s' -> same_but_density s s' -> (forall src, o <> AddParticles cfg src) ->
    same_kind (fun t t' => alike true t t' /\ same_but_density t t')
      (fun e t t' => cEnv t' = cEnv t /\ Forall2 (fun p p' => but_density p p' \/ pT p = Disabled /\ pT p' = Disabled) (cParts t) (cParts t') /\ (e = TooManyParticles \/ alike true t t'))
      (api_step o s) (api_step o s').
  Proof.
    intros Hsq Hr Hr' H Ho. destruct o as [src|dt|]; [by destruct (Ho src)|..]; cbn [api_step].
    - by apply (blind_forward env0); [done|apply reachable_inv..|].
    - unfold forward. rewrite (but_dt s s' H). destruct (determine_dt s) as [dt|]; [|done]. by apply (blind_forward env0); [done|apply reachable_inv..|].
  Qed.
End Blind.

(** Invariants of reachable states (any arithmetic). *)
From Verif Require Export S_Reach P_Step.

Section Reach.
  Context {N : num} {cfg : config} {wm : wallmotion N (cDim cfg)}.
  Notation d := (cDim cfg).
  Notation part := (particle N d).
  Notation computer := (computer cfg wm).

  Lemma is_disabled_false (t : ptype) : is_disabled t = false <-> t <> Disabled.
  Proof. by destruct t. Qed.
  Lemma is_disabled_true (t : ptype) : is_disabled t = true <-> t = Disabled.
  Proof. by destruct t. Qed.
  Lemma is_active_true (t : ptype) : is_active t = true <-> t <> Disabled /\ t <> Dummy.
  Proof. destruct t; simpl; naive_solver. Qed.
  Lemma is_newton_true (t : ptype) : is_newton t = true <-> t = Newton.
  Proof. by destruct t. Qed.
  Lemma is_dummy_true (t : ptype) : is_dummy t = true <-> t = Dummy.
  Proof. by destruct t. Qed.

  (** Geometry prescribed by an environment. *)
  Definition geom_for (env : environment N cfg) (g : grid N d) : Prop :=
    exists g0, new_grid d (eNL env) (eL0 env) (eMinX env) (eMaxX env) = Some g0 /\ same_geom g0 g.

  Lemma new_grid_shape nl l0 minX maxX (g : grid N d) :
    new_grid d nl l0 minX maxX = Some g ->
    g_len d g = nl /\ g_origin d g = minX /\
    (forall k n, g_shape d g !! k = Some n <-> (k < dimn d)%nat /\
        exists c, nceil ((tget d maxX k -. tget d minX k) /. nl) = Some c /\ n = (c + 2)%Z) /\
    (exists m, nceil (nl /. l0) = Some m /\ g_cap d g = Z.to_nat ((m + 1) ^ Z.of_nat (dimn d))).
  Proof.
    unfold new_grid. intros H.
    destruct (mapM _ (seq 0 (dimn d))) as [shape|] eqn:Hs; [|done]. simpl in H.
    destruct (ceil_div nl l0) as [m|] eqn:Hm; [|done]. simpl in H.
    destruct (_ && _); [|done]. simplify_eq. simpl.
    split; [done|]. split; [done|]. split; [|by exists m].
    apply mapM_Some in Hs.
    intros k n. split.
    - intros Hk. destruct (Forall2_lookup_r _ _ _ _ _ Hs Hk) as (k' & Hk' & Hc).
      apply lookup_seq in Hk' as [-> Hlt]. split; [done|]. unfold ceil_div in Hc. simpl in Hc.
      destruct (nceil _) as [c|]; [|done]. simpl in Hc. exists c. split; [done|congruence].
    - intros (Hk & c & Hc & ->).
      assert (seq 0 (dimn d) !! k = Some k) as Hk' by (apply lookup_seq; lia).
      destruct (Forall2_lookup_l _ _ _ _ _ Hs Hk') as (n & Hn & Hc'). rewrite Hn.
      unfold ceil_div in Hc'. rewrite Hc in Hc'. simpl in Hc'. congruence.
  Qed.

  Lemma clear_bounds_short dd l : (length l < 3)%nat -> clear_bounds dd l = l.
  Proof. intros H. destruct dd; [done|]. by destruct l as [|? [|? [|? []]]]; simpl in H; try lia. Qed.
  Lemma clear_bounds_sq dd n l : clear_bounds dd (n :: n :: l) = n :: n :: l.
  Proof. destruct dd; [done|]. by destruct l as [|? []]. Qed.

  Lemma square_clear_ok env g : square_ground env -> geom_for env g -> grid_wf g -> clear_ok g.
  Proof.
    intros Hsq (g0 & Hg0 & Hgeo) Hg. destruct (new_grid_shape _ _ _ _ _ Hg0) as (_ & _ & Hsh & _).
    destruct Hgeo as (_ & _ & Hse & _). pose proof (gw_dim g Hg) as Hdim. rewrite Hse in Hdim.
    unfold clear_ok. rewrite Hse. clear Hse Hg. destruct Hsq as [Hd|Hc].
    - generalize (g_shape d g0). intros l. unfold clear_bounds. by rewrite Hd.
    - destruct (g_shape d g0) as [|nx [|ny l]] eqn:E; [apply clear_bounds_short; simpl; lia..|].
      destruct (proj1 (Hsh 0%nat nx) eq_refl) as (_ & cx & Hcx & ->).
      destruct (proj1 (Hsh 1%nat ny) eq_refl) as (_ & cy & Hcy & ->).
      assert (cx = cy) as -> by congruence.
      apply clear_bounds_sq.
  Qed.

  Lemma same_constants_refl (e : environment N cfg) : same_constants e e.
  Proof. by destruct e. Qed.

  Record inv (env0 : environment N cfg) (s : computer) : Prop := {
    inv_wf : wf s;
    inv_geom : geom_for env0 (cGrid s);
    inv_env : same_constants env0 (cEnv s);
  }.

  Lemma inv_clear env0 s : square_ground env0 -> inv env0 s -> clear_ok (cGrid s).
  Proof. intros Hsq [Hwf Hg _]. eapply square_clear_ok; [done|done|apply Hwf]. Qed.
  Lemma inv_ok env0 s : square_ground env0 -> inv env0 s -> ok s.
  Proof. intros Hsq H. split; [apply H|by eapply inv_clear]. Qed.

  Lemma geom_for_trans env g g' : geom_for env g -> same_geom g g' -> geom_for env g'.
  Proof. intros (g0 & H & Hg) Hg'. exists g0. split; [done|]. by eapply same_geom_trans. Qed.

  Lemma forward_geom dt (s s' : computer) :
    ok s -> final (forward_dt dt s) = Some s' ->
    same_geom (cGrid s) (cGrid s') /\ cEnv s' = set_next_t (set_dt dt (cEnv s)).
  Proof.
    intros [Hwf Hok] Hf. pose proof (search_spec (start_step dt s) (wf_start dt s Hwf) Hok) as Hs.
    apply forward_final in Hf as [[e He]|(s1 & H1 & Hp)].
    - rewrite He in Hs. destruct Hs as (_ & Hg & Hgeo & m & k & _ & _ & Hs').
      split; [done|]. by rewrite Hs'.
    - rewrite H1 in Hs. rewrite (pr_grid _ _ Hp), (pr_env _ _ Hp). split; [apply Hs|].
      rewrite (se_rest _ _ Hs). done.
  Qed.

  Lemma inv_step env0 o s s' : square_ground env0 -> inv env0 s -> final (api_step o s) = Some s' -> inv env0 s'.
  Proof.
    intros Hsq Hinv Hf. pose proof (inv_ok _ _ Hsq Hinv) as Hok.
    pose proof (api_step_ok o s s' Hok Hf) as [Hwf' _].
    assert (forall dt, final (forward_dt dt s) = Some s' -> inv env0 s') as Hfw.
    { intros dt Hdt. destruct (forward_geom dt s s' Hok Hdt) as [Hg He].
      split; [done|eapply geom_for_trans; [apply Hinv|done]|].
      rewrite He. pose proof (inv_env _ _ Hinv) as Hc. unfold same_constants in *. rewrite Hc. done. }
    destruct o as [src|dt|]; simpl in Hf.
    - injection Hf as <-. split; [done|apply Hinv|apply Hinv].
    - by eapply Hfw.
    - unfold forward in Hf. destruct (determine_dt s); [|done]. by eapply Hfw.
  Qed.

  Lemma reachable_inv env0 s : square_ground env0 -> reachable env0 s -> inv env0 s.
  Proof.
    intros Hsq. induction 1 as [eps w s H|o s s' _ IH H|o s s' e _ IH H].
    - unfold new_computer in H. destruct (new_grid _ _ _ _ _) as [g|] eqn:E; [|done]. simpl in H. simplify_eq.
      split; simpl; [|exists g; split; [done|apply same_geom_refl]|apply same_constants_refl].
      apply new_grid_wf in E. by split.
    - eapply inv_step; [done|done|by rewrite H].
    - eapply inv_step; [done|done|by rewrite H].
  Qed.
End Reach.

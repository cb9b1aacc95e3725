(** Property theorems: particles out of use have no influence (C57); only the visible state matters (C58). *)
From Verif Require Import P_Point P_Reach P_Sim S_Obs.

Section Obs.
  Context {N : num} {cfg : config} {wm : wallmotion N (cDim cfg)} (loose : bool).
  Notation d := (cDim cfg).
  Notation V := (vec N d).
  Notation part := (particle N d).
  Notation grid := (grid N d).
  Notation computer := (computer cfg wm).
  Notation twin := (@twin N cfg loose).
  Notation alike := (@alike N cfg wm loose).
  Implicit Types (p q : part) (s t : computer).

  (** ** Twins *)
  Lemma twin_refl p : twin p p. Proof. by left. Qed.
  Lemma twin_enabled p p' : twin p p' -> enabled p -> p' = p.
  Proof. intros [->|(_ & H & _)]; [done|]. intros []. done. Qed.
  Lemma twin_type p p' : twin p p' -> pT p' = pT p.
  Proof. intros [->|(_ & H & H')]; congruence. Qed.
  Lemma twin_map (f : part -> part) p p' : (forall q, pT (f q) = pT q) -> twin p p' -> twin (f p) (f p').
  Proof. intros Hf [->|(H0 & H & H')]; [by left|]. right. by rewrite !Hf. Qed.
  Lemma twins_at s s' i : Forall2 twin (cParts s) (cParts s') ->
    (exists p p', cParts s !! i = Some p /\ cParts s' !! i = Some p' /\ twin p p') \/ (cParts s !! i = None /\ cParts s' !! i = None).
  Proof.
    intros H. destruct (cParts s !! i) as [p|] eqn:E.
    - destruct (Forall2_lookup_l _ _ _ _ _ H E) as (p' & E' & Ht). left. eauto.
    - right. split; [done|]. apply lookup_ge_None. rewrite <- (Forall2_length _ _ _ H). by apply lookup_ge_None.
  Qed.
  Lemma twins_enabled s s' i p : Forall2 twin (cParts s) (cParts s') -> cParts s !! i = Some p -> enabled p -> cParts s' !! i = Some p.
  Proof.
    intros H E He. destruct (Forall2_lookup_l _ _ _ _ _ H E) as (p' & E' & Ht). by rewrite E', (twin_enabled _ _ Ht He).
  Qed.
  Lemma twins_alter (ps ps' : list part) i (f f' : part -> part) :
    Forall2 twin ps ps' ->
    (forall p p', ps !! i = Some p -> ps' !! i = Some p' -> twin p p' -> twin (f p) (f' p')) -> Forall2 twin (alter f i ps) (alter f' i ps').
  Proof.
    intros H Hf. apply Forall2_same_length_lookup_2; [by rewrite !alter_length; eapply Forall2_length|].
    intros j x y. destruct (decide (i = j)) as [<-|Hne].
    - rewrite !list_lookup_alter. intros (p & Ep & ->)%fmap_Some (p' & Ep' & ->)%fmap_Some. apply Hf; try done.
      by eapply Forall2_lookup_lr.
    - rewrite !list_lookup_alter_ne by done. intros. by eapply Forall2_lookup_lr.
  Qed.
  Lemma alike_size s s' : alike s s' -> psize s' = psize s.
  Proof. intros H. unfold psize. symmetry. eapply Forall2_length, H. Qed.

  (** ** After the search *)
  Record linked s s' : Prop := {
    li_alike : alike s s';
    li_list : forall i p, cParts s !! i = Some p -> enabled p ->
      exists l, neighbor_list s i = Some l /\ neighbor_list s' i = Some l /\
        forall j, j ∈ l -> exists q, cParts s !! j = Some q /\ enabled q;
    li_du : length (cDu s') = length (cDu s);
    li_ecs : length (cEcs s') = length (cEcs s);
    li_orig : length (cOrigX s') = length (cOrigX s);
    li_nws : length (cNws s') = length (cNws s)
  }.
  Lemma linked_env s s' : linked s s' -> cEnv s' = cEnv s. Proof. intros H. apply H. Qed.
  Lemma linked_size s s' : linked s s' -> psize s' = psize s.
  Proof. intros H. apply alike_size, H. Qed.
  Lemma linked_at s s' i : linked s s' ->
    (exists p p', cParts s !! i = Some p /\ cParts s' !! i = Some p' /\ twin p p') \/ (cParts s !! i = None /\ cParts s' !! i = None).
  Proof. intros H. apply twins_at, H. Qed.
  Lemma linked_enabled s s' i p : linked s s' -> cParts s !! i = Some p -> enabled p -> cParts s' !! i = Some p.
  Proof. intros H. apply twins_enabled, H. Qed.
  Lemma linked_upd s s' i f f' : linked s s' -> (forall q, pT (f q) = pT q) ->
    (forall p p', cParts s !! i = Some p -> cParts s' !! i = Some p' -> twin p p' -> twin (f p) (f' p')) -> linked (upd_part i f s) (upd_part i f' s').
  Proof.
    intros H Ht Hf. split; try by apply H.
    - split; try by apply H. cbn. apply twins_alter; [apply H|done].
    - intros j p. unfold upd_part. cbn [cParts with_parts].
      assert (forall k, pT <$> alter f i (cParts s) !! k = pT <$> cParts s !! k) as HT.
      { intros k. destruct (decide (i = k)) as [<-|Hne]; [|by rewrite list_lookup_alter_ne].
        rewrite list_lookup_alter. destruct (cParts s !! i); [|done]. cbn. by rewrite Ht. }
      intros Hp He. pose proof (HT j) as Hj. rewrite Hp in Hj. destruct (cParts s !! j) as [p0|] eqn:E; [|done]. injection Hj as Hj.
      destruct (li_list _ _ H j p0 E) as (l & H1 & H2 & H3); [unfold enabled in *; congruence|].
      exists l. split; [done|]. split; [done|]. intros k Hk. destruct (H3 k Hk) as (q & Hq & Heq).
      pose proof (HT k) as Hk'. rewrite Hq in Hk'. destruct (alter f i (cParts s) !! k) as [q'|]; [|done]. injection Hk' as Hk'.
      exists q'. split; [done|]. unfold enabled in *. congruence.
  Qed.
  Ltac li H := split; [split; apply H|intros; by eapply (li_list _ _ H)|try apply H..].
  Lemma linked_nws s s' l l' : linked s s' -> length l = length (cNws s) -> length l' = length (cNws s) -> linked (with_nws s l) (with_nws s' l').
  Proof. intros H H1 H2. li H. cbn. congruence. Qed.
  Lemma linked_du s s' l l' : linked s s' -> length l = length (cDu s) -> length l' = length (cDu s) -> linked (with_du s l) (with_du s' l').
  Proof. intros H H1 H2. li H. cbn. congruence. Qed.
  Lemma linked_ecs s s' l l' : linked s s' -> length l = length (cEcs s) -> length l' = length (cEcs s) -> linked (with_ecs s l) (with_ecs s' l').
  Proof. intros H H1 H2. li H. cbn. congruence. Qed.
  Lemma linked_orig s s' l l' : linked s s' -> length l = length (cOrigX s) -> length l' = length (cOrigX s) -> linked (with_origx s l) (with_origx s' l').
  Proof. intros H H1 H2. li H. cbn. congruence. Qed.
  Lemma linked_ppe s s' A x b A' x' b' : linked s s' -> linked (with_ppe s A x b) (with_ppe s' A' x' b').
  Proof. intros H. li H. Qed.
  Lemma linked_wall s s' w : linked s s' -> linked (with_wall s w) (with_wall s' w).
  Proof. intros H. split; try by apply H. split; try by apply H. done. Qed.

  Lemma same_bound {A} (l l' : list A) i : length l' = length l -> (is_Some (l !! i) <-> is_Some (l' !! i)).
  Proof. intros H. rewrite !lookup_lt_is_Some. by rewrite H. Qed.

  (** Sums over the neighbours of an enabled particle. *)
  Lemma acc_linked {A} s s' i p (zero : A) plus f f' :
    linked s s' -> cParts s !! i = Some p -> enabled p -> (cSPP cfg = true -> cNws s' !! i = cNws s !! i) ->
    (forall j q, cParts s !! j = Some q -> enabled q -> f' (Z.of_nat j) q = f (Z.of_nat j) q) ->
    (cSPP cfg = true -> forall q, pT q = Newton -> f' (-1)%Z q = f (-1)%Z q) ->
    acc s' i zero plus f' = acc s i zero plus f.
  Proof.
    intros H Hp He Hn Hf Hv. unfold acc. destruct (li_list _ _ H i p Hp He) as (l & -> & -> & Hl).
    cbn [mbind option_bind]. rewrite (linked_enabled _ _ _ _ H Hp He), Hp. cbn [mbind option_bind].
    assert (foldM (acc_step s' i (pX p) plus f') (zero, vzero) l = foldM (acc_step s i (pX p) plus f) (zero, vzero) l) as ->.
    { apply foldM_ext. intros st j Hj. unfold acc_step. destruct (j =? i)%nat; [done|]. destruct (Hl j Hj) as (q & Hq & Heq).
      rewrite Hq, (linked_enabled _ _ _ _ H Hq Heq), (linked_env _ _ H). cbn [mbind option_bind]. by rewrite (Hf j q). }
    destruct (foldM _ _ l) as [st|]; [|done]. cbn [mbind option_bind]. destruct (cSPP cfg) eqn:HS; [|done].
    unfold acc_spp. rewrite Hn by done. destruct (cNws s !! i) as [n|]; [|done]. cbn [mbind option_bind]. rewrite (linked_env _ _ H).
    destruct (_ <?. _); [|done]. destruct (neps <?. _); [|done]. by rewrite Hv.
  Qed.
  Lemma acc_linked_same {A} s s' i p (zero : A) plus f :
    linked s s' -> cParts s !! i = Some p -> enabled p -> (cSPP cfg = true -> cNws s' !! i = cNws s !! i) ->
    acc s' i zero plus f = acc s i zero plus f.
  Proof. intros. by eapply acc_linked. Qed.

  Definition upto {A} (m : nat) (l l' : list A) : Prop := forall j, (j < m)%nat -> l' !! j = l !! j.
  Lemma upto_insert {A} m i (l l' : list A) x : length l' = length l -> upto m l l' -> i = m ->
    upto (1 + m) (<[i := x]> l) (<[i := x]> l').
  Proof.
    intros Hlen H ->. intros j Hj. destruct (decide (j = m)) as [->|Hne].
    - destruct (decide (m < length l)%nat); [by rewrite !list_lookup_insert by lia|].
      rewrite !list_insert_ge by lia. rewrite !lookup_ge_None_2 by lia. done.
    - rewrite !list_lookup_insert_ne by done. apply H. lia.
  Qed.
  Lemma upto_all {A} (l l' : list A) m : length l' = length l -> (length l <= m)%nat -> upto m l l' -> l' = l.
  Proof.
    intros Hlen Hle H. apply list_eq. intros j. destruct (decide (j < m)%nat); [by apply H|].
    rewrite !lookup_ge_None_2 by lia. done.
  Qed.

  (** *** Densities *)
  Definition linkedN m s s' := linked s s' /\ upto m (cNws s) (cNws s').
  Lemma dens_linked s s' : linked s s' -> opt_rel (fun t t' => linkedN (psize t) t t') (compute_densities s) (compute_densities s').
  Proof.
    intros H. unfold compute_densities. rewrite (linked_size _ _ H).
    assert (opt_rel (fun t t' => linkedN (psize s) t t' /\ psize t = psize s) (run_loop (dens_loop cfg wm) (psize s) s) (run_loop (dens_loop cfg wm) (psize s) s')) as HR.
    2:{ destruct (run_loop _ _ s), (run_loop _ _ s'); cbn in *; try done. by destruct HR as [? ->]. }
    apply (run_loop_sim _ _ (fun m t t' => linkedN m t t' /\ psize t = psize s)).
    2:{ split; [|done]. split; [done|]. intros j Hj. lia. }
    clear H. generalize (psize s) as n. clear s s'. intros n i s s' _ ((H & HU) & Hsz). cbn [l_compute dens_loop].
    destruct (linked_at _ _ i H) as [(p & p' & Hp & Hp' & Ht)|[-> ->]]; [|done].
    rewrite Hp, Hp'. cbn [mbind option_bind]. rewrite (linked_env _ _ H).
    destruct (cNws s !! i) as [x|] eqn:E1, (cNws s' !! i) as [x'|] eqn:E2; cbn [mbind option_bind].
    2:{ apply lookup_ge_None in E2. apply lookup_lt_Some in E1. pose proof (li_nws _ _ H). lia. }
    2:{ apply lookup_ge_None in E1. apply lookup_lt_Some in E2. pose proof (li_nws _ _ H). lia. }
    2: done.
    assert (i < length (cNws s))%nat as Hi by (by eapply lookup_lt_Some).
    assert (forall v : N * option N, (is_active (pT p) = false -> v.2 = None) ->
      linkedN (1 + i) (l_write (dens_loop cfg wm) i v s) (l_write (dens_loop cfg wm) i v s') /\ psize (l_write (dens_loop cfg wm) i v s) = n) as Hw.
    { intros v Hv. cbn [l_write dens_loop].
      assert (linked (with_nws s (<[i:=v.1]> (cNws s))) (with_nws s' (<[i:=v.1]> (cNws s')))) as H1.
      { apply linked_nws; rewrite ?insert_length; try done. apply H. }
      assert (upto (1 + i) (<[i:=v.1]> (cNws s)) (<[i:=v.1]> (cNws s'))) as H2 by (apply upto_insert; [apply H|done|done]).
      destruct v.2 as [x0|] eqn:Ev; [|done]. split.
      - split; [|done]. apply linked_upd; [done|done|]. intros q q' Hq Hq' Htq. by apply twin_map.
      - unfold psize, upd_part. cbn. by rewrite alter_length. }
    rewrite (twin_type _ _ Ht). destruct (is_active (pT p)) eqn:HA.
    - apply is_active_true in HA as [HE HD]. rewrite (twin_enabled _ _ Ht) by done.
      rewrite (acc_linked_same (with_nws s (<[i:=eN0 (cEnv s)]> (cNws s))) (with_nws s' (<[i:=eN0 (cEnv s)]> (cNws s'))) i p); [|apply linked_nws; rewrite ?insert_length; try done; apply H|done|done|].
      + destruct (acc _ _ _ _ _); [|done]. cbn [mbind option_bind opt_rel]. apply Hw. intros ?. congruence.
      + intros _. cbn. rewrite !list_lookup_insert; [done|lia|]. rewrite (li_nws _ _ H). lia.
    - cbn [opt_rel]. by apply Hw.
  Qed.

  (** *** Density speed, error correction *)
  Lemma speed_linked s s' i p : linkedN (psize s) s s' -> cParts s !! i = Some p -> enabled p -> density_speed s' i = density_speed s i.
  Proof.
    intros [H HU] Hp He. unfold density_speed. rewrite Hp, (linked_enabled _ _ _ _ H Hp He). cbn [mbind option_bind]. rewrite (linked_env _ _ H).
    assert (cNws s' !! i = cNws s !! i) as HN by (apply HU; by eapply lookup_lt_Some).
    rewrite (acc_linked_same s s' i p) by done. by rewrite HN.
  Qed.
  Lemma act_enabled p : is_active (pT p) = true -> enabled p.
  Proof. intros [? _]%is_active_true. done. Qed.
  Lemma new_enabled p : is_newton (pT p) = true -> enabled p.
  Proof. intros HT%is_newton_true. unfold enabled. congruence. Qed.

  (** Values stored for particles of a certain kind. *)
  Definition upto_if {A} (K : part -> bool) (m : nat) s (l l' : list A) : Prop :=
    forall j p, (j < m)%nat -> cParts s !! j = Some p -> K p = true -> l' !! j = l !! j.
  Lemma upto_if_insert {A} K m s (l l' : list A) x : length l' = length l -> upto_if K m s l l' ->
    upto_if K (1 + m) s (<[m := x]> l) (<[m := x]> l').
  Proof.
    intros Hlen H. intros j p Hj Hp HK. destruct (decide (j = m)) as [->|Hne].
    - destruct (decide (m < length l)%nat); [by rewrite !list_lookup_insert by lia|].
      rewrite !list_insert_ge by lia. rewrite !lookup_ge_None_2 by lia. done.
    - rewrite !list_lookup_insert_ne by done. eapply H; [lia|done|done].
  Qed.
  Lemma upto_if_skip {A} K m s (l l' : list A) p : upto_if K m s l l' -> cParts s !! m = Some p -> K p = false ->
    upto_if K (1 + m) s l l'.
  Proof.
    intros H Hp HK j q Hj Hq HKq. destruct (decide (j = m)) as [->|Hne]; [congruence|]. eapply H; [lia|done|done].
  Qed.
  Definition Kact (p : part) := is_active (pT p).
  Definition Knew (p : part) := is_newton (pT p).

  Lemma both_bound {A} (l l' : list A) i : length l' = length l ->
    (exists x x', l !! i = Some x /\ l' !! i = Some x') \/ (l !! i = None /\ l' !! i = None).
  Proof.
    intros H. destruct (l !! i) as [x|] eqn:E1, (l' !! i) as [x'|] eqn:E2; eauto.
    - apply lookup_ge_None in E2. apply lookup_lt_Some in E1. lia.
    - apply lookup_ge_None in E1. apply lookup_lt_Some in E2. lia.
  Qed.

  Lemma ecs_linked s s' : linkedN (psize s) s s' ->
    opt_rel (fun t t' => linkedN (psize t) t t' /\ upto_if Kact (psize t) t (cEcs t) (cEcs t')) (compute_ecs s) (compute_ecs s').
  Proof.
    intros H. unfold compute_ecs. rewrite (linked_size _ _ (proj1 H)).
    assert (opt_rel (fun t t' => (linkedN (psize t) t t' /\ upto_if Kact (psize s) t (cEcs t) (cEcs t')) /\ psize t = psize s)
      (run_loop (ecs_loop cfg wm) (psize s) s) (run_loop (ecs_loop cfg wm) (psize s) s')) as HR.
    2:{ destruct (run_loop _ _ s), (run_loop _ _ s'); cbn in *; try done. destruct HR as [? E]. by rewrite E in *. }
    apply (run_loop_sim _ _ (fun m t t' => (linkedN (psize t) t t' /\ upto_if Kact m t (cEcs t) (cEcs t')) /\ psize t = psize s)).
    2:{ split; [|done]. split; [done|]. intros j p Hj. lia. }
    clear H. generalize (psize s) as n. clear s s'. intros n i s s' _ ((H & HU) & Hsz). cbn [l_compute ecs_loop].
    destruct (linked_at _ _ i (proj1 H)) as [(p & p' & Hp & Hp' & Ht)|[-> ->]]; [|done].
    rewrite Hp, Hp'. cbn [mbind option_bind]. rewrite (linked_env _ _ (proj1 H)), (twin_type _ _ Ht).
    destruct (is_active (pT p)) eqn:HA.
    - pose proof (act_enabled _ HA) as HE. rewrite (speed_linked _ _ _ _ H Hp HE), (twin_enabled _ _ Ht HE).
      destruct (density_speed s i); [|done]. cbn [mbind option_bind].
      destruct (both_bound _ _ i (li_ecs _ _ (proj1 H))) as [(x & x' & -> & ->)|[-> ->]]; [|done].
      cbn [mbind option_bind opt_rel l_write ecs_loop]. split; [split|done].
      + destruct H as [H HN]. split; [|done]. apply linked_ecs; rewrite ?insert_length; try done. apply H.
      + apply upto_if_insert; [apply H|done].
    - cbn [opt_rel l_write ecs_loop]. split; [split|done]; [done|]. by eapply upto_if_skip.
  Qed.

  (** *** Explicit forces *)
  Lemma accel_linked s s' (Q : computer -> computer -> Prop) : linkedN (psize s) s s' ->
    (forall t t' l l', Q t t' -> Q (with_du t l) (with_du t' l')) -> Q s s' ->
    opt_rel (fun t t' => linkedN (psize t) t t' /\ upto_if Knew (psize t) t (cDu t) (cDu t') /\ Q t t')
      (run_loop (accel_loop cfg wm) (psize s) s) (run_loop (accel_loop cfg wm) (psize s) s').
  Proof.
    intros H HQ HQ0.
    assert (opt_rel (fun t t' => (linkedN (psize t) t t' /\ upto_if Knew (psize s) t (cDu t) (cDu t') /\ Q t t') /\ psize t = psize s)
      (run_loop (accel_loop cfg wm) (psize s) s) (run_loop (accel_loop cfg wm) (psize s) s')) as HR.
    2:{ destruct (run_loop _ _ s), (run_loop _ _ s'); cbn in *; try done. destruct HR as [? E]. by rewrite E in *. }
    apply (run_loop_sim _ _ (fun m t t' => (linkedN (psize t) t t' /\ upto_if Knew m t (cDu t) (cDu t') /\ Q t t') /\ psize t = psize s)).
    2:{ split; [|done]. split; [done|]. split; [|done]. intros j p Hj. lia. }
    clear H HQ0. generalize (psize s) as n. clear s s'. intros n i s s' _ ((H & HU & HQ0) & Hsz). cbn [l_compute accel_loop].
    destruct (linked_at _ _ i (proj1 H)) as [(p & p' & Hp & Hp' & Ht)|[-> ->]]; [|done].
    rewrite Hp, Hp'. cbn [mbind option_bind]. rewrite (linked_env _ _ (proj1 H)), (twin_type _ _ Ht).
    destruct (is_newton (pT p)) eqn:HA.
    - pose proof (new_enabled _ HA) as HE. rewrite (twin_enabled _ _ Ht HE). destruct H as [H HN].
      rewrite (acc_linked_same s s' i p); [|done|done|done|]. 2:{ intros _. apply HN. by eapply lookup_lt_Some. }
      destruct (acc s i _ _ _); [|done]. cbn [mbind option_bind].
      destruct (both_bound _ _ i (li_du _ _ H)) as [(x & x' & -> & ->)|[-> ->]]; [|done].
      cbn [mbind option_bind opt_rel l_write accel_loop]. split; [split; [|split]|done].
      + split; [|done]. apply linked_du; rewrite ?insert_length; try done. apply H.
      + apply upto_if_insert; [apply H|done].
      + by apply HQ.
    - cbn [opt_rel l_write accel_loop]. split; [split; [|split]|done]; try done. by eapply upto_if_skip.
  Qed.
  (** Values stored for particles of a kind stay in agreement when particles change without changing type. *)
  Lemma upto_if_types {A} K m s t (l l' : list A) :
    (forall p p', pT p = pT p' -> K p = K p') -> (forall j, pT <$> cParts t !! j = pT <$> cParts s !! j) ->
    upto_if K m s l l' -> upto_if K m t l l'.
  Proof.
    intros HK HT H j p Hj Hp HKp. pose proof (HT j) as E. rewrite Hp in E. destruct (cParts s !! j) as [p0|] eqn:E0; [|done].
    injection E as E. eapply H; [done|done|]. by rewrite (HK p0 p).
  Qed.
  Lemma upd_types s i f : (forall q, pT (f q) = pT q) -> forall j, pT <$> cParts (upd_part i f s) !! j = pT <$> cParts s !! j.
  Proof.
    intros Hf j. unfold upd_part. cbn. destruct (decide (i = j)) as [<-|]; [|by rewrite list_lookup_alter_ne].
    rewrite list_lookup_alter. destruct (cParts s !! i); [|done]. cbn. by rewrite Hf.
  Qed.

  (** Loops that only change particles. *)
  Lemma parts_loop_linked {W} (L : ploop computer W) (upd : W -> computer -> option (part -> part)) (Q : computer -> computer -> Prop) n s s' :
    (forall i v t, l_write L i v t = match upd v t with Some f => upd_part i f t | None => t end) ->
    (forall v t f q, upd v t = Some f -> pT (f q) = pT q) ->
    (forall i t t' p p', linked t t' -> Q t t' -> cParts t !! i = Some p -> cParts t' !! i = Some p' -> twin p p' ->
       opt_rel (fun v v' => match upd v t, upd v' t' with Some f, Some f' => twin (f p) (f' p') | None, None => True | _, _ => False end)
         (l_compute L t i) (l_compute L t' i)) ->
    (forall i t, cParts t !! i = None -> l_compute L t i = None) ->
    (forall i t t' f f', (forall q, pT (f q) = pT q) -> (forall q, pT (f' q) = pT q) -> Q t t' -> Q (upd_part i f t) (upd_part i f' t')) ->
    linked s s' -> Q s s' ->
    opt_rel (fun t t' => linked t t' /\ Q t t' /\ psize t = psize s) (run_loop L n s) (run_loop L n s').
  Proof.
    intros HW HT HC HN HQ H HQ0.
    apply (run_loop_sim L L (fun _ t t' => linked t t' /\ Q t t' /\ psize t = psize s)); [|done].
    clear H HQ0. generalize (psize s) as m. clear s s'. intros m i s s' _ (H & HQ0 & Hsz).
    destruct (linked_at _ _ i H) as [(p & p' & Hp & Hp' & Ht)|[E E']]; [|by rewrite (HN _ _ E), (HN _ _ E')].
    pose proof (HC i s s' p p' H HQ0 Hp Hp' Ht) as HH.
    destruct (l_compute L s i) as [v|], (l_compute L s' i) as [v'|]; cbn [opt_rel] in *; try done.
    rewrite !HW. destruct (upd v s) as [f|] eqn:Ef, (upd v' s') as [f'|] eqn:Ef'; try done. split; [|split].
    - apply linked_upd; [done|by intros; eapply HT|]. intros q q' Hq Hq' _. congruence.
    - apply HQ; [by intros; eapply HT..|done].
    - unfold psize, upd_part. cbn. by rewrite alter_length.
  Qed.

  Lemma move_linked s s' (Q : computer -> computer -> Prop) : linked s s' -> upto_if Knew (psize s) s (cDu s) (cDu s') ->
    (forall i t t' f f', (forall q, pT (f q) = pT q) -> (forall q, pT (f' q) = pT q) -> Q t t' -> Q (upd_part i f t) (upd_part i f' t')) -> Q s s' ->
    opt_rel (fun t t' => linked t t' /\ Q t t' /\ psize t = psize s)
      (run_loop (move_loop cfg wm) (psize s) s) (run_loop (move_loop cfg wm) (psize s) s').
  Proof.
    intros H HD HQ HQ0.
    assert (opt_rel (fun t t' => linked t t' /\ (Q t t' /\ upto_if Knew (psize t) t (cDu t) (cDu t')) /\ psize t = psize s)
      (run_loop (move_loop cfg wm) (psize s) s) (run_loop (move_loop cfg wm) (psize s) s')) as HR.
    2:{ destruct (run_loop _ _ s), (run_loop _ _ s'); cbn in *; try done. tauto. }
    apply (parts_loop_linked (move_loop cfg wm) (fun v _ => Some (fun p => set_U v.2 (set_X v.1 p)))); try done.
    - by intros v _ f q [= <-].
    - intros i t t' p p' Ht [_ HDt] Hp Hp' Htw. cbn [l_compute move_loop]. rewrite Hp, Hp'. cbn [mbind option_bind].
      rewrite (linked_env _ _ Ht), (twin_type _ _ Htw), (al_wall _ _ _ (li_alike _ _ Ht)).
      destruct (is_newton (pT p)) eqn:HN.
      + rewrite (twin_enabled _ _ Htw (new_enabled _ HN)). rewrite (HDt i p); [|by eapply lookup_lt_Some|done|done].
        destruct (cDu t !! i); [|done]. cbn. by left.
      + cbn. destruct Htw as [->|(HL & H1 & H2)]; [by left|by right].
    - intros i t Hi. cbn. by rewrite Hi.
    - intros i t t' f f' Hf Hf' [HQt HDt]. split; [by apply HQ|].
      replace (psize (upd_part i f t)) with (psize t) by (unfold psize, upd_part; cbn; by rewrite alter_length).
      eapply upto_if_types; [|by apply upd_types|done]. intros q q' E. unfold Knew. by rewrite E.
  Qed.

  Definition ecs_agree s s' : Prop := cECS cfg = true -> upto_if Kact (psize s) s (cEcs s) (cEcs s').
  Lemma upd_size i f s : psize (upd_part i f s) = psize s.
  Proof. unfold psize, upd_part. cbn. by rewrite alter_length. Qed.
  Lemma ecs_agree_upd i s s' f f' : (forall q, pT (f q) = pT q) -> ecs_agree s s' -> ecs_agree (upd_part i f s) (upd_part i f' s').
  Proof.
    intros Hf H HE. rewrite upd_size. eapply upto_if_types; [|by apply upd_types|by apply H].
    intros q q' E. unfold Kact. by rewrite E.
  Qed.
  Lemma explicit_linked s s' : linkedN (psize s) s s' -> ecs_agree s s' ->
    opt_rel (fun t t' => linked t t' /\ ecs_agree t t') (compute_explicit s) (compute_explicit s').
  Proof.
    intros H HE. unfold compute_explicit. rewrite (linked_size _ _ (proj1 H)). eapply opt_rel_bind.
    - apply (accel_linked s s' ecs_agree); done.
    - intros t t' ([Ht HN] & HD & HEt). cbv zeta.
      replace (psize (with_wall t' (wPre wm (cWall t') (eT (cEnv t')) (eDt (cEnv t'))))) with (psize t) by (symmetry; apply (linked_size _ _ Ht)).
      replace (psize (with_wall t (wPre wm (cWall t) (eT (cEnv t)) (eDt (cEnv t))))) with (psize t) by done.
      rewrite (linked_env _ _ Ht), (al_wall _ _ _ (li_alike _ _ Ht)).
      pose proof (move_linked (with_wall t (wPre wm (cWall t) (eT (cEnv t)) (eDt (cEnv t))))
        (with_wall t' (wPre wm (cWall t) (eT (cEnv t)) (eDt (cEnv t)))) ecs_agree) as HM.
      specialize (HM (linked_wall _ _ _ Ht) HD). specialize (HM ltac:(intros; by apply ecs_agree_upd) HEt).
      change (psize (with_wall t _)) with (psize t) in HM.
      eapply opt_rel_mono; [|exact HM]. cbv beta. by intros u u' (? & ? & _).
  Qed.

  (** The densities phase keeps the corrections. *)
  Lemma dens_ecs s t : compute_densities s = Some t -> cEcs t = cEcs s.
  Proof. intros H. by rewrite (dens_rest _ _ H). Qed.
  Lemma phase_types s t : phase_rel s t -> forall j, pT <$> cParts t !! j = pT <$> cParts s !! j.
  Proof. intros H j. rewrite <- !list_lookup_fmap. by rewrite (pr_types _ _ H). Qed.
  Lemma ecs_agree_phase s s' t t' : ecs_agree s s' -> phase_rel s t -> cEcs t = cEcs s -> cEcs t' = cEcs s' -> ecs_agree t t'.
  Proof.
    intros H HP E E' HE. rewrite E, E', (pr_size _ _ HP). eapply upto_if_types; [|by apply phase_types|by apply H].
    intros q q' Eq. unfold Kact. by rewrite Eq.
  Qed.

  (** *** Saved positions *)
  Definition orig_agree s s' : Prop := cDS cfg = true -> upto_if Kact (psize s) s (cOrigX s) (cOrigX s').
  Lemma savex_linked s s' : linkedN (psize s) s s' ->
    opt_rel (fun t t' => linkedN (psize t) t t' /\ upto_if Kact (psize t) t (cOrigX t) (cOrigX t')) (save_x s) (save_x s').
  Proof.
    intros H. unfold save_x. rewrite (linked_size _ _ (proj1 H)).
    assert (opt_rel (fun t t' => (linkedN (psize t) t t' /\ upto_if Kact (psize s) t (cOrigX t) (cOrigX t')) /\ psize t = psize s)
      (run_loop (savex_loop cfg wm) (psize s) s) (run_loop (savex_loop cfg wm) (psize s) s')) as HR.
    2:{ destruct (run_loop _ _ s), (run_loop _ _ s'); cbn in *; try done. destruct HR as [? E]. by rewrite E in *. }
    apply (run_loop_sim _ _ (fun m t t' => (linkedN (psize t) t t' /\ upto_if Kact m t (cOrigX t) (cOrigX t')) /\ psize t = psize s)).
    2:{ split; [|done]. split; [done|]. intros j p Hj. lia. }
    clear H. generalize (psize s) as n. clear s s'. intros n i s s' _ ((H & HU) & Hsz). cbn [l_compute savex_loop].
    destruct (linked_at _ _ i (proj1 H)) as [(p & p' & Hp & Hp' & Ht)|[-> ->]]; [|done].
    rewrite Hp, Hp'. cbn [mbind option_bind]. rewrite (twin_type _ _ Ht).
    destruct (is_active (pT p)) eqn:HA.
    - rewrite (twin_enabled _ _ Ht (act_enabled _ HA)).
      destruct (both_bound _ _ i (li_orig _ _ (proj1 H))) as [(x & x' & -> & ->)|[-> ->]]; [|done].
      cbn [mbind option_bind opt_rel l_write savex_loop]. split; [split|done].
      + destruct H as [H HN]. split; [|done]. apply linked_orig; rewrite ?insert_length; try done. apply H.
      + apply upto_if_insert; [apply H|done].
    - cbn [opt_rel l_write savex_loop]. split; [split|done]; [done|]. by eapply upto_if_skip.
  Qed.

  (** *** Pressure equation *)
  Lemma excluded_twin env p p' : twin p p' -> ppe_excluded env p' = ppe_excluded env p.
  Proof.
    intros [->|(HL & H1 & H2)]; [done|]. unfold ppe_excluded. by rewrite H1, H2.
  Qed.
  Lemma excluded_enabled env p : ppe_excluded env p = false -> enabled p.
  Proof. unfold ppe_excluded. destruct (is_active (pT p)) eqn:HA; [|done]. intros _. by apply act_enabled. Qed.

  Definition kept s s' : Prop := ecs_agree s s' /\ orig_agree s s'.
  Lemma kept_phase s s' t t' : kept s s' -> phase_rel s t -> cEcs t = cEcs s -> cEcs t' = cEcs s' ->
    cOrigX t = cOrigX s -> cOrigX t' = cOrigX s' -> kept t t'.
  Proof.
    intros [HE HO] HP E E' F F'. split; [by eapply ecs_agree_phase|].
    intros HD. rewrite F, F', (pr_size _ _ HP). eapply upto_if_types; [|by apply phase_types|by apply HO].
    intros q q' Eq. unfold Kact. by rewrite Eq.
  Qed.

  Lemma rhs_linked n s s' : linkedN (psize s) s s' -> kept s s' -> n = psize s ->
    length (cXv s) = length (cXv s') -> length (cBv s) = length (cBv s') ->
    opt_rel (fun t t' => linkedN (psize t) t t' /\ kept t t' /\ upto n (cXv t) (cXv t') /\ upto n (cBv t) (cBv t'))
      (run_loop (rhs_loop cfg wm) n s) (run_loop (rhs_loop cfg wm) n s').
  Proof.
    intros H HK -> HX HB.
    pose (R m t t' := (linkedN (psize t) t t' /\ kept t t' /\ length (cXv t) = length (cXv t') /\ length (cBv t) = length (cBv t') /\
       upto m (cXv t) (cXv t') /\ upto m (cBv t) (cBv t'))).
    assert (opt_rel (R (psize s)) (run_loop (rhs_loop cfg wm) (psize s) s) (run_loop (rhs_loop cfg wm) (psize s) s')) as HR.
    2:{ unfold R in HR. destruct (run_loop _ _ s), (run_loop _ _ s'); cbn in *; try done. tauto. }
    apply (run_loop_sim _ _ R).
    2:{ unfold R. do 4 (split; [done|]). split; intros j Hj; lia. }
    clear H HK HX HB. generalize (psize s) as n. clear s s'. intros n i s s' _ ([H HN] & HK & HX & HB & UX & UB). cbn [l_compute rhs_loop].
    assert (forall v, R (1 + i)%nat (l_write (rhs_loop cfg wm) i v s) (l_write (rhs_loop cfg wm) i v s')) as HW.
    { intros v. cbn. unfold R. cbn. split; [split; [by apply linked_ppe|done]|]. split; [done|]. rewrite !insert_length.
      do 2 (split; [done|]). split; by apply upto_insert. }
    destruct (linked_at _ _ i H) as [(p & p' & Hp & Hp' & Ht)|[-> ->]]; [|done].
    rewrite Hp, Hp'. cbn [mbind option_bind]. rewrite (linked_env _ _ H).
    destruct (both_bound _ _ i (eq_sym HB)) as [(x & x' & -> & ->)|[-> ->]]; [|done]. cbn [mbind option_bind].
    destruct (both_bound _ _ i (eq_sym HX)) as [(y & y' & -> & ->)|[-> ->]]; [|done]. cbn [mbind option_bind].
    rewrite (excluded_twin _ _ _ Ht). destruct (ppe_excluded (cEnv s) p) eqn:HEx; [apply HW|].
    pose proof (excluded_enabled _ _ HEx) as HEn. rewrite (speed_linked s s' i p) by done. rewrite (twin_enabled _ _ Ht HEn).
    destruct (density_speed s i); [|done]. cbn [mbind option_bind].
    destruct (cECS cfg) eqn:HC; [|apply HW].
    assert (cEcs s' !! i = cEcs s !! i) as ->.
    { eapply (proj1 HK HC); [by eapply lookup_lt_Some|done|]. unfold Kact, ppe_excluded in *. by destruct (is_active (pT p)). }
    destruct (cEcs s !! i); [|done]. apply HW.
  Qed.
  Lemma matrix_linked n s s' : linkedN (psize s) s s' -> kept s s' -> n = psize s -> length (cA s) = length (cA s') ->
    cXv s' = cXv s -> cBv s' = cBv s ->
    opt_rel (fun t t' => linkedN (psize t) t t' /\ kept t t' /\ length (cA t) = length (cA t') /\ upto n (cA t) (cA t') /\ cXv t' = cXv t /\ cBv t' = cBv t)
      (run_loop (matrix_loop cfg wm) n s) (run_loop (matrix_loop cfg wm) n s').
  Proof.
    intros H HK -> HA HX HB.
    pose (R m t t' := (linkedN (psize t) t t' /\ kept t t' /\ length (cA t) = length (cA t') /\ upto m (cA t) (cA t') /\ cXv t' = cXv t /\ cBv t' = cBv t)).
    apply (run_loop_sim _ _ R).
    2:{ unfold R. do 3 (split; [done|]). split; [|done]. intros j Hj. lia. }
    clear H HK HA HX HB. generalize (psize s) as n. clear s s'. intros n i s s' _ ([H HN] & HK & HA & UA & HX & HB). cbn [l_compute matrix_loop].
    assert (forall v, R (1 + i)%nat (l_write (matrix_loop cfg wm) i v s) (l_write (matrix_loop cfg wm) i v s')) as HW.
    { intros v. cbn. unfold R. cbn. split; [split; [by apply linked_ppe|done]|]. split; [done|]. rewrite !insert_length.
      do 1 (split; [done|]). split; [|done]. by apply upto_insert. }
    destruct (linked_at _ _ i H) as [(p & p' & Hp & Hp' & Ht)|[-> ->]]; [|done].
    rewrite Hp, Hp'. cbn [mbind option_bind]. rewrite (linked_env _ _ H).
    destruct (both_bound _ _ i (eq_sym HA)) as [(x & x' & -> & ->)|[-> ->]]; [|done]. cbn [mbind option_bind].
    rewrite (excluded_twin _ _ _ Ht), <- HA. destruct (ppe_excluded (cEnv s) p) eqn:HEx.
    { cbn [mbind option_bind]. destruct (forallb _ _); [|done]. apply HW. }
    pose proof (excluded_enabled _ _ HEx) as HEn. rewrite (twin_enabled _ _ Ht HEn).
    rewrite (acc_linked_same s s' i p); [|done|done|done|]. 2:{ intros _. apply HN. by eapply lookup_lt_Some. }
    destruct (acc s i _ _ _) as [a|]; [|done]. cbn [mbind option_bind]. destruct (forallb _ _); [|done]. apply HW.
  Qed.
  Lemma set_ppe_linked s s' : P_Search.wf s -> P_Search.wf s' -> linkedN (psize s) s s' -> kept s s' ->
    opt_rel (fun t t' => linkedN (psize t) t t' /\ kept t t' /\ cA t' = cA t /\ cXv t' = cXv t /\ cBv t' = cBv t) (set_ppe s) (set_ppe s').
  Proof.
    intros HW HW' H HK. rewrite !set_ppe_unfold. rewrite (linked_size _ _ (proj1 H)).
    destruct (resized_lengths s HW) as (L1 & L2 & L3). destruct (resized_lengths s' HW') as (M1 & M2 & M3).
    rewrite (linked_size _ _ (proj1 H)) in M1, M2, M3.
    assert (psize (resized s) = psize s) as Hsz by (apply (pr_size _ _ (resized_pr s))).
    assert (linkedN (psize (resized s)) (resized s) (resized s') /\ kept (resized s) (resized s')) as [HR HKR].
    { rewrite Hsz. unfold resized. destruct H as [H HN].
      destruct (_ =? _)%nat, (_ =? _)%nat; (split; [split; [li H|done]|done]). }
    pose proof (rhs_linked (psize s) (resized s) (resized s') HR HKR (eq_sym Hsz) ltac:(congruence) ltac:(congruence)) as H1.
    destruct (run_loop (rhs_loop cfg wm) (psize s) (resized s)) as [t|] eqn:E, (run_loop (rhs_loop cfg wm) (psize s) (resized s')) as [t'|] eqn:E';
      cbn [opt_rel mbind option_bind] in *; try done.
    destruct H1 as (HL & HKt & UX & UB).
    destruct (rhs_lengths _ _ _ E) as (LA & LX & LB). destruct (rhs_lengths _ _ _ E') as (MA & MX & MB).
    assert (psize t = psize s) as Hst by (rewrite (pr_size _ _ (rhs_pr _ _ _ E)); done).
    apply upto_all in UX; [|congruence|lia]. apply upto_all in UB; [|congruence|lia].
    pose proof (matrix_linked (psize s) t t' HL HKt (eq_sym Hst) ltac:(congruence) UX UB) as H2.
    destruct (run_loop (matrix_loop cfg wm) (psize s) t) as [u|] eqn:F, (run_loop (matrix_loop cfg wm) (psize s) t') as [u'|] eqn:F';
      cbn [opt_rel] in *; try done.
    destruct H2 as (HLu & HKu & LAu & UA & HX & HB). split; [done|]. split; [done|]. split; [|done].
    apply upto_all in UA; [done|done|].
    assert (length (cA u) = length (cA t)) as ->; [|rewrite LA; lia].
    eapply (run_loop_frame (matrix_loop cfg wm) (fun c => length (cA c))); [|exact F]. intros j v c _. cbn. by rewrite insert_length.
  Qed.
  Lemma solve_linked s s' : linkedN (psize s) s s' -> kept s s' -> cA s' = cA s -> cXv s' = cXv s -> cBv s' = cBv s ->
    same_kind (fun t t' => linkedN (psize t) t t' /\ kept t t' /\ cXv t' = cXv t) (fun _ => alike) (solve_ppe s) (solve_ppe s').
  Proof.
    intros [H HN] HK HA HX HB. unfold solve_ppe. rewrite HA, HX, HB, (al_eps _ _ _ (li_alike _ _ H)).
    destruct (cg_solve _ _ _ _).2.
    - split; [split; [by apply linked_ppe|done]|]. done.
    - split; [done|]. split; apply H.
  Qed.
  Lemma nws_upd i s s' f f' : upto (psize s) (cNws s) (cNws s') -> upto (psize (upd_part i f s)) (cNws (upd_part i f s)) (cNws (upd_part i f' s')).
  Proof. by rewrite upd_size. Qed.
  Definition orig_upd i s s' f f' : (forall q, pT (f q) = pT q) -> orig_agree s s' -> orig_agree (upd_part i f s) (upd_part i f' s').
  Proof.
    intros Hf H HE. rewrite upd_size. eapply upto_if_types; [|by apply upd_types|by apply H].
    intros q q' E. unfold Kact. by rewrite E.
  Qed.
  Lemma assign_linked n s s' : linkedN (psize s) s s' -> kept s s' -> cXv s' = cXv s ->
    opt_rel (fun t t' => linkedN (psize t) t t' /\ kept t t') (run_loop (assign_loop cfg wm) n s) (run_loop (assign_loop cfg wm) n s').
  Proof.
    intros [H HN] HK HX. eapply opt_rel_mono.
    2:{ apply (parts_loop_linked (assign_loop cfg wm) (fun v _ => set_P <$> v)
          (fun t t' => (upto (psize t) (cNws t) (cNws t') /\ kept t t') /\ cXv t' = cXv t)); [| | | | |done|done].
        - intros i v t. by destruct v.
        - intros v t f q. destruct v; [|done]. by intros [= <-].
        - intros i t t' p p' Ht [_ HXt] Hp Hp' Htw. cbn [l_compute assign_loop]. rewrite Hp, Hp'. cbn [mbind option_bind].
          rewrite (linked_env _ _ Ht), (twin_type _ _ Htw), HXt. destruct (is_active (pT p)) eqn:HA; [|done].
          rewrite (twin_enabled _ _ Htw (act_enabled _ HA)). destruct (cXv t !! i); [|done]. cbn. by left.
        - intros i t Hi. cbn. by rewrite Hi.
        - intros i t t' f f' Hf Hf' [[HNt [HE HO]] HXt]. split; [|done]. split; [by apply nws_upd|]. split; [by apply ecs_agree_upd|by apply orig_upd]. }
    cbv beta. intros t t' (Ht & [[? ?] ?] & _). done.
  Qed.
  Lemma explicitp_linked n s s' : linkedN (psize s) s s' -> kept s s' ->
    opt_rel (fun t t' => linkedN (psize t) t t' /\ kept t t') (run_loop (explicit_loop cfg wm) n s) (run_loop (explicit_loop cfg wm) n s').
  Proof.
    intros [H HN] HK. eapply opt_rel_mono.
    2:{ apply (parts_loop_linked (explicit_loop cfg wm) (fun v _ => Some (set_P v))
          (fun t t' => upto (psize t) (cNws t) (cNws t') /\ kept t t')); [| | | | |done|done].
        - done.
        - by intros v t f q [= <-].
        - intros i t t' p p' Ht _ Hp Hp' Htw. cbn [l_compute explicit_loop]. rewrite Hp, Hp'. cbn [mbind option_bind].
          rewrite (linked_env _ _ Ht). cbn. destruct Htw as [->|(HL & H1 & H2)]; [by left|by right].
        - intros i t Hi. cbn. by rewrite Hi.
        - intros i t t' f f' Hf Hf' [HNt [HE HO]]. split; [by apply nws_upd|]. split; [by apply ecs_agree_upd|by apply orig_upd]. }
    cbv beta. intros t t' (Ht & [? ?] & _). done.
  Qed.

  (** *** Velocity changes *)
  Lemma du_loop_linked (L : ploop computer (option V)) s s' :
    (forall i v t, l_write L i v t = match v with Some a => with_du t (<[i := a]> (cDu t)) | None => t end) ->
    (forall i t, cParts t !! i = None -> l_compute L t i = None) ->
    (forall i t t' p, linkedN (psize t) t t' -> kept t t' -> cParts t !! i = Some p -> pT p = Newton ->
       l_compute L t' i = l_compute L t i /\ l_compute L t i <> Some None) ->
    (forall i t p, cParts t !! i = Some p -> pT p <> Newton -> l_compute L t i = Some None) ->
    linkedN (psize s) s s' -> kept s s' ->
    opt_rel (fun t t' => linkedN (psize t) t t' /\ kept t t' /\ upto_if Knew (psize t) t (cDu t) (cDu t')) (run_loop L (psize s) s) (run_loop L (psize s) s').
  Proof.
    intros HW HN HC HC' H HK.
    assert (opt_rel (fun t t' => (linkedN (psize t) t t' /\ kept t t' /\ upto_if Knew (psize s) t (cDu t) (cDu t')) /\ psize t = psize s)
      (run_loop L (psize s) s) (run_loop L (psize s) s')) as HR.
    2:{ eapply opt_rel_mono; [|exact HR]. cbv beta. intros t t' [HA E]. rewrite <- E in HA. done. }
    apply (run_loop_sim L L (fun m t t' => (linkedN (psize t) t t' /\ kept t t' /\ upto_if Knew m t (cDu t) (cDu t')) /\ psize t = psize s)).
    2:{ split; [|done]. do 2 (split; [done|]). intros j p Hj. lia. }
    clear H HK. generalize (psize s) as n. clear s s'. intros n i s s' _ ((H & HK & HU) & Hsz).
    destruct (linked_at _ _ i (proj1 H)) as [(p & p' & Hp & Hp' & Ht)|[E E']]; [|by rewrite (HN _ _ E), (HN _ _ E')].
    destruct (decide (pT p = Newton)) as [HT|HT].
    - destruct (HC i s s' p H HK Hp HT) as [-> Hne]. destruct (l_compute L s i) as [[a|]|]; cbn [opt_rel]; [|done|done].
      rewrite !HW. split; [|done]. split; [|split].
      + destruct H as [H HNw]. split; [|done]. apply linked_du; rewrite ?insert_length; try done. apply H.
      + done.
      + apply upto_if_insert; [apply H|done].
    - rewrite (HC' i s p), (HC' i s' p') by (try done; by rewrite (twin_type _ _ Ht)). cbn [opt_rel]. rewrite !HW.
      split; [|done]. do 2 (split; [done|]). eapply upto_if_skip; [done|done|]. unfold Knew. destruct (pT p); done.
  Qed.
  Lemma grad_linked s s' : linkedN (psize s) s s' -> kept s s' ->
    opt_rel (fun t t' => linkedN (psize t) t t' /\ kept t t' /\ upto_if Knew (psize t) t (cDu t) (cDu t'))
      (run_loop (grad_loop cfg wm) (psize s) s) (run_loop (grad_loop cfg wm) (psize s) s').
  Proof.
    apply du_loop_linked; [done| | |].
    - intros i t Hi. cbn. by rewrite Hi.
    - clear s s'. intros i s s' p [H HN] HK Hp HT. cbn [l_compute grad_loop].
      assert (enabled p) as HE by (unfold enabled; congruence).
      assert (cNws s' !! i = cNws s !! i) as HNi by (apply HN; by eapply lookup_lt_Some).
      rewrite (linked_enabled _ _ _ _ H Hp HE), Hp. cbn [mbind option_bind]. rewrite HT. cbn [is_newton]. rewrite (linked_env _ _ H).
      rewrite (acc_linked_same s s' i p mzero madd), (acc_linked_same s s' i p vzero vadd (grad_func _ _ _)) by done.
      destruct (both_bound _ _ i (li_du _ _ H)) as [(x & x' & -> & ->)|[-> ->]].
      + destruct (cGC cfg).
        * destruct (acc s i mzero madd _); [|done]. cbn [mbind option_bind].
          rewrite (acc_linked_same s s' i p) by done. by destruct (acc s i vzero vadd _).
        * by destruct (acc s i vzero vadd _).
      + destruct (cGC cfg).
        * destruct (acc s i mzero madd _); [|done]. cbn [mbind option_bind].
          rewrite (acc_linked_same s s' i p) by done. by destruct (acc s i vzero vadd _).
        * by destruct (acc s i vzero vadd _).
    - intros i t p Hp HT. cbn. rewrite Hp. cbn. destruct (pT p); done.
  Qed.
  Lemma ds_linked s s' : cDS cfg = true -> linkedN (psize s) s s' -> kept s s' ->
    opt_rel (fun t t' => linkedN (psize t) t t' /\ kept t t' /\ upto_if Knew (psize t) t (cDu t) (cDu t'))
      (run_loop (ds_loop cfg wm) (psize s) s) (run_loop (ds_loop cfg wm) (psize s) s').
  Proof.
    intros HDS. apply du_loop_linked; [done| | |].
    - intros i t Hi. cbn. by rewrite Hi.
    - clear s s'. intros i s s' p [H HN] HK Hp HT. cbn [l_compute ds_loop].
      assert (enabled p) as HE by (unfold enabled; congruence).
      rewrite (linked_enabled _ _ _ _ H Hp HE), Hp. cbn [mbind option_bind]. rewrite HT. cbn [is_newton]. rewrite (linked_env _ _ H).
      assert (forall j q, cParts s !! j = Some q -> is_active (pT q) = true -> cOrigX s' !! j = cOrigX s !! j) as HO.
      { intros j q Hq HA. eapply (proj2 HK HDS); [by eapply lookup_lt_Some|done|done]. }
      rewrite (HO i p Hp) by (by rewrite HT). destruct (cOrigX s !! i) as [x0|]; [|done]. cbn [mbind option_bind].
      set (dd := (eL0 (cEnv s) -. eMaxDx (cEnv s)) ×. (eL0 (cEnv s) -. eMaxDx (cEnv s))).
      rewrite (acc_linked s s' i p _ _ (ds_func s x0 (pX p) dd) (ds_func s' x0 (pX p) dd)); [|done|done|done| | |].
      + destruct (acc s i _ _ _) as [[a|]|]; [|done|done]. cbn [mbind option_bind].
        by destruct (both_bound _ _ i (li_du _ _ H)) as [(x & x' & -> & ->)|[-> ->]].
      + intros _. apply HN. by eapply lookup_lt_Some.
      + intros j q Hq Heq. unfold ds_func. destruct (is_dummy (pT q)) eqn:HD; [done|]. destruct (negb false && _); [|done].
        destruct (_ <?. _); [|done]. rewrite Nat2Z.id, (HO j q Hq); [done|]. unfold is_active. rewrite HD. unfold enabled in Heq. by destruct (pT q).
      + intros HS q HTq. unfold ds_func. by rewrite HTq, HS.
    - intros i t p Hp HT. cbn. rewrite Hp. cbn. destruct (pT p); done.
  Qed.
  Lemma kick_linked n s s' : linkedN (psize s) s s' -> kept s s' -> upto_if Knew (psize s) s (cDu s) (cDu s') ->
    opt_rel (fun t t' => linkedN (psize t) t t' /\ kept t t') (run_loop (kick_loop cfg wm) n s) (run_loop (kick_loop cfg wm) n s').
  Proof.
    intros [H HN] HK HD. eapply opt_rel_mono.
    2:{ apply (parts_loop_linked (kick_loop cfg wm) (fun v t => (fun a p => set_X (pX p +^ vscalr a (eDt (cEnv t))) (set_U (pU p +^ a) p)) <$> v)
          (fun t t' => (upto (psize t) (cNws t) (cNws t') /\ kept t t') /\ upto_if Knew (psize t) t (cDu t) (cDu t'))); [| | | | |done|done].
        - intros i v t. by destruct v.
        - intros v t f q. destruct v; [|done]. by intros [= <-].
        - intros i t t' p p' Ht [_ HDt] Hp Hp' Htw. cbn [l_compute kick_loop]. rewrite Hp, Hp'. cbn [mbind option_bind].
          rewrite (twin_type _ _ Htw). destruct (is_newton (pT p)) eqn:HA; [|done].
          rewrite (twin_enabled _ _ Htw (new_enabled _ HA)). rewrite (HDt i p); [|by eapply lookup_lt_Some|done|done].
          destruct (cDu t !! i); [|done]. cbn [mbind option_bind opt_rel fmap option_fmap option_map]. rewrite (linked_env _ _ Ht). by left.
        - intros i t Hi. cbn. by rewrite Hi.
        - intros i t t' f f' Hf Hf' [[HNt [HE HO]] HDt]. split; [|].
          + split; [by apply nws_upd|]. split; [by apply ecs_agree_upd|by apply orig_upd].
          + rewrite upd_size. eapply upto_if_types; [|by apply upd_types|done]. intros q q' E. unfold Knew. by rewrite E. }
    cbv beta. intros t t' (Ht & [[? ?] ?] & _). done.
  Qed.
  Lemma gradient_linked s s' : linkedN (psize s) s s' -> kept s s' ->
    opt_rel (fun t t' => linkedN (psize t) t t' /\ kept t t') (modify_by_gradient s) (modify_by_gradient s').
  Proof.
    intros H HK. unfold modify_by_gradient. rewrite (linked_size _ _ (proj1 H)). eapply opt_rel_bind; [by apply grad_linked|].
    intros t t' (Ht & HKt & HD). rewrite (linked_size _ _ (proj1 Ht)). by apply kick_linked.
  Qed.
  Lemma stabilize_linked s s' : cDS cfg = true -> linkedN (psize s) s s' -> kept s s' ->
    opt_rel (fun t t' => linkedN (psize t) t t' /\ kept t t') (stabilize s) (stabilize s').
  Proof.
    intros HD H HK. unfold stabilize. rewrite (linked_size _ _ (proj1 H)). eapply opt_rel_bind; [by apply ds_linked|].
    intros t t' (Ht & HKt & HDu). rewrite (linked_size _ _ (proj1 Ht)). by apply kick_linked.
  Qed.
  Lemma implicit_linked s s' : P_Search.wf s -> P_Search.wf s' -> linkedN (psize s) s s' -> kept s s' ->
    same_kind (fun t t' => linkedN (psize t) t t' /\ kept t t') (fun _ => alike) (compute_implicit s) (compute_implicit s').
  Proof.
    intros HW HW' H HK. unfold compute_implicit. rewrite (linked_size _ _ (proj1 H)).
    apply (same_kind_bind (fun t t' => linkedN (psize t) t t' /\ kept t t')).
    - destruct (cExplicit cfg); [by apply same_kind_opt, explicitp_linked|].
      apply (same_kind_bind (fun t t' => linkedN (psize t) t t' /\ kept t t' /\ cXv t' = cXv t)).
      + eapply same_kind_bind; [by apply same_kind_opt, set_ppe_linked|]. cbv beta. intros t t' (Ht & HKt & HA & HX & HB). by apply solve_linked.
      + intros t t' (Ht & HKt & HX). rewrite (linked_size _ _ (proj1 Ht)). by apply same_kind_opt, assign_linked.
    - intros t t' [Ht HKt]. by apply same_kind_opt, gradient_linked.
  Qed.

  (** ** The search *)
  Record same_grid (g g' : grid) : Prop := {
    sg_wf : grid_wf g; sg_wf' : grid_wf g'; sg_ok : counts_ok g; sg_ok' : counts_ok g';
    sg_geom : same_geom g g'; sg_cont : forall k, contents g' k = contents g k
  }.
  Lemma same_grid_step g g' h h' : same_grid g g' -> grid_wf h -> grid_wf h' -> counts_ok h -> counts_ok h' ->
    is_empty_like g h -> is_empty_like g' h' -> (forall k, contents h' k = contents h k) -> same_grid h h'.
  Proof.
    intros H ???? H1 H2 ?. split; try done. apply is_empty_like_geom in H1, H2. destruct H as [_ _ _ _ HG _].
    unfold same_geom in *. intuition congruence.
  Qed.
  Definition pre s s' : Prop := alike s s' /\ same_grid (cGrid s) (cGrid s').
  Lemma store_one_pre s s' i : pre s s' -> same_kind pre (fun e t t' => e = TooManyParticles /\ alike t t') (store_one s i) (store_one s' i).
  Proof.
    intros [H HG]. unfold store_one. destruct (twins_at _ _ i (al_parts _ _ _ H)) as [(p & p' & Hp & Hp' & Ht)|[-> ->]]; [|done].
    rewrite Hp, Hp', (twin_type _ _ Ht). destruct (is_disabled (pT p)) eqn:HD; [done|]. apply is_disabled_false in HD.
    rewrite (twin_enabled _ _ Ht HD).
    pose proof (store_correct (cGrid s) (pX p) i (sg_wf _ _ HG) (sg_ok _ _ HG)) as H1.
    pose proof (store_correct (cGrid s') (pX p) i (sg_wf' _ _ HG) (sg_ok' _ _ HG)) as H2.
    destruct (sg_geom _ _ HG) as (G1 & G2 & G3 & G4).
    assert (block_of d (cGrid s') (pX p) = block_of d (cGrid s) (pX p)) as EB by (apply same_geom_block, HG).
    inversion H1 as [B1|b B1 R1|b g B1 R1 C1 W1 I1|b g B1 R1 C1 W1 K1 I1 D1];
      inversion H2 as [B2|b' B2 R2|b' g' B2 R2 C2 W2 I2|b' g' B2 R2 C2 W2 K2 I2 D2]; subst; try done; try congruence;
      try (assert (b' = b) as -> by congruence); try (rewrite G3 in R2; congruence);
      try (rewrite (sg_cont _ _ HG) in C2; exfalso; lia).
    - split; [|done]. split; try by apply H. cbn. apply Forall2_insert; [apply H|]. by left.
    - split; [done|]. split; [done|]. split; apply H.
    - split; [split; apply H|]. cbn. apply (same_grid_step _ _ _ _ HG); try done. intros k. rewrite D1, D2. rewrite !(sg_cont _ _ HG). done.
  Qed.
  Lemma store_all_pre l s s' : pre s s' -> same_kind pre (fun e t t' => e = TooManyParticles /\ alike t t') (store_all l s) (store_all l s').
  Proof.
    revert s s'. induction l as [|i l IH]; intros s s' H; [done|]. cbn [store_all].
    eapply same_kind_bind; [by apply store_one_pre|]. intros t t' Ht. by apply IH.
  Qed.

  Lemma searched_linked s s' t t' : alike s s' -> P_Search.wf s -> P_Search.wf s' -> same_geom (cGrid s) (cGrid s') ->
    searched s t -> searched s' t' -> linked t t'.
  Proof.
    intros H HW HW' HG S S'.
    assert (forall x, in_grid (cGrid s') x = in_grid (cGrid s) x) as HI by (intros; by apply same_geom_in_grid).
    assert (Forall2 twin (cParts t) (cParts t')) as HP.
    { rewrite (se_parts _ _ S), (se_parts _ _ S'). apply Forall2_fmap_2. eapply Forall2_impl; [apply H|].
      intros p p' Htw. unfold leave. rewrite (twin_type _ _ Htw). destruct (is_disabled (pT p)) eqn:HD; [done|].
      apply is_disabled_false in HD. rewrite (twin_enabled _ _ Htw HD), HI. by left. }
    assert (alike t t') as HA.
    { split; [done|..]; rewrite (se_rest _ _ S), (se_rest _ _ S'); cbn; apply H. }
    assert (forall k, contents (cGrid t') k = contents (cGrid t) k) as HC.
    { intros k. rewrite (se_contents _ _ S), (se_contents _ _ S'). rewrite (alike_size _ _ H). unfold bfilter.
      apply list_filter_iff. intros j. unfold home. destruct HG as (G1 & G2 & G3 & G4).
      destruct (twins_at _ _ j (al_parts _ _ _ H)) as [(p & p' & -> & -> & Ht)|[-> ->]]; [|done].
      rewrite (twin_type _ _ Ht). destruct (is_disabled (pT p)) eqn:HD; [done|]. apply is_disabled_false in HD.
      rewrite (twin_enabled _ _ Ht HD), G3. rewrite (same_geom_block (cGrid s) (cGrid s')) by done. done. }
    assert (same_geom (cGrid t) (cGrid t')) as HGt.
    { pose proof (se_geom _ _ S). pose proof (se_geom _ _ S'). unfold same_geom in *. intuition congruence. }
    assert (forall i p, found t' i p = found t i p) as HF.
    { intros i p. unfold found. rewrite (same_geom_block (cGrid t) (cGrid t')) by done.
      destruct (block_of d (cGrid t) (pX p)) as [b|]; [|done].
      assert (around_contents (cGrid t') b = around_contents (cGrid t) b) as ->.
      { unfold around_contents. f_equal. apply map_ext. intros k. unfold cont. destruct HGt as (_ & _ & -> & _). by rewrite HC. }
      unfold bfilter. apply list_filter_iff. intros j. unfold near_test. rewrite (al_env _ _ _ HA).
      destruct (j =? i)%nat; [done|]. destruct (twins_at _ _ j HP) as [(q & q' & -> & -> & Ht)|[-> ->]]; [|done].
      rewrite (twin_type _ _ Ht). destruct (is_disabled (pT q)) eqn:HD; [done|]. apply is_disabled_false in HD.
      by rewrite (twin_enabled _ _ Ht HD). }
    split.
    - done.
    - intros i p Hp He. pose proof (twins_enabled _ _ _ _ HP Hp He) as Hp'. apply is_disabled_false in He.
      destruct (se_rows _ _ S i p Hp He) as (row & _ & _ & Hr). destruct (se_rows _ _ S' i p Hp' He) as (row' & _ & _ & Hr').
      exists (found t i p). split; [by eapply row_read|]. split; [rewrite HF in Hr'; by eapply row_read|].
      intros j Hj. unfold found in Hj. destruct (block_of _ _ _) as [b|]; [|by apply elem_of_nil in Hj].
      apply elem_of_bfilter in Hj as [Hj _]. unfold near_test in Hj. destruct (cParts t !! j) as [q|]; [|by rewrite andb_false_r in Hj].
      exists q. split; [done|]. apply andb_true_iff in Hj as [_ Hj]. apply andb_true_iff in Hj as [Hj _].
      apply negb_true_iff in Hj. by apply is_disabled_false.
    - rewrite (se_rest _ _ S), (se_rest _ _ S'). cbn. rewrite (wf_du _ HW), (wf_du _ HW'). by apply alike_size.
    - rewrite (se_rest _ _ S), (se_rest _ _ S'). cbn. rewrite (wf_ecs _ HW), (wf_ecs _ HW'). by apply alike_size.
    - rewrite (se_rest _ _ S), (se_rest _ _ S'). cbn. rewrite (wf_origx _ HW), (wf_origx _ HW'). by apply alike_size.
    - rewrite (se_rest _ _ S), (se_rest _ _ S'). cbn. rewrite (wf_nws _ HW), (wf_nws _ HW'). by apply alike_size.
  Qed.

  Lemma search_linked s s' : alike s s' -> ok s -> ok s' -> same_geom (cGrid s) (cGrid s') ->
    same_kind (fun t t' => linked t t' /\ P_Search.wf t /\ P_Search.wf t') (fun _ => alike) (search_neighbor s) (search_neighbor s').
  Proof.
    intros H [HW HO] [HW' HO'] HG.
    pose proof (search_spec s HW HO) as S. pose proof (search_spec s' HW' HO') as S'.
    destruct (clear_spec (cGrid s) (wf_grid s HW) HO) as (g & Hc & Hg & _ & Hgc & Hge & Hgz).
    destruct (clear_spec (cGrid s') (wf_grid s' HW') HO') as (g' & Hc' & Hg' & _ & Hgc' & Hge' & Hgz').
    assert (pre (with_grid s g) (with_grid s' g')) as HP.
    { split; [split; apply H|]. cbn. split; try done.
      - apply is_empty_like_geom in Hge, Hge'. unfold same_geom in *. intuition congruence.
      - intros k. by rewrite Hgz, Hgz'. }
    pose proof (store_all_pre (seq 0 (psize s)) _ _ HP) as HS.
    assert (search_neighbor s = (store_all (seq 0 (psize s)) (with_grid s g) >>o (fun s => of_opt (run_loop (neighbor_loop cfg wm) (psize s) s)))) as E
      by (unfold search_neighbor; by rewrite Hc).
    assert (search_neighbor s' = (store_all (seq 0 (psize s)) (with_grid s' g') >>o (fun s => of_opt (run_loop (neighbor_loop cfg wm) (psize s) s)))) as E'
      by (unfold search_neighbor; rewrite Hc'; by rewrite (alike_size _ _ H)).
    rewrite E in S |- *. rewrite E' in S' |- *.
    destruct (store_all _ (with_grid s g)) as [t|e t|] eqn:Et, (store_all _ (with_grid s' g')) as [t'|e' t'|] eqn:Et'; cbn [same_kind obind] in *; try done.
    - destruct (run_loop _ _ t) as [u|]; cbn [of_opt] in *.
      2:{ destruct S as [_ S]. specialize (S g Hc). congruence. }
      destruct (run_loop _ _ t') as [u'|]; cbn [of_opt] in *.
      2:{ destruct S' as [_ S']. specialize (S' g' Hc'). rewrite (alike_size _ _ H) in S'. congruence. }
      split; [exact (searched_linked s s' u u' H HW HW' HG S S')|]. split; [exact (wf_searched s u HW S)|exact (wf_searched s' u' HW' S')].
    - destruct HS as (-> & _ & HA). done.
  Qed.

  (** ** Whole steps *)
  Lemma same_geom_sym (g g' : grid) : same_geom g g' -> same_geom g' g.
  Proof. unfold same_geom. intuition congruence. Qed.
  Lemma inv_same_geom env0 s s' : inv env0 s -> inv env0 s' -> same_geom (cGrid s) (cGrid s').
  Proof.
    intros H H'. destruct (inv_geom _ _ H) as (g & Hg & HG). destruct (inv_geom _ _ H') as (g' & Hg' & HG').
    assert (g' = g) as -> by congruence. eapply same_geom_trans; [by apply same_geom_sym|done].
  Qed.
  (** A step from the first densities on. *)
  Definition after_densities (o : outcome computer) : outcome computer :=
    o >>o
    (fun s => if cECS cfg then of_opt (compute_ecs s) else Done s) >>o
    (fun s => of_opt (compute_explicit s)) >>o
    (fun s => of_opt (compute_densities s)) >>o
    (fun s => if cDS cfg then of_opt (save_x s) else Done s) >>o
    compute_implicit >>o
    (fun s => if cDS cfg then of_opt (stabilize s) else Done s).
  Lemma after_alike (RT : exn -> computer -> computer -> Prop) o o' : (forall e t t', alike t t' -> RT e t t') ->
    same_kind (fun t t' => linkedN (psize t) t t' /\ P_Search.wf t /\ P_Search.wf t') RT o o' ->
    same_kind alike RT (after_densities o) (after_densities o').
  Proof.
    intros HRT Ho. unfold after_densities.
    pose (R t t' := linkedN (psize t) t t' /\ kept t t' /\ P_Search.wf t /\ P_Search.wf t').
    eapply (same_kind_bind (fun t t' => linkedN (psize t) t t' /\ kept t t')).
    2:{ intros t t' [Ht HK]. destruct (cDS cfg) eqn:HD; [|apply Ht].
        eapply (same_kind_impl _ _ (fun _ => alike)); [| |apply same_kind_opt, (stabilize_linked t t' HD Ht HK)]; [|intros; by apply HRT]. cbv beta. intros u u' [Hu _]. apply Hu. }
    eapply (same_kind_bind R).
    2:{ intros t t' (Ht & HK & HWt & HWt'). eapply same_kind_mono; [|by apply implicit_linked]. cbv beta. intros; by apply HRT. }
    eapply (same_kind_bind (fun t t' => linkedN (psize t) t t' /\ ecs_agree t t' /\ P_Search.wf t /\ P_Search.wf t')).
    2:{ intros t t' (Ht & HE & HWt & HWt'). destruct (cDS cfg) eqn:HD.
        - pose proof (savex_linked t t' Ht) as HS.
          destruct (save_x t) as [u|] eqn:Eu, (save_x t') as [u'|] eqn:Eu'; cbn in *; try done. destruct HS as [Hu HOu].
          split; [done|]. split; [split|].
          + eapply ecs_agree_phase; [done|by apply savex_pr|by rewrite (savex_rest _ _ Eu)|by rewrite (savex_rest _ _ Eu')].
          + by intros _.
          + split; [exact (wf_phase _ _ (savex_pr _ _ Eu) HWt)|exact (wf_phase _ _ (savex_pr _ _ Eu') HWt')].
        - cbn. split; [done|]. split; [split; [done|]|done]. unfold orig_agree. congruence. }
    eapply (same_kind_bind (fun t t' => linked t t' /\ ecs_agree t t' /\ P_Search.wf t /\ P_Search.wf t')).
    2:{ intros t t' (Ht & HE & HWt & HWt'). pose proof (dens_linked t t' Ht) as HS.
        destruct (compute_densities t) as [u|] eqn:Eu, (compute_densities t') as [u'|] eqn:Eu'; cbn [of_opt same_kind opt_rel] in *; try done.
        split; [done|]. split; [|split; [exact (wf_phase _ _ (dens_pr _ _ Eu) HWt)|exact (wf_phase _ _ (dens_pr _ _ Eu') HWt')]].
        eapply ecs_agree_phase; [done|by apply dens_pr|by apply dens_ecs|by apply dens_ecs]. }
    eapply (same_kind_bind (fun t t' => linkedN (psize t) t t' /\ ecs_agree t t' /\ P_Search.wf t /\ P_Search.wf t')).
    2:{ intros t t' (Ht & HE & HWt & HWt'). pose proof (explicit_linked t t' Ht HE) as HS.
        destruct (compute_explicit t) as [u|] eqn:Eu, (compute_explicit t') as [u'|] eqn:Eu'; cbn [of_opt same_kind opt_rel] in *; try done.
        destruct HS as [Hu HEu]. split; [done|]. split; [done|]. split; [exact (wf_phase _ _ (explicit_pr _ _ Eu) HWt)|exact (wf_phase _ _ (explicit_pr _ _ Eu') HWt')]. }
    eapply (same_kind_bind (fun t t' => linkedN (psize t) t t' /\ P_Search.wf t /\ P_Search.wf t')).
    2:{ intros t t' (Ht & HWt & HWt'). destruct (cECS cfg) eqn:HC.
        - pose proof (ecs_linked t t' Ht) as HS.
          destruct (compute_ecs t) as [u|] eqn:Eu, (compute_ecs t') as [u'|] eqn:Eu'; cbn [of_opt same_kind opt_rel] in *; try done.
          destruct HS as [Hu HEu]. split; [done|]. split; [by intros _|]. split; [exact (wf_phase _ _ (ecs_pr _ _ Eu) HWt)|exact (wf_phase _ _ (ecs_pr _ _ Eu') HWt')].
        - cbn. split; [done|]. split; [|done]. unfold ecs_agree. congruence. }
    exact Ho.
  Qed.
  Lemma forward_alike env0 dt s s' : square_ground env0 -> inv env0 s -> inv env0 s' -> alike s s' ->
    ends_alike loose (forward_dt dt s) (forward_dt dt s').
  Proof.
    intros Hsq HI HI' H. unfold ends_alike. unfold forward_dt. fold (start_step dt s) (start_step dt s').
    pose proof (inv_ok _ _ Hsq HI) as [HW HO]. pose proof (inv_ok _ _ Hsq HI') as [HW' HO'].
    assert (alike (start_step dt s) (start_step dt s')) as Hs.
    { split; try apply H. cbn. by rewrite (al_env _ _ _ H). }
    apply (after_alike (fun _ => alike) (search_neighbor (start_step dt s) >>o _) (search_neighbor (start_step dt s') >>o _)); [done|].
    eapply (same_kind_bind (fun t t' => linked t t' /\ P_Search.wf t /\ P_Search.wf t')).
    2:{ intros t t' (Ht & HWt & HWt'). pose proof (dens_linked t t' Ht) as HS.
        destruct (compute_densities t) as [u|] eqn:Eu, (compute_densities t') as [u'|] eqn:Eu'; cbn [of_opt same_kind opt_rel] in *; try done.
        split; [done|]. split; [exact (wf_phase _ _ (dens_pr _ _ Eu) HWt)|exact (wf_phase _ _ (dens_pr _ _ Eu') HWt')]. }
    apply search_linked; [done|split; [by apply wf_start|done]..|]. by apply (inv_same_geom env0 s s').
  Qed.
End Obs.

(** ** C57 *)
Section Theorems.
  Context {N : num} {cfg : config} {wm : wallmotion N (cDim cfg)}.
  Notation computer := (computer cfg wm).
  Implicit Types (s : computer).

  (** C57, one step.  Whatever the particles out of use contain: a step of a given length ends the same way, and
      afterwards all particles in use, the environment and the rest of the visible state agree. *)
  Theorem C57_disabled_no_influence env0 dt s s' :
    square_ground env0 -> reachable env0 s -> reachable env0 s' -> alike true s s' ->
    ends_alike true (forward_dt dt s) (forward_dt dt s').
  Proof. intros Hsq Hr Hr' H. by apply (forward_alike true env0); try apply reachable_inv. Qed.

  Lemma alike_add loose src s s' : alike loose s s' -> alike loose (add_particles src s) (add_particles src s').
  Proof.
    intros H. split; try apply H. cbn. apply Forall2_app; [apply H|]. apply Forall2_same_length_lookup_2; [done|].
    intros i x y Hx Hy. left. congruence.
  Qed.
  Lemma ends_final loose (o o' : outcome computer) : ends_alike loose o o' ->
    match final o, final o' with Some t, Some t' => alike loose t t' | None, None => True | _, _ => False end.
  Proof. destruct o, o'; simpl; try done. by intros [_ ?]. Qed.
  Lemma run_alike loose env0 (okop : api (N := N) cfg -> Prop) ops s s' :
    (forall o (t t' : computer), okop o -> inv env0 t -> inv env0 t' -> alike loose t t' -> ends_alike loose (api_step o t) (api_step o t')) ->
    square_ground env0 -> inv env0 s -> inv env0 s' -> alike loose s s' -> Forall okop ops ->
    match api_run ops s, api_run ops s' with Some t, Some t' => alike loose t t' | None, None => True | _, _ => False end.
  Proof.
    intros Hstep Hsq. revert s s'. induction ops as [|o ops IH]; intros s s' HI HI' H Hops; [done|].
    rewrite !api_run_cons. apply list.Forall_cons_1 in Hops as [Ho Hops].
    pose proof (ends_final _ _ _ (Hstep o s s' Ho HI HI' H)) as HE.
    destruct (final (api_step o s)) as [t|] eqn:E, (final (api_step o s')) as [t'|] eqn:E'; try done. cbn [mbind option_bind].
    apply IH; [exact (inv_step _ _ _ _ Hsq HI E)|exact (inv_step _ _ _ _ Hsq HI' E')|done|done].
  Qed.

  (** C57, any number of calls, the caller choosing the steps. *)
  Theorem C57_history env0 ops s s' :
    square_ground env0 -> reachable env0 s -> reachable env0 s' -> alike true s s' -> chosen_steps ops ->
    match api_run ops s, api_run ops s' with
    | Some t, Some t' => alike true t t'
    | None, None => True
    | _, _ => False
    end.
  Proof.
    intros Hsq Hr Hr' H Hops. apply (run_alike true env0 (fun o => o <> ForwardTime cfg)); try done; try by apply reachable_inv.
    intros o t t' Ho HI HI' Ht. destruct o as [src|dt|]; [|by apply (forward_alike true env0)|done]. cbn. by apply alike_add.
  Qed.

  (** ** C58 *)
  Lemma alike_parts s s' : alike false s s' -> cParts s' = cParts s.
  Proof.
    intros H. apply list_eq. intros i. destruct (twins_at false s s' i (al_parts _ _ _ H)) as [(p & p' & -> & -> & [->|[? _]])|[-> ->]]; done.
  Qed.
  Lemma alike_false s s' : cParts s' = cParts s -> cEnv s' = cEnv s -> cEps s' = cEps s -> cWall s' = cWall s -> alike false s s'.
  Proof.
    intros HP HE H1 H2. split; try done. rewrite HP. apply Forall2_same_length_lookup_2; [done|]. intros i x y Hx Hy. left. congruence.
  Qed.
  Lemma step_alike env0 o s s' : square_ground env0 -> inv env0 s -> inv env0 s' -> alike false s s' -> ends_alike false (api_step o s) (api_step o s').
  Proof.
    intros Hsq HI HI' H. destruct o as [src|dt|]; cbn [api_step].
    - by apply alike_add.
    - by apply (forward_alike false env0).
    - unfold forward. assert (determine_dt s' = determine_dt s) as ->.
      { unfold determine_dt. by rewrite (alike_parts _ _ H), (al_env _ _ _ H). }
      destruct (determine_dt s) as [dt|]; [|done]. by apply (forward_alike false env0).
  Qed.

  (** C58.  Two computers for the same environment, whatever happened to them before: if they show the same
      particles and environment (and have the same solver accuracy and wall callbacks), no sequence of calls
      tells them apart.  Grid, neighbour lists, matrix, start vector and saved positions left over from the
      past do not matter. *)
  Theorem C58_history_independent env0 ops s s' :
    square_ground env0 -> reachable env0 s -> reachable env0 s' ->
    cParts s' = cParts s -> cEnv s' = cEnv s -> cEps s' = cEps s -> cWall s' = cWall s ->
    match api_run ops s, api_run ops s' with
    | Some t, Some t' => cParts t' = cParts t /\ cEnv t' = cEnv t /\ cEps t' = cEps t /\ cWall t' = cWall t
    | None, None => True
    | _, _ => False
    end.
  Proof.
    intros Hsq Hr Hr' H1 H2 H3 H4.
    pose proof (run_alike false env0 (fun _ => True) ops s s') as HR.
    specialize (HR ltac:(intros; by apply (step_alike env0)) Hsq (reachable_inv _ _ Hsq Hr) (reachable_inv _ _ Hsq Hr')
      (alike_false _ _ H1 H2 H3 H4) ltac:(by apply Forall_true)).
    destruct (api_run ops s) as [t|], (api_run ops s') as [t'|]; try done.
    split; [by apply alike_parts|]. by destruct HR.
  Qed.
  (** In particular each single call ends the same way: same exception, or none. *)
  Theorem C58_call env0 o s s' :
    square_ground env0 -> reachable env0 s -> reachable env0 s' ->
    cParts s' = cParts s -> cEnv s' = cEnv s -> cEps s' = cEps s -> cWall s' = cWall s ->
    same_kind (fun t t' => cParts t' = cParts t) (fun _ t t' => cParts t' = cParts t) (api_step o s) (api_step o s').
  Proof.
    intros Hsq Hr Hr' H1 H2 H3 H4. eapply same_kind_impl; [| |apply (step_alike env0 o s s' Hsq)]; try by apply reachable_inv.
    - intros; by apply alike_parts.
    - cbv beta. intros; by apply alike_parts.
    - by apply alike_false.
  Qed.

  (** ** C59 *)
  Lemma restart_exists env0 s ps : square_ground env0 -> inv env0 s -> exists s', restarted s ps s' /\ inv env0 s'.
  Proof.
    intros Hsq HI. destruct (inv_geom _ _ HI) as (g0 & Hg0 & HG).
    pose proof (inv_env _ _ HI) as HE.
    assert (new_grid (cDim cfg) (eNL (cEnv s)) (eL0 (cEnv s)) (eMinX (cEnv s)) (eMaxX (cEnv s)) = Some g0) as Hg.
    { unfold same_constants in HE. rewrite HE. exact Hg0. }
    set (s0 := mkComputer cfg wm [] (cEnv s) g0 [] [] [] [] (cEps s) [] [] [] [] (cWall s)).
    assert (new_computer cfg wm (cEps s) (cEnv s) (cWall s) = Some s0) as H0 by (unfold new_computer; rewrite Hg; done).
    exists (add_particles ps s0). split; [by exists s0|].
    assert (inv env0 s0) as HI0.
    { split.
      - assert (ok s0) as [? _]; [|done]. eapply ok_new; [exact H0|]. cbn.
        eapply square_clear_ok; [exact Hsq| |by eapply new_grid_wf]. exists g0. split; [done|apply same_geom_refl].
      - exists g0. split; [done|apply same_geom_refl].
      - done. }
    eapply (inv_step env0 (AddParticles cfg ps) s0); [done|done|done].
  Qed.

  (** C59.  A computation can be stopped and resumed at any point: a new computer constructed from the current
      environment and given the current particles continues exactly like the old one. *)
  Theorem C59_restart env0 s : square_ground env0 -> reachable env0 s ->
    exists s', restarted s (cParts s) s' /\
      forall ops,
        match api_run ops s, api_run ops s' with
        | Some t, Some t' => cParts t' = cParts t /\ cEnv t' = cEnv t
        | None, None => True
        | _, _ => False
        end.
  Proof.
    intros Hsq Hr. pose proof (reachable_inv _ _ Hsq Hr) as HI.
    destruct (restart_exists env0 s (cParts s) Hsq HI) as (s' & (s0 & H0 & ->) & HI'). exists (add_particles (cParts s) s0).
    split; [by exists s0|]. intros ops.
    unfold new_computer in H0. destruct (new_grid _ _ _ _ _) as [g|]; [|done]. cbn in H0. injection H0 as <-.
    pose proof (run_alike false env0 (fun _ => True) ops s _ ltac:(intros; by apply (step_alike env0)) Hsq HI HI') as HR.
    specialize (HR ltac:(by apply alike_false) ltac:(by apply Forall_true)).
    destruct (api_run ops s) as [t|], (api_run ops _) as [t'|]; try done. split; [by apply alike_parts|apply HR].
  Qed.
  (** The particles out of use may be replaced by arbitrary other ones (also out of use), or have any content. *)
  Theorem C59_restart_without_disabled env0 s ps : square_ground env0 -> reachable env0 s -> Forall2 (twin true) (cParts s) ps ->
    exists s', restarted s ps s' /\
      forall ops, chosen_steps ops ->
        match api_run ops s, api_run ops s' with
        | Some t, Some t' => cEnv t' = cEnv t /\
            forall i p, cParts t !! i = Some p -> enabled p -> cParts t' !! i = Some p
        | None, None => True
        | _, _ => False
        end.
  Proof.
    intros Hsq Hr Hps. pose proof (reachable_inv _ _ Hsq Hr) as HI.
    destruct (restart_exists env0 s ps Hsq HI) as (s' & (s0 & H0 & ->) & HI'). exists (add_particles ps s0).
    split; [by exists s0|]. intros ops Hops.
    unfold new_computer in H0. destruct (new_grid _ _ _ _ _) as [g|]; [|done]. cbn in H0. injection H0 as <-.
    assert (forall o (t t' : computer), o <> ForwardTime cfg -> inv env0 t -> inv env0 t' -> alike true t t' -> ends_alike true (api_step o t) (api_step o t')) as HS.
    { intros o t t' Ho HIt HIt' Ht. destruct o as [src|dt|]; [|by apply (forward_alike true env0)|done]. cbn. by apply alike_add. }
    pose proof (run_alike true env0 (fun o => o <> ForwardTime cfg) ops s _ HS Hsq HI HI') as HR.
    specialize (HR ltac:(split; done) Hops).
    destruct (api_run ops s) as [t|], (api_run ops _) as [t'|]; try done. split; [apply HR|].
    intros i p Hp He. exact (twins_enabled true t t' i p (al_parts _ _ _ HR) Hp He).
  Qed.
End Theorems.

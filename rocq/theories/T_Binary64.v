(** Property theorems about concrete binary64 runs: refutations (C53, C54, C17, C07). *)
From Coq Require Import Reals Lra.
From Flocq Require Import Core.Core IEEE754.BinarySingleNaN.
From Verif Require Import M_NumF M_Main P_Neigh T_Env T_Life S_Outcome.
Close Scope R_scope.

(** Everything decidable below is decided by running the model. *)
Definition q (a b : Z) : F64num := nofZ a /. nofZ b.
Notation fpart := (particle F64num D2).
Definition fluid_at (x z u w : F64num) : fpart := mkParticle (N := F64num) (d := D2) (x, z) (u, w) (nofZ 0) (nofZ 0) Newton.

(** 2-D, the repository's selection of methods; l_0 = 1/4, R_e = 1/2, Courant number 1/2, domain
    [-4, 2]^2, g = 10. *)
Definition the_env : option (environment F64num default_config) :=
  new_env default_config (q 1 10) (q 1 2) (q 10 1) (q 1000 1) (q 1 1000000) (q 95 100) (q 2 1) (q 1 1) (q 1 4)
    (q (-4) 1, q (-4) 1) (q 2 1, q 2 1).
Definition wall_of (init : list (vec F64num D2)) := fixed_walls (N := F64num) default_config init.

Notation fcomputer init := (computer default_config (wall_of init)).
Notation fops := (list (api (N := F64num) default_config)).
(** The state after a history of calls on a new computer. *)
Definition run (init : list (vec F64num D2)) (ops : fops) : option (fcomputer init) :=
  e ← the_env; s ← new_computer default_config (wall_of init) (q 1 1000000) e tt; api_run ops s.

Lemma api_run_reachable {N cfg wm} env0 ops (s s' : computer cfg wm) :
  @reachable N cfg wm env0 s -> api_run ops s = Some s' -> reachable env0 s'.
Proof.
  revert s. induction ops as [|o ops IH]; intros s Hs H; simpl in H; [by simplify_eq|].
  destruct (api_step o s) eqn:E; [|by eapply IH, H; eapply reach_throw|done].
  eapply IH, H. by eapply reach_done.
Qed.
Lemma run_reachable init ops s : run init ops = Some s -> exists e, the_env = Some e /\ reachable e s.
Proof.
  unfold run. generalize (q 1 1000000) as eps. generalize the_env as o. intros [e|] eps H; [|done].
  cbn [mbind option_bind] in H. destruct (new_computer _ _ eps e _) as [s0|] eqn:E0; [|done].
  cbn [mbind option_bind] in H. exists e. split; [done|]. eapply api_run_reachable; [|exact H]. by eapply reach_new.
Qed.
(** Observing the state after a history. *)
Definition observed {A} init ops (f : fcomputer init -> option A) (v : A) : Prop :=
  match run init ops with Some s => f s | None => None end = Some v.
(** The kernel runs the model and compares. *)
Ltac observe := match goal with |- @observed _ _ _ _ ?v => unfold observed; vm_cast_no_check (@eq_refl _ (Some v)) end.
Lemma run_observe {A} init ops (f : fcomputer init -> option A) v :
  observed init ops f v ->
  exists e s, square_ground e /\ reachable e s /\ f s = Some v.
Proof.
  unfold observed. intros H. pose proof (run_reachable init ops) as HR. revert H HR. generalize (run init ops) as o.
  intros [s|] H HR; [|done]. destruct (HR s eq_refl) as (e & He & Hr). clear HR He. exists e, s.
  split; [by left|]. by split.
Qed.

(** ** C53 *)
Section C53.
  Context {N : num} {cfg : config} {wm : wallmotion N (cDim cfg)}.
  Notation d := (cDim cfg).
  Notation computer := (computer cfg wm).
  Lemma block_of_number (g : grid N d) (env : environment N cfg) x b k z :
    geom_for env g -> block_of d g x = Some b -> b !! k = Some z -> block_number env x k = Some z.
  Proof.
    intros (g0 & Hg0 & Hl & Ho & _) Hb Hk. destruct (new_grid_shape _ _ _ _ _ Hg0) as (Hl0 & Ho0 & _).
    unfold block_of in Hb. apply mapM_Some in Hb.
    destruct (Forall2_lookup_r _ _ _ _ _ Hb Hk) as (k' & Hk' & Hc).
    apply lookup_seq in Hk' as [-> _]. unfold block_number. by rewrite <- Ho0, <- Hl0, <- Ho, <- Hl.
  Qed.

  (** What the search finds, with whatever arithmetic: the particles whose computed distance is below
      NeighborLength AND whose computed block numbers differ by at most 1 on every axis. *)
  Theorem C53_what_is_found env0 dt (s s1 : computer) i p :
    square_ground env0 -> reachable env0 s -> search_neighbor (start_step dt s) = Done s1 ->
    cParts s1 !! i = Some p -> enabled p ->
    exists l, neighbor_list s1 i = Some l /\ NoDup l /\
    forall j, j ∈ l <-> j <> i /\ exists p', cParts s1 !! j = Some p' /\ enabled p' /\
      dist (pX p) (pX p') <?. eNL env0 = true /\
      forall k, (k < dimn d)%nat -> exists z z', block_number env0 (pX p) k = Some z /\
        block_number env0 (pX p') k = Some z' /\ (Z.abs (z - z') <= 1)%Z.
  Proof.
    intros Hsq Hr H Hp Hen. pose proof (search_searched env0 dt s s1 Hsq Hr H) as Hs.
    destruct (reachable_inv env0 s Hsq Hr) as [_ Hgeo HE].
    apply same_constants_fields in HE as (_ & _ & _ & _ & _ & HNL & _).
    assert (cEnv s1 = cEnv (start_step dt s)) as HE1 by (by rewrite (se_rest _ _ Hs)).
    assert (eNL (cEnv s1) = eNL env0) as HN1 by (by rewrite HE1).
    assert (is_disabled (pT p) = false) as Hdp by (by apply is_disabled_false).
    destruct (home_of_enabled _ s1 i p (se_parts _ _ Hs) Hp Hdp) as (_ & b & Hb & _).
    exists (found s1 i p). split; [by eapply found_list|]. split; [by eapply found_NoDup|].
    assert (forall p' b', block_of d (cGrid s) (pX p') = Some b' -> adjacent b b' <->
      forall k, (k < dimn d)%nat -> exists z z', block_number env0 (pX p) k = Some z /\
        block_number env0 (pX p') k = Some z' /\ (Z.abs (z - z') <= 1)%Z) as Hadj.
    { intros p' b' Hb'. pose proof (block_length _ _ _ Hb) as L. pose proof (block_length _ _ _ Hb') as L'.
      unfold adjacent. rewrite Forall2_lookup. split.
      - intros HF k Hk. specialize (HF k).
        destruct (lookup_lt_is_Some_2 b k ltac:(lia)) as [z Hz].
        destruct (lookup_lt_is_Some_2 b' k ltac:(lia)) as [z' Hz'].
        rewrite Hz, Hz' in HF. inversion HF; subst. exists z, z'.
        split; [by eapply block_of_number|]. split; [by eapply block_of_number|done].
      - intros HF k. destruct (b !! k) as [z|] eqn:Hz.
        + apply lookup_lt_Some in Hz as Hk. destruct (lookup_lt_is_Some_2 b' k ltac:(lia)) as [z' Hz'].
          rewrite Hz'. constructor. destruct (HF k ltac:(lia)) as (y & y' & Hy & Hy' & Ha).
          rewrite (block_of_number (cGrid s) env0 (pX p) b k z) in Hy by done.
          rewrite (block_of_number (cGrid s) env0 (pX p') b' k z') in Hy' by done. by simplify_eq.
        + apply lookup_ge_None in Hz. rewrite (proj2 (lookup_ge_None b' k)) by lia. constructor. }
    intros j. split.
    - intros Hj. destruct (found_enabled s1 i p j Hj) as (Hne & p' & Hq & Hdq). split; [done|].
      exists p'. split; [done|]. split; [by apply is_disabled_false|].
      apply (found_elem _ s1 Hs i p j p' b) in Hj as [Ht (b' & Hb' & Ha)]; try done.
      unfold near_test in Ht. rewrite Hq, HN1 in Ht. apply andb_true_iff in Ht as [_ Ht]. apply andb_true_iff in Ht as [_ Ht].
      split; [done|]. by apply (Hadj p' b').
    - intros (Hne & p' & Hq & Hq2 & Ht & Ha). apply is_disabled_false in Hq2.
      destruct (home_of_enabled _ s1 j p' (se_parts _ _ Hs) Hq Hq2) as (_ & b' & Hb' & _).
      apply (found_elem _ s1 Hs i p j p' b); try done. split.
      + unfold near_test. rewrite Hq, HN1, Hq2. cbn [negb].
        rewrite (proj2 (Nat.eqb_neq j i)) by done. cbn [negb andb]. done.
      + exists b'. split; [done|]. by apply (Hadj p' b').
  Qed.
End C53.

(** So with binary64 the lists can be incomplete: two particles, both in the grid, whose computed
    distance is below NeighborLength, and neither is in the list of the other. *)
Definition tiny : F64num := nofZ 1 /. nofZ (2 ^ 51).
Definition c53_parts : list fpart :=
  [ fluid_at (nopp (q 3 4 ×. tiny)) (q 0 1) (q 0 1) (q 0 1);
    fluid_at (nofZ 1 -. tiny) (q 0 1) (q 0 1) (q 0 1) ].
Definition c53_observe (s : fcomputer (map pX c53_parts)) :=
  match search_neighbor (start_step (q 1 100) s) with
  | Done s1 => Some (cParts s1, neighbor_list s1 0, neighbor_list s1 1, eNL (cEnv s))
  | _ => None
  end.
Lemma c53_observed : observed (map pX c53_parts) [AddParticles default_config c53_parts] c53_observe
  (c53_parts, Some [], Some [], (nofZ 1 : F64num)).
Proof. observe. Qed.
Theorem C53_refuted : exists init e (s s1 : fcomputer init) dt p p',
  reachable e s /\ square_ground e /\ search_neighbor (start_step dt s) = Done s1 /\
  cParts s1 !! 0%nat = Some p /\ enabled p /\ cParts s1 !! 1%nat = Some p' /\ enabled p' /\
  (* the computed distance is below NeighborLength ... *)
  dist (pX p) (pX p') <?. eNL e = true /\
  (* ... and so is the true one *)
  (pX p).2 = (pX p').2 /\ (0 < SF2R radix2 (pX p').1 - SF2R radix2 (pX p).1 < SF2R radix2 (eNL e))%R /\
  neighbor_list s1 0 = Some [] /\ neighbor_list s1 1 = Some [].
Proof.
  destruct (run_observe _ _ _ _ c53_observed) as (e & s & Hsq & Hr & Hc).
  exists (map pX c53_parts), e, s. unfold c53_observe in Hc. revert Hc. generalize (q 1 100) as dt. intros dt Hc.
  destruct (search_neighbor (start_step dt s)) as [s1| |] eqn:E; [|by inversion Hc..]. apply (inj Some) in Hc.
  pose proof (f_equal (fun t => t.1.1.1) Hc) as HP. pose proof (f_equal (fun t => t.1.1.2) Hc) as L0.
  pose proof (f_equal (fun t => t.1.2) Hc) as L1. pose proof (f_equal (fun t => t.2) Hc) as HN. clear Hc. cbn [fst snd] in HP, L0, L1, HN.
  destruct (reachable_geom e s Hsq Hr) as (_ & _ & HE). apply same_constants_fields in HE as (_ & _ & _ & _ & _ & HNL & _).
  exists s1, dt. do 2 eexists. split; [done|]. split; [done|]. split; [done|].
  rewrite HP, <- HNL, HN. split; [done|]. split; [done|]. split; [done|]. split; [done|].
  split; [by vm_compute|]. split; [done|]. split; [|done].
  unfold c53_parts, fluid_at, tiny. cbn [pX fst].
  repeat match goal with |- context [SF2R radix2 ?x] => let y := eval vm_compute in x in progress change x with y end.
  unfold SF2R, F2R. simpl.
  repeat match goal with |- context [Z.pow_pos ?a ?b] => let y := eval vm_compute in (Z.pow_pos a b) in change (Z.pow_pos a b) with y end.
  rewrite (opp_IZR 6755399441055744). lra.
Qed.

(** ** C17 *)
Section C17.
  Context {cfg : config} {wm : wallmotion Rnum (cDim cfg)}.
  Open Scope R_scope.
  (** A particle that gets disabled is put back to where the wall motion says, which enters the next
      automatic time step: the longer the way back, the shorter the step. *)
  Theorem C17_throttle (env0 : environment Rnum cfg) (dt : R) (s s' : computer cfg wm) i (p p' : particle Rnum (cDim cfg)) (dt' : R) :
    0 < eMaxDx env0 -> 0 < eMaxDt env0 -> square_ground env0 -> reachable env0 s -> 0 < dt ->
    forward_dt (dt : Rnum) s = Done s' -> cParts s !! i = Some p -> cParts s' !! i = Some p' -> pT p' = Disabled ->
    determine_dt s' = Some dt' ->
    edist (pX p) (pX p') * dt' <= eMaxDx env0 * dt.
  Proof.
    intros Hdx Hdt Hsq Hr Hpos Hf Hp Hp' HT Hd.
    assert (reachable env0 s') as Hr' by (eapply (reach_done _ (ForwardTimeBy (N := Rnum) cfg dt)); done).
    destruct (C16_cfl env0 s' dt' Hdx Hdt Hsq Hr' Hd) as (_ & Hcfl & _).
    specialize (Hcfl p' ltac:(by eapply elem_of_list_lookup_2)).
    destruct (C25_prescribed_motion (N := Rnum) dt s s' i p p' Hf Hp Hp' ltac:(by rewrite HT)) as (_ & _ & HU).
    assert (pU p' = ((/ dt : R) : Rnum) *^ (pX p' -^ pX p)) as HU'.
    { rewrite HU. apply coord_ext. intros k Hk. rewrite (coord_div dt), (coord_scal (/ dt)) by done. unfold Rdiv. apply Rmult_comm. }
    rewrite HU', len_scal, Rabs_right in Hcfl by (left; by apply Rinv_0_lt_compat).
    rewrite edist_sym, edist_len. apply (Rmult_le_compat_r dt) in Hcfl; [|lra].
    eapply Rle_trans; [|exact Hcfl]. right. field. lra.
  Qed.
End C17.
(** Two states that differ in a disabled particle only, and take different automatic time steps. *)
Definition c17_init : list (vec F64num D2) := [(q 0 1, q 0 1); (q 1 1, q 1 1)].
Definition c17_a : fpart := fluid_at (q 0 1) (q 0 1) (q 0 1) (q 0 1).
Definition c17_b : fpart := fluid_at (q 1 1) (q 1 1) (q 40 1) (q 0 1).
Definition c17_ops (ps : list fpart) : fops :=
  [AddParticles default_config ps; ForwardTimeBy default_config (q 1 10); ForwardTimeBy default_config (q 1 10)].
Definition c17_observe (s : fcomputer c17_init) := Some (cParts s, cEnv s, determine_dt s).
Definition fin (neg : bool) (m : positive) (e : Z) : F64num := S754_finite neg m e.
Definition c17_a_later : fpart :=
  mkParticle (N := F64num) (d := D2) (S754_zero false, fin true 5404319552844596 (-54)) (S754_zero false, fin true 4503599627370496 (-51))
    (S754_zero false) (fin false 6369051672525772 (-50)) Newton.
Definition c17_b_later : fpart :=
  mkParticle (N := F64num) (d := D2) (fin false 4503599627370496 (-52), fin false 4503599627370496 (-52))
    (fin true 5629499534213120 (-47), fin false 9007199254740990 (-53))
    (S754_zero false) (fin false 6369051672525772 (-50)) Disabled.
Definition c17_env : environment F64num default_config :=
  mkEnv (N := F64num) default_config (fin false 7205759403792794 (-55)) (fin false 7205759403792794 (-56)) (fin false 6369051672525772 (-50))
    (fin false 5822673418478105 (-56)) (fin false 4503599627370496 (-52)) (fin false 7205759403792794 (-56))
    (fin false 4503599627370496 (-55)) (fin false 4503599627370496 (-54)) (fin false 4503599627370496 (-53))
    (S754_zero false, fin true 5629499534213120 (-49)) (fin false 8796093022208000 (-43)) (fin false 4722366482869645 (-72))
    (fin false 8556839292003942 (-53)) (fin true 4503599627370496 (-50), fin true 4503599627370496 (-50))
    (fin false 4503599627370496 (-51), fin false 4503599627370496 (-51)) (fin false 4503599627370496 (-52)).
Lemma c17_observed : observed c17_init (c17_ops [c17_a]) c17_observe
  ([c17_a_later], c17_env, Some (fin false 4503599627370496 (-56))).
Proof. observe. Qed.
Lemma c17_observed' : observed c17_init (c17_ops [c17_a; c17_b]) c17_observe
  ([c17_a_later; c17_b_later], c17_env, Some (fin false 7203508658960816 (-61))).
Proof. observe. Qed.
Lemma run_observe2 {A B} init ops ops' (f : fcomputer init -> option A) (f' : fcomputer init -> option B) v v' :
  observed init ops f v -> observed init ops' f' v' ->
  exists e s s', square_ground e /\ reachable e s /\ reachable e s' /\ f s = Some v /\ f' s' = Some v'.
Proof.
  unfold observed. intros H H'. pose proof (run_reachable init ops) as HR. pose proof (run_reachable init ops') as HR'.
  revert H HR H' HR'. generalize (run init ops) as o, (run init ops') as o'. generalize the_env as oe.
  intros oe [s|] [s'|] H HR H' HR'; [|done..].
  destruct (HR s eq_refl) as (e & He & Hr). destruct (HR' s' eq_refl) as (e' & He' & Hr').
  assert (e' = e) as -> by congruence. exists e, s, s'. split; [by left|]. done.
Qed.

(** Same environment, same enabled particles; a disabled one makes the automatic step twenty times shorter. *)
Theorem C17_refuted : exists init e (s s' : fcomputer init) (dt dt' : F64num),
  reachable e s /\ reachable e s' /\ cEnv s = cEnv s' /\
  (exists p', pT p' = Disabled /\ cParts s' = cParts s ++ [p']) /\
  determine_dt s = Some dt /\ determine_dt s' = Some dt' /\
  nofZ 20 ×. dt' <=?. dt = true.
Proof.
  destruct (run_observe2 _ _ _ _ _ _ _ c17_observed c17_observed') as (e & s & s' & _ & Hr & Hr' & Hc & Hc').
  exists c17_init, e, s, s', (fin false 4503599627370496 (-56)), (fin false 7203508658960816 (-61)).
  unfold c17_observe in Hc, Hc'. apply (inj Some) in Hc, Hc'.
  pose proof (f_equal (fun t => t.1.1) Hc) as H1. pose proof (f_equal (fun t => t.1.2) Hc) as H2. pose proof (f_equal (fun t => t.2) Hc) as H3.
  pose proof (f_equal (fun t => t.1.1) Hc') as H1'. pose proof (f_equal (fun t => t.1.2) Hc') as H2'. pose proof (f_equal (fun t => t.2) Hc') as H3'.
  cbn [fst snd] in *. split; [exact Hr|]. split; [exact Hr'|]. split; [by rewrite H2, H2'|].
  split; [exists c17_b_later; split; [reflexivity|by rewrite H1, H1']|]. split; [exact H3|]. split; [exact H3'|].
  vm_cast_no_check (@eq_refl bool true).
Qed.

(** ** C54: the same with the default configuration and binary64 *)
(** A lone particle falling with 1.25 m/s. *)
Definition c54_p : fpart := fluid_at (q 0 1) (q 0 1) (q 0 1) (q (-5) 4).
Definition c54_init : list (vec F64num D2) := [(q 0 1, q 0 1)].
Definition c54_observe (s : fcomputer c54_init) :=
  match cParts s, forward s with
  | [p], Done s' => match cParts s' with
                    | [p'] => Some (nofZ 15 /. nofZ 10 ×. eMaxDx (cEnv s) <?. dist (pX p) (pX p'), is_newton (pT p'))
                    | _ => None
                    end
  | _, _ => None
  end.
Lemma c54_observed : observed c54_init [AddParticles default_config [c54_p]] c54_observe (true, true).
Proof. observe. Qed.
Theorem C54_binary64 : exists init e (s s' : fcomputer init) p p',
  reachable e s /\ forward s = Done s' /\ cParts s = [p] /\ cParts s' = [p'] /\ pT p' = Newton /\
  (nofZ 15 /. nofZ 10 ×. eMaxDx e <?. dist (pX p) (pX p')) = true.
Proof.
  destruct (run_observe _ _ _ _ c54_observed) as (e & s & Hsq & Hr & Hc).
  destruct (reachable_geom e s Hsq Hr) as (_ & _ & HE). apply same_constants_fields in HE as (_ & _ & HD & _).
  exists c54_init, e, s. unfold c54_observe in Hc. rewrite HD in Hc.
  destruct (cParts s) as [|p []]; [by inversion Hc| |by inversion Hc].
  destruct (forward s) as [s'| |]; [|by inversion Hc..].
  destruct (cParts s') as [|p' []] eqn:E'; [by inversion Hc| |by inversion Hc].
  exists s', p, p'. apply (inj Some) in Hc. pose proof (f_equal fst Hc) as H1. pose proof (f_equal snd Hc) as H2. cbn [fst snd] in H1, H2.
  split; [exact Hr|]. split; [reflexivity|]. split; [reflexivity|]. split; [exact E'|]. split; [by apply is_newton_true|exact H1].
Qed.

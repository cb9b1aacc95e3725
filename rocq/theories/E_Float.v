(** C70, C71: runs with rounding. *)
From Coq Require Import ZArith Reals Lra.
From Flocq Require Import Core BinarySingleNaN.
From Verif Require Import S_Float M_NumB M_Main P_Life P_B64 S_Reach S_Outcome T_Binary64 T_Float T_FloatSearch.
Close Scope R_scope.

(** ** Time can stand still *)
(** A step of 1/10 s, then a particle with 10^20 m/s arrives: the next automatic step is positive, but too short to
    change the time. *)
Definition c70_init : list (vec F64num D2) := [(q 0 1, q 0 1); (q 1 1, q 1 1)].
Definition c70_ops : fops :=
  [AddParticles default_config [fluid_at (q 0 1) (q 0 1) (q 0 1) (q 0 1)]; ForwardTimeBy default_config (q 1 10);
   AddParticles default_config [fluid_at (q 1 1) (q 1 1) (q (10 ^ 20) 1) (q 0 1)]].
Definition c70_observe (s : fcomputer c70_init) :=
  match determine_dt s, forward s with
  | Some dt, Done s' => Some (nofZ 0 <?. dt, nofZ 0 <?. eT (cEnv s), eT (cEnv s') =?. eT (cEnv s))
  | _, _ => None
  end.
Lemma c70_observed : observed c70_init c70_ops c70_observe (true, true, true).
Proof. observe. Qed.
Theorem C70_refuted_progress : exists init e (s s' : fcomputer init) (dt : F64num),
  reachable e s /\ determine_dt s = Some dt /\ nofZ 0 <?. dt = true /\ forward s = Done s' /\
  nofZ 0 <?. eT (cEnv s) = true /\ eT (cEnv s') =?. eT (cEnv s) = true.
Proof.
  destruct (run_observe _ _ _ _ c70_observed) as (e & s & _ & Hr & Hc). exists c70_init, e, s. unfold c70_observe in Hc.
  destruct (determine_dt s) as [dt|]; [|by inversion Hc]. destruct (forward s) as [s'| |]; [|by inversion Hc..].
  exists s', dt. apply (inj Some) in Hc. pose proof (f_equal (fun t => t.1.1) Hc) as H1. pose proof (f_equal (fun t => t.1.2) Hc) as H2.
  pose proof (f_equal snd Hc) as H3. cbn [fst snd] in H1, H2, H3.
  split; [exact Hr|]. split; [reflexivity|]. split; [exact H1|]. split; [reflexivity|]. split; [exact H2|exact H3].
Qed.

(** ** The velocities have to be numbers *)
(** The same two particles, one of them with a NaN velocity: as the first it makes the step NaN, as the second it goes
    unnoticed. *)
Definition nan_at (x z : F64num) : fpart := fluid_at x z S754_nan (q 0 1).
Definition calm_at (x z : F64num) : fpart := fluid_at x z (q 0 1) (q 0 1).
Definition c70_first : list fpart := [nan_at (q 0 1) (q 0 1); calm_at (q 1 1) (q 1 1)].
Definition c70_second : list fpart := [calm_at (q 0 1) (q 0 1); nan_at (q 1 1) (q 1 1)].
Definition c70_dt (s : fcomputer c70_init) := Some (cParts s, determine_dt s).
Lemma c70_nan_first : observed c70_init [AddParticles default_config c70_first] c70_dt (c70_first, Some (S754_nan : F64num)).
Proof. observe. Qed.
Lemma c70_nan_second : observed c70_init [AddParticles default_config c70_second] c70_dt (c70_second, Some (q 1 10)).
Proof. observe. Qed.
Theorem C70_refuted_nan : exists init e (s s' : fcomputer init) (dt : F64num),
  reachable e s /\ reachable e s' /\ Permutation (map pU (cParts s)) (map pU (cParts s')) /\
  determine_dt s = Some (S754_nan : F64num) /\ determine_dt s' = Some dt /\ nofZ 0 <?. dt = true.
Proof.
  destruct (run_observe2 _ _ _ _ _ _ _ c70_nan_first c70_nan_second) as (e & s & s' & _ & Hr & Hr' & Hc & Hc').
  exists c70_init, e, s, s', (q 1 10). unfold c70_dt in Hc, Hc'. apply (inj Some) in Hc, Hc'.
  pose proof (f_equal fst Hc) as H1. pose proof (f_equal snd Hc) as H2. pose proof (f_equal fst Hc') as H1'. pose proof (f_equal snd Hc') as H2'.
  cbn [fst snd] in H1, H2, H1', H2'. rewrite H1, H1'.
  split; [exact Hr|]. split; [exact Hr'|]. split; [|split; [exact H2|split; [exact H2'|vm_cast_no_check (@eq_refl bool true)]]].
  unfold c70_first, c70_second, nan_at, calm_at, fluid_at. cbn [map pU]. apply perm_swap.
Qed.

(** ** A case that meets the hypotheses *)
(** The same environment over the doubles proper, and a step with two particles. *)
Definition bq (a b : Z) : B64num := nofZ a /. nofZ b.
Definition b_env : option (environment B64num default_config) :=
  new_env default_config (bq 1 10) (bq 1 2) (bq 10 1) (bq 1000 1) (bq 1 1000000) (bq 95 100) (bq 2 1) (bq 1 1) (bq 1 4)
    (bq (-4) 1, bq (-4) 1) (bq 2 1, bq 2 1).
Notation bcomputer init := (computer default_config (fixed_walls (N := B64num) default_config init)).
Definition b_init : list (vec B64num D2) := [(bq 0 1, bq 0 1); (bq 1 4, bq 0 1)].
Definition b_part (x z u w : B64num) : particle B64num D2 := mkParticle (N := B64num) (d := D2) (x, z) (u, w) (nofZ 0) (nofZ 0) Newton.
Definition b_parts : list (particle B64num D2) := [b_part (bq 0 1) (bq 0 1) (bq 1 2) (bq 0 1); b_part (bq 1 4) (bq 0 1) (bq (-1) 3) (bq 0 1)].
Definition b_start : option (bcomputer b_init) :=
  e ← b_env; s ← new_computer default_config (fixed_walls default_config b_init) (bq 1 1000000) e tt; Some (add_particles (cfg := default_config) b_parts s).
Definition b_numbers (p : particle B64num D2) : bool := negb (is_nan (tget D2 (pU p) 0 : B64)) && negb (is_nan (tget D2 (pU p) 1 : B64)).
Definition b_check (e : environment B64num default_config) (s : bcomputer b_init) : option (bool * bool) :=
  dt ← determine_dt s;
  match forward s with
  | Done s' => Some
      (forallb b_numbers (cParts s) && is_finite (eMaxDx (cEnv s) : B64) && (nofZ 0 <=?. eMaxDx (cEnv s))
         && is_finite (eMaxDt (cEnv s) : B64) && (nofZ 0 <=?. eMaxDt (cEnv s)) && is_finite (eT (cEnv s) : B64)
         && (nofZ 0 <=?. eN0 e),
       (nofZ 0 <?. dt) && (2 <=? length (cParts s'))%nat && forallb (fun p => is_active (pT p)) (cParts s'))
  | _ => None
  end.
Lemma b_checked : match b_env, b_start with Some e, Some s => b_check e s | _, _ => None end = Some (true, true).
Proof. vm_cast_no_check (@eq_refl _ (Some (true, true))). Qed.
Theorem example_float : exists (e : environment B64num default_config) (s s' : bcomputer b_init) dt,
  square_ground e /\ reachable e s /\ determine_dt s = Some dt /\ forward_dt dt s = Done s' /\
  (forall p, p ∈ cParts s -> numbers (pU p)) /\
  is_finite (eMaxDx (cEnv s) : B64) = true /\ nofZ 0 <=?. eMaxDx (cEnv s) = true /\
  is_finite (eMaxDt (cEnv s) : B64) = true /\ nofZ 0 <=?. eMaxDt (cEnv s) = true /\
  is_finite (eT (cEnv s) : B64) = true /\ nofZ 0 <=?. eN0 e = true /\ nofZ 0 <?. dt = true /\
  (2 <= length (cParts s'))%nat /\ forall p, p ∈ cParts s' -> fluid_or_wall p.
Proof.
  pose proof b_checked as H. unfold b_start in H. revert H. generalize (bq 1 1000000) as eps. generalize b_parts as ps. generalize b_env as oe.
  intros [e|] ps eps H; [|inversion H]. cbn [mbind option_bind] in H.
  destruct (new_computer _ _ eps e _) as [s0|] eqn:E0; [|inversion H]. cbn [mbind option_bind] in H.
  assert (reachable e (add_particles (cfg := default_config) ps s0)) as Hr.
  { eapply (reach_done e (AddParticles default_config ps)); [by eapply reach_new|reflexivity]. }
  revert H Hr. generalize (add_particles (cfg := default_config) ps s0) as s. intros s H Hr. unfold b_check in H.
  destruct (determine_dt s) as [dt|] eqn:Ed; [|inversion H]. cbn [mbind option_bind] in H.
  assert (forward s = forward_dt dt s) as Ef by (unfold forward; rewrite Ed; reflexivity). rewrite Ef in H.
  destruct (forward_dt dt s) as [s'| |] eqn:Es; [|inversion H..]. apply (inj Some) in H.
  pose proof (f_equal fst H) as H1. pose proof (f_equal snd H) as H2. cbn [fst snd] in H1, H2. clear H.
  apply andb_prop in H1 as [H1 H8]. apply andb_prop in H1 as [H1 H7]. apply andb_prop in H1 as [H1 H6]. apply andb_prop in H1 as [H1 H5].
  apply andb_prop in H1 as [H1 H4]. apply andb_prop in H1 as [H1 H3]. apply andb_prop in H2 as [H9 H11]. apply andb_prop in H9 as [H9 H10].
  exists e, s, s', dt. split; [left; reflexivity|]. split; [exact Hr|]. split; [exact Ed|]. split; [exact Es|]. split.
  { intros p Hp k Hk. rewrite forallb_forall in H1. specialize (H1 p (proj1 (elem_of_list_In _ _) Hp)). unfold b_numbers in H1.
    apply andb_true_iff in H1 as [H1 H2]. apply negb_true_iff in H1, H2. destruct k as [|[|k]]; [exact H1|exact H2|exfalso; clear -Hk; cbn in Hk; lia]. }
  split; [exact H3|]. split; [exact H4|]. split; [exact H5|]. split; [exact H6|]. split; [exact H7|]. split; [exact H8|]. split; [exact H9|].
  split; [by apply Nat.leb_le|]. intros p Hp. rewrite forallb_forall in H11. by apply is_active_true, H11, elem_of_list_In.
Qed.

(** ** C71: a case that meets the hypotheses *)
Definition b_search (e : environment B64num default_config) (s : bcomputer b_init) :=
  match search_neighbor (start_step (bq 1 10) s) with
  | Done s1 =>
      match cParts s1 with
      | [p; p'] => Some (map (fun v : B64num => B2SF (v : B64)) [(pX p).1; (pX p).2; (pX p').1; (pX p').2; eNL e],
                         (pT p, pT p'), (neighbor_list s1 0, neighbor_list s1 1), (blocks_along e 0, blocks_along e 1))
      | _ => None
      end
  | _ => None
  end.
Definition b_found :=
  ([S754_zero false; S754_zero false; S754_finite false 4503599627370496 (-54); S754_zero false; S754_finite false 4503599627370496 (-52)],
   (Newton, Newton), (Some [1%nat], Some [0%nat]), (Some 8%Z, Some 8%Z)).
Lemma b_searched : match b_env, b_start with Some e, Some s => b_search e s | _, _ => None end = Some b_found.
Proof. vm_cast_no_check (@eq_refl _ (Some b_found)). Qed.
Theorem example_float_search : exists (e : environment B64num default_config) (s s1 : bcomputer b_init) p p',
  square_ground e /\ reachable e s /\ search_neighbor (start_step (bq 1 10) s) = Done s1 /\
  is_finite (eNL e : B64) = true /\ (bpow radix2 (-400) <= B2R (eNL e : B64) <= bpow radix2 400)%R /\
  (forall k m, (k < dimn D2)%nat -> blocks_along e k = Some m -> (m <= 8)%Z) /\
  cParts s1 !! 0%nat = Some p /\ enabled p /\ cParts s1 !! 1%nat = Some p' /\ enabled p' /\
  neighbor_list s1 0 = Some [1%nat] /\ neighbor_list s1 1 = Some [0%nat] /\
  (true_distance (pX p) (pX p') <= B2R (eNL e : B64) * (1 - IZR (8 + 1) * bpow radix2 (-49)))%R.
Proof.
  pose proof b_searched as H. unfold b_start in H. revert H. generalize (bq 1 1000000) as eps. generalize b_parts as ps. generalize b_env as oe.
  intros [e|] ps eps H; [|inversion H]. cbn [mbind option_bind] in H.
  destruct (new_computer _ _ eps e _) as [s0|] eqn:E0; [|inversion H]. cbn [mbind option_bind] in H.
  assert (reachable e (add_particles (cfg := default_config) ps s0)) as Hr.
  { eapply (reach_done e (AddParticles default_config ps)); [by eapply reach_new|reflexivity]. }
  revert H Hr. generalize (add_particles (cfg := default_config) ps s0) as s. intros s H Hr. unfold b_search in H.
  destruct (search_neighbor (start_step (bq 1 10) s)) as [s1| |] eqn:Es; [|inversion H..]. 
  destruct (cParts s1) as [|p [|p' [|]]] eqn:Ep; [inversion H..| |inversion H]. apply (inj Some) in H. unfold b_found in H. cbn [map] in H.
  pose proof (f_equal (fun t => t.1.1.1) H) as H1. pose proof (f_equal (fun t => t.1.1.2) H) as H2. pose proof (f_equal (fun t => t.1.2) H) as H3.
  pose proof (f_equal snd H) as H4. cbn [fst snd] in H1, H2, H3, H4. clear H. clear E0.
  assert (forall (v : B64num) x, B2SF (v : B64) = x -> B2R (v : B64) = SF2R radix2 x) as HV by (intros v x <-; by rewrite SF2R_B2SF).
  injection H1 as X0 X1 Y0 Y1 NL. injection H2 as T0 T1. injection H3 as L0 L1. injection H4 as K0 K1.
  assert (is_finite (eNL e : B64) = true) as FN by (rewrite <- is_finite_SF_B2SF, NL; reflexivity).
  apply HV in X0, X1, Y0, Y1, NL. cbn [SF2R] in X0, X1, Y0, Y1, NL.
  assert (B2R (eNL e : B64) = 1%R) as VN. { refine (eq_trans NL _). unfold F2R. simpl. lra. }
  assert (B2R ((pX p').1 : B64) = 1 / 4)%R as VY. { refine (eq_trans Y0 _). unfold F2R. simpl. lra. }
  exists e, s, s1, p, p'. split; [left; reflexivity|]. split; [exact Hr|]. split; [exact Es|]. split; [exact FN|]. split.
  { rewrite VN. split; [change 1%R with (bpow radix2 0); apply bpow_le; lia|]. change 1%R with (bpow radix2 0). apply bpow_le; lia. }
  split. { intros [|[|k]] m Hk Hm; [rewrite K0 in Hm|rewrite K1 in Hm|cbn in Hk; exfalso; clear -Hk; lia]; injection Hm as <-; clear; lia. }
  rewrite Ep. split; [reflexivity|]. split; [intros HT; assert (Newton = Disabled) as HN by exact (eq_trans (eq_sym T0) HT); discriminate HN|]. split; [reflexivity|].
  split; [intros HT; assert (Newton = Disabled) as HN by exact (eq_trans (eq_sym T1) HT); discriminate HN|]. split; [exact L0|]. split; [exact L1|]. rewrite VN.
  assert (true_distance (pX p) (pX p') = 1 / 4)%R as ->.
  { unfold true_distance, edist, sum_n, rsum, exactly_at, coord. cbn [cDim dimn default_config seq map foldr tmk tget fst snd].
    transitivity (R_sqrt.sqrt ((0 - 1 / 4) ^ 2 + ((0 - 0) ^ 2 + 0)))%R; [f_equal; f_equal; [f_equal; f_equal; [exact X0|exact VY]|f_equal; f_equal; f_equal; [exact X1|exact Y1]]|].
    replace ((0 - 1 / 4) ^ 2 + ((0 - 0) ^ 2 + 0))%R with ((1 / 4) * (1 / 4))%R by (simpl; field). apply sqrt_square. lra. }
  assert (bpow radix2 (-49) <= bpow radix2 (-5))%R as HB by (apply bpow_le; lia). assert (bpow radix2 (-5) = 1 / 32)%R as E5 by (simpl; lra).
  replace (IZR (8 + 1)) with 9%R by reflexivity. lra.
Qed.

(** Examples for C48. *)
From Coq Require Import ZArith Reals Lia Lra.
From Verif Require Import P_Search M_Main M_Bench S_Bench S_Outcome S_Main P_B64 T_Env T_Bench T_Script T_Float E_Scene E_Plus2 E_Overlap.
From Verif Require Import T_Cells T_CellScene.
From Flocq Require Import Core BinarySingleNaN.
Open Scope R_scope.

(** Two particles nearer to each other than l_0 = 1, on the two sides of the boundary x = 7/2 of two cells. *)
Theorem example_cells : exists (env : environment Rnum pcfg) (s : ocomputer),
  square_ground env /\ reachable env s /\ (eL0 env : R) = 1 /\ 0 < (eNL env : R) /\ one_per_cell (fun _ => 1/2) 1 s /\
  length (cParts s) = 2%nat /\ (exists p q, cParts s = [p; q] /\ enabled p /\ enabled q /\ edist (pX p) (pX q) = 4/5).
Proof.
  destruct (scene_env_facts false true true true false true true true false) as (e & Hee & He).
  destruct (scene_new false true true true false true true true false overlap e He (1/1000000 : Rnum)) as [s0 Hs0].
  set (s := scene_state false true true true false true true true false overlap s0).
  assert (cParts s = overlap) as Hs by (by eapply scene_parts).
  exists e, s. split; [by left|]. split; [by eapply scene_reachable|]. split; [exact (sf_l0 _ _ _ _ _ _ _ _ _ e He)|].
  split; [rewrite (sf_nl _ _ _ _ _ _ _ _ _ e He); lra|]. rewrite Hs. split; [|split; [done|]].
  - assert (cell_number (1/2) 1 3 = 2%Z) as C1 by (unfold cell_number; apply Zfloor_imp; rewrite ?plus_IZR; lra).
    assert (cell_number (1/2) 1 (19/5) = 3%Z) as C2 by (unfold cell_number; apply Zfloor_imp; rewrite ?plus_IZR; lra).
    intros i j p q Hp _ Hq _ Hij. rewrite Hs in Hp, Hq. exists 0%nat. split; [cbn; lia|].
    destruct i as [|[|i]], j as [|[|j]]; try done; apply (inj Some) in Hp, Hq; subst p q; unfold coord; cbn [pX]; cbn; rewrite C1, C2; done.
  - do 2 eexists. split; [reflexivity|]. split; [done|]. split; [done|]. apply (overlap_edist 0 1); lia.
Qed.

(** The central gravity scene of 3 x 3 particles, l_0 = 1, in [double]. *)
Definition cc_env : option (environment B64num default_config) :=
  new_env default_config (nofZ 1 /. nofZ 10 : B64num) (nofZ 1 /. nofZ 10) (nofZ 10) (nofZ 1000) (nofZ 0) (nofZ 1) (nofZ 24 /. nofZ 10) (nofZ 1) (nofZ 1)
    ((nofZ (-8), nofZ (-8)) : vec B64num D2) ((nofZ 8, nofZ 8) : vec B64num D2).
Definition cc_parts : list (particle B64num D2) := scParts (central_gravity (nofZ 1 : B64num) 1 1 8).
Notation cc_computer := (computer default_config (fixed_walls (N := B64num) default_config (map pX cc_parts))).
Definition cc_check_env (e : environment B64num default_config) : option (bool * option Z * option Z) :=
  match new_computer default_config (fixed_walls (N := B64num) default_config (map pX cc_parts)) (nofZ 1) e tt with
  | Some _ => Some (is_finite (eNL e : B64) && (nofZ 0 <?. eNL e) && (eNL e <=?. nofZ 100), blocks_along e 0, blocks_along e 1)
  | None => None
  end.
Definition cc_check : option (bool * option Z * option Z) := match cc_env with Some e => cc_check_env e | None => None end.
Lemma cc_checked : cc_check = Some (true, Some 8%Z, Some 8%Z).
Proof. vm_cast_no_check (@eq_refl _ (Some (true, Some 8%Z, Some 8%Z))). Qed.
Theorem example_cell_scene : exists (env : environment B64num default_config) (s : cc_computer),
  initial (mkCondition (nofZ 1) (nofZ 0) (nofZ 1) (nofZ 1)) env cc_parts s /\ length (cParts s) = 9%nat /\
  forall dt s', forward_dt dt s <> Throw TooManyParticles s'.
Proof.
  pose proof cc_checked as H. unfold cc_check in H. destruct cc_env as [e|] eqn:He; [|discriminate H].
  unfold cc_check_env in H.
  destruct (new_computer default_config (fixed_walls (N := B64num) default_config (map pX cc_parts)) (nofZ 1) e tt) as [s0|] eqn:Hs0; [|discriminate H].
  apply (inj Some) in H. pose proof (f_equal (fun t => t.1.1) H) as H1. pose proof (f_equal (fun t => t.1.2) H) as H2. pose proof (f_equal snd H) as H3.
  cbn [fst snd] in H1, H2, H3. clear H. apply andb_prop in H1 as [H1 HU]. apply andb_prop in H1 as [HF HP].
  assert (eL0 e = (nofZ 1 : B64num)) as Hl by (by destruct (C15_constants _ _ _ _ _ _ _ _ _ _ _ _ _ He) as (_ & _ & -> & _)).
  exists e, (add_particles (cfg := default_config) cc_parts s0).
  assert (initial (mkCondition (nofZ 1) (nofZ 0) (nofZ 1) (nofZ 1)) e cc_parts (add_particles (cfg := default_config) cc_parts s0)) as Hi by (by exists s0).
  split; [done|]. split; [exact (f_equal length (proj2 (initial_is _ _ _ _ Hi)))|]. intros dt s'.
  destruct one_finite as [F1 V1].
  assert (laid_out (N := B64num) (eL0 e) cc_parts (block_shape 1 1)) as A1 by (rewrite Hl; apply C73_central).
  assert (/ 10 ^ 12 <= B2R (eL0 e : B64) <= 10 ^ 12) as A2.
  { rewrite Hl, V1. assert (1 <= 10 ^ 12) by (rewrite <- (pow1 12); apply pow_incr; lra). split; [|done].
    rewrite <- Rinv_1. apply Rinv_le_contravar; lra. }
  assert (forall t a b, block_shape 1 1 t a b -> (Z.abs a <= 10 ^ 9 /\ Z.abs b <= 10 ^ 9)%Z) as A3 by (intros t a b (_ & Ha & Hb); lia).
  assert (0 < B2R (eNL e : B64) <= 100 * B2R (eL0 e : B64)) as A4.
  { rewrite Hl, V1. destruct (pos_split _ HP) as [[_ H0]|HI]; [|by rewrite HI in HF]. split; [done|].
    destruct (int_double 100 ltac:(lia)) as [F100 V100].
    change (Bleb (eNL e : B64) (@nofZ B64num 100 : B64) = true) in HU. rewrite (Bleb_correct _ _ (eNL e : B64) (@nofZ B64num 100 : B64) HF F100) in HU.
    revert HU. case Rle_bool_spec; intros HU; [intros _|done]. rewrite V100 in HU. lra. }
  assert (forall k m, (k < 2)%nat -> blocks_along e k = Some m -> (m <= 10 ^ 10)%Z) as A5.
  { intros [|[|k]] m Hk Hm; [rewrite Hm in H2; injection H2 as ->; lia|rewrite Hm in H3; injection H3 as ->; lia|lia]. }
  exact (C48_scene false true true true false true true true false e (mkCondition (nofZ 1) (nofZ 0) (nofZ 1) (nofZ 1)) cc_parts (block_shape 1 1) _ dt
    A1 A2 A3 HF A4 A5 Hi s').
Qed.

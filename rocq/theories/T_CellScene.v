(** Property theorem: the first step of a lattice scene never raises the grid exception, rounding included (C48). *)
From Coq Require Import ZArith Reals Lia Lra.
From Verif Require Import S_Terms.
From Verif Require Import P_Reach S_Main S_Bench S_Outcome T_FloatSearch T_Script P_B64.
From Verif Require Export T_Cells.
From Flocq Require Import Core BinarySingleNaN Relative.
Open Scope R_scope.

(** A coordinate of a scene, as computed: a whole number times l_0, rounded. *)
Lemma coordinate_near z (l_0 : B64) : (Z.abs z <= 10 ^ 9)%Z -> / 10 ^ 12 <= B2R l_0 <= 10 ^ 12 ->
  Rabs (B2R ((@nofZ B64num z : B64num) ×. l_0 : B64) - B2R l_0 * IZR z) <= B2R l_0 / 1000.
Proof.
  intros Hz [Hl1 Hl2]. destruct (int_double z Hz) as [Fz Vz]. assert (0 < / 10 ^ 12) as Hp by (apply Rinv_0_lt_compat, pow_lt; lra).
  change ((@nofZ B64num z : B64num) ×. l_0) with (Bmult mode_NE (@nofZ B64num z : B64) l_0).
  pose proof (Bmult_correct 53 1024 _ _ mode_NE (@nofZ B64num z : B64) l_0) as HM. rewrite Vz in HM.
  assert (Rabs (IZR z) <= 10 ^ 9) as HZ. { rewrite <- abs_IZR. replace (10 ^ 9) with (IZR (10 ^ 9)) by (rewrite pow_IZR; done). by apply IZR_le. }
  assert (Rabs (IZR z * B2R l_0) <= bpow radix2 100) as HB.
  { rewrite Rabs_mult, (Rabs_pos_eq (B2R l_0)) by lra. apply Rle_trans with (10 ^ 9 * 10 ^ 12).
    - apply Rmult_le_compat; [apply Rabs_pos|lra|done|done].
    - rewrite <- pow_add, pow_IZR. change (bpow radix2 100) with (IZR (2 ^ 100)). apply IZR_le. vm_compute. discriminate. }
  rewrite Rlt_bool_true in HM; [|apply big_bound_abs; eapply Rle_trans; [exact HB|apply bpow_le; lia]]. destruct HM as (H1 & _). rewrite H1.
  destruct (error_N_FLT radix2 (3 - 1024 - 53) 53 eq_refl (fun x => negb (Z.even x)) (IZR z * B2R l_0)) as (f & t & Hf & Ht & _ & Hr).
  assert (/ 2 * bpow radix2 (- (53) + 1) = ulp1) as E1. { unfold ulp1. change (/ 2) with (bpow radix2 (-1)). by rewrite <- bpow_plus. }
  assert (/ 2 * bpow radix2 (3 - 1024 - 53) = tiny1) as E2. { unfold tiny1. change (/ 2) with (bpow radix2 (-1)). by rewrite <- bpow_plus. }
  rewrite E1 in Hf. rewrite E2 in Ht.
  change (round radix2 (SpecFloat.fexp 53 1024) (round_mode mode_NE) (IZR z * B2R l_0)) with
    (round radix2 (FLT_exp (3 - 1024 - 53) 53) (Znearest (fun x => negb (Z.even x))) (IZR z * B2R l_0)). rewrite Hr.
  replace (IZR z * B2R l_0 * (1 + f) + t - B2R l_0 * IZR z) with (IZR z * f * B2R l_0 + t) by ring.
  eapply Rle_trans; [apply Rabs_triang|]. rewrite !Rabs_mult, (Rabs_pos_eq (B2R l_0)) by lra.
  assert (Rabs (IZR z) * Rabs f <= 10 ^ 9 * ulp1) as HP by (apply Rmult_le_compat; try apply Rabs_pos; done).
  assert (10 ^ 9 * ulp1 <= / 2000) as HU.
  { unfold ulp1. replace (10 ^ 9) with (IZR (10 ^ 9)) by (rewrite pow_IZR; done). change (bpow radix2 (-53)) with (/ IZR (2 ^ 53)).
    apply (Rmult_le_reg_r (IZR (2 ^ 53) * 2000)); [apply Rmult_lt_0_compat; [apply IZR_lt; done|lra]|].
    replace (IZR (10 ^ 9) * / IZR (2 ^ 53) * (IZR (2 ^ 53) * 2000)) with (IZR (10 ^ 9) * IZR 2000) by (field; apply not_0_IZR; done).
    replace (/ 2000 * (IZR (2 ^ 53) * 2000)) with (IZR (2 ^ 53)) by field. rewrite <- mult_IZR. apply IZR_le. vm_compute. discriminate. }
  assert (tiny1 <= / 10 ^ 12 / 2000) as HT.
  { unfold tiny1. apply Rle_trans with (bpow radix2 (-60)); [apply bpow_le; lia|]. change (bpow radix2 (-60)) with (/ IZR (2 ^ 60)).
    unfold Rdiv. rewrite <- Rinv_mult_distr by (try apply pow_nonzero; lra). apply Rinv_le_contravar; [apply Rmult_lt_0_compat; [apply pow_lt|]; lra|].
    rewrite pow_IZR, <- mult_IZR. apply IZR_le. vm_compute. discriminate. }
  assert (Rabs (IZR z) * Rabs f * B2R l_0 <= / 2000 * B2R l_0) by (apply Rmult_le_compat_r; lra). lra.
Qed.

Lemma initial_is {N : num} {cfg : config} cond (env : environment N cfg) (particles : list (particle N (cDim cfg))) s :
  initial cond env particles s -> reachable env s /\ cParts s = particles.
Proof.
  intros (s0 & H0 & ->). split.
  - apply (reach_done env (AddParticles cfg particles) s0); [by eapply reach_new|done].
  - assert (cParts s0 = []) as E. { unfold new_computer in H0. destruct (new_grid _ _ _ _ _); [|done]. by injection H0 as <-. }
    unfold add_particles. cbn [cParts]. by rewrite E.
Qed.

(** Any scene of at most 10^9 cells each way from the origin, one particle per cell, l_0 between 10^-12 and 10^12, NeighborLength up to 100 l_0, at most
    10^10 blocks each way - in particular the scenes of the benchmark scripts (C73_static, C73_koshizuka, C73_zhou, C73_central) - passes the first search in
    [double], whatever the time step. *)
Theorem C48_scene (ex hs hl ecs gc ds spp mid cen : bool) (env : environment B64num (mkConfig D2 ex hs hl ecs gc ds spp mid cen)) cond
    (parts : list (particle B64num D2)) shape s dt :
  laid_out (N := B64num) (eL0 env) parts shape -> / 10 ^ 12 <= B2R (eL0 env : B64) <= 10 ^ 12 ->
  (forall t a b, shape t a b -> (Z.abs a <= 10 ^ 9 /\ Z.abs b <= 10 ^ 9)%Z) ->
  is_finite (eNL env : B64) = true -> 0 < B2R (eNL env : B64) <= 100 * B2R (eL0 env : B64) ->
  (forall k m, (k < 2)%nat -> blocks_along env k = Some m -> (m <= 10 ^ 10)%Z) ->
  initial cond env parts s -> forall s', forward_dt dt s <> Throw TooManyParticles s'.
Proof.
  intros (sites & HF & [Hnd Hty] & Hsh) Hl Hbd FL [HL0 HL1] Hbl Hi. destruct (initial_is _ _ _ _ Hi) as [Hr Hp].
  assert (0 < / 10 ^ 12) as Hpos by (apply Rinv_0_lt_compat, pow_lt; lra).
  apply (C48_binary64 env dt s (fun _ => 0) (B2R (eL0 env : B64)) (B2R (eL0 env : B64) / 1000) (10 ^ 10)); try done.
  - by left.
  - lra.
  - exists (fun i k => match sites !! i with Some (_, a, b) => if decide (k = 0%nat) then a else b | None => 0%Z end). split.
    + intros i p k Hip _ Hk. rewrite Hp in Hip. destruct (Forall2_lookup_r _ _ _ _ _ HF Hip) as ([[t a] b] & Hs & _ & HX & _). rewrite Hs.
      assert (holds sites t a b) as Hh by (by eapply elem_of_list_lookup_2). apply Hsh in Hh. destruct (Hbd t a b Hh) as [Ha Hb].
      cbn [fst snd] in HX. rewrite Rplus_0_l. cbn [cDim] in *. rewrite HX.
      assert (k = 0 \/ k = 1)%nat as [-> | ->] by (cbn in Hk; lia).
      * rewrite decide_True by done. apply (coordinate_near a (eL0 env) Ha Hl).
      * rewrite decide_False by done. apply (coordinate_near b (eL0 env) Hb Hl).
    + intros i j p q Hip _ Hjq _ Hk. rewrite Hp in Hip, Hjq.
      destruct (Forall2_lookup_r _ _ _ _ _ HF Hip) as ([[t a] b] & Hs & _). destruct (Forall2_lookup_r _ _ _ _ _ HF Hjq) as ([[t' a'] b'] & Hs' & _).
      rewrite Hs, Hs' in Hk. pose proof (Hk 0%nat ltac:(cbn; lia)) as H0. pose proof (Hk 1%nat ltac:(cbn; lia)) as H1. rewrite !decide_True in H0 by done. rewrite !decide_False in H1 by done. subst a' b'.
      apply (NoDup_lookup _ i j (a, b) Hnd); by rewrite list_lookup_fmap, ?Hs, ?Hs'.
  - assert (IZR (10 ^ 10 + 2) * bpow radix2 (-50) <= / 1000) as HB.
    { change (bpow radix2 (-50)) with (/ IZR (2 ^ 50)).
      apply (Rmult_le_reg_r (IZR (2 ^ 50) * 1000)); [apply Rmult_lt_0_compat; [apply IZR_lt; done|lra]|].
      replace (IZR (10 ^ 10 + 2) * / IZR (2 ^ 50) * (IZR (2 ^ 50) * 1000)) with (IZR (10 ^ 10 + 2) * IZR 1000) by (field; apply not_0_IZR; done).
      replace (/ 1000 * (IZR (2 ^ 50) * 1000)) with (IZR (2 ^ 50)) by field. rewrite <- mult_IZR. apply IZR_le. vm_compute. discriminate. }
    assert (bpow radix2 (-50) <= / 1000) as HB2.
    { change (bpow radix2 (-50)) with (/ IZR (2 ^ 50)). apply Rinv_le_contravar; [lra|]. apply IZR_le. vm_compute. discriminate. }
    pose proof (bpow_gt_0 radix2 (-50)) as HB3. set (l := B2R (eL0 env : B64)) in *. set (L := B2R (eNL env : B64)) in *.
    assert (0 < l) by lra. set (c := IZR (10 ^ 10 + 2) * bpow radix2 (-50)) in *.
    assert (c * L <= / 1000 * L) by (apply Rmult_le_compat_r; lra).
    assert (l * bpow radix2 (-50) <= l * / 1000) by (apply Rmult_le_compat_l; lra). lra.
Qed.

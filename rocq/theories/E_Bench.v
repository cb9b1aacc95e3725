(** Examples for C73: the scenes with the constants of the scripts. *)
From Verif Require Import S_Terms.
From Verif Require Import S_Bench P_Bench T_Env T_Bench.
Open Scope R_scope.

Section Scripts.
  Context (hs hl ecs gc ds mid : bool) (cond : M_Main.condition (N := Rnum)).
  Lemma some_env maxDt g rho nu surf c l_0 minX maxX : exists env, bench_env hs hl ecs gc ds mid maxDt g rho nu surf c l_0 minX maxX = Some env.
  Proof. destruct (C13_constructor_defined (cfg := bench_config hs hl ecs gc ds mid) maxDt (1/10) g rho nu surf (24/10) c l_0 minX maxX ltac:(lra)) as [env H]. by exists env. Qed.
  Lemma tiny (x : R) : 1 / 10000 <= x -> / 10 ^ 12 <= x.
  Proof. intros H. eapply Rle_trans; [|exact H]. apply Rmult_le_reg_r with (10 ^ 12); [apply pow_lt; lra|]. rewrite Rinv_l by (apply pow_nonzero; lra). lra. Qed.

  (** StaticPressure/generate.py as it stands: l_0 = 1 mm, 50 by 100 particles of water, the first step is at most 5e-6 s. *)
  Example static_script : exists env,
    bench_env hs hl ecs gc ds mid (5 / 1000000) (98/10) (9982/10) (1004 / 10 ^ 9) (95/100) 1 (1/1000) (scMin (static_pressure (N := Rnum) (1/1000) 50 100)) (scMax (static_pressure (N := Rnum) (1/1000) 50 100)) = Some env /\
    first_step_succeeds hs hl ecs gc ds mid cond env (scParts (static_pressure (N := Rnum) (1/1000) 50 100)).
  Proof.
    destruct (some_env (5 / 1000000) (98/10) (9982/10) (1004 / 10 ^ 9) (95/100) 1 (1/1000) (scMin (static_pressure (N := Rnum) (1/1000) 50 100)) (scMax (static_pressure (N := Rnum) (1/1000) 50 100))) as [env H].
    exists env. split; [done|]. eapply C73_static_runs; [exact H|lra|lra|apply tiny; lra|lia|lia].
  Qed.
  (** In that scene the density shown ten cells from the left wall and ten above the floor is N0 after the first step. *)
  Example static_script_density env s' i :
    bench_env hs hl ecs gc ds mid (5 / 1000000) (98/10) (9982/10) (1004 / 10 ^ 9) (95/100) 1 (1/1000) (-4 * (1/1000), -4 * (1/1000)) ((IZR 50 + 3) * (1/1000), IZR 100 * (1/1000)) = Some env ->
    first_step hs hl ecs gc ds mid cond env (placed (N := Rnum) (1/1000) (static_sites 50 100)) s' ->
    static_sites 50 100 !! i = Some (Newton, 10%Z, 10%Z) -> exists p', cParts s' !! i = Some p' /\ pN p' = eN0 env.
  Proof.
    intros H H1 Hi. eapply (C73_density hs hl ecs gc ds mid (5 / 1000000) (98/10) (9982/10) (1004 / 10 ^ 9) (95/100) 1 (1/1000) _ _ env (static_sites 50 100) _ cond s' i 10 10 H).
    - lra.
    - lra.
    - apply tiny. lra.
    - by apply stands_placed.
    - by apply tank_static.
    - intros t a b Hx%holds_static; [|lia..].
      change (-4 * (1/1000) <= IZR a * (1/1000) < (IZR 50 + 3) * (1/1000) + 5.76 * (1/1000) /\ -4 * (1/1000) <= IZR b * (1/1000) < IZR 100 * (1/1000) + 5.76 * (1/1000)).
      assert (-4 <= a <= 53 /\ -4 <= b <= 100)%Z as [[A1 A2] [B1 B2]] by (unfold water, inner_wall, behind_wall in Hx; lia).
      apply IZR_le in A1, A2, B1, B2. lra.
    - exact H1.
    - done.
    - intros x y Hx Hy. apply holds_static; [lia..|]. left. split; [done|]. unfold water. lia.
  Qed.
  (** There is such a cell. *)
  Example static_script_cell : exists i, static_sites 50 100 !! i = Some (Newton, 10%Z, 10%Z).
  Proof. apply elem_of_list_lookup. apply (holds_static 50 100 Newton 10 10); [lia..|]. left. split; [done|]. unfold water. lia. Qed.
  (** generate_koshizukaoka1996.py and generate_zhouetal1999.py as they stand. *)
  Example koshizuka_script : exists sc env, koshizuka_oka (N := Rnum) (8/1000) (146/1000) 2 4 = Some sc /\
    bench_env hs hl ecs gc ds mid (5/10000) (98/10) (9982/10) (1004 / 10 ^ 9) (97/100) 1 (8/1000) (scMin sc) (scMax sc) = Some env /\
    first_step_succeeds hs hl ecs gc ds mid cond env (scParts sc).
  Proof.
    destruct (C73_koshizuka_runs hs hl ecs gc ds mid (5/10000) (98/10) (9982/10) (1004 / 10 ^ 9) (97/100) 1 (8/1000) (146/1000) 2 4 cond) as (sc & E & HR); try lra.
    destruct (some_env (5/10000) (98/10) (9982/10) (1004 / 10 ^ 9) (97/100) 1 (8/1000) (scMin sc) (scMax sc)) as [env H]. exists sc, env. split; [done|]. split; [done|]. by apply HR.
  Qed.
  Example zhou_script : exists sc env, zhou_et_al (N := Rnum) (20/1000) (1000/1000) (3220/1000) (6/10) (1200/1000) = Some sc /\
    bench_env hs hl ecs gc ds mid (5/10000) (98/10) (9982/10) (1004 / 10 ^ 9) (97/100) 1 (20/1000) (scMin sc) (scMax sc) = Some env /\
    first_step_succeeds hs hl ecs gc ds mid cond env (scParts sc).
  Proof.
    destruct (C73_zhou_runs hs hl ecs gc ds mid (5/10000) (98/10) (9982/10) (1004 / 10 ^ 9) (97/100) 1 (20/1000) (1000/1000) (3220/1000) (6/10) (1200/1000) cond) as (sc & E & HR); try lra.
    destruct (some_env (5/10000) (98/10) (9982/10) (1004 / 10 ^ 9) (97/100) 1 (20/1000) (scMin sc) (scMax sc)) as [env H]. exists sc, env. split; [done|]. split; [done|]. by apply HR.
  Qed.
End Scripts.
(** A shape is not empty and knows what is where. *)
Example shape_samples : static_shape 50 100 Newton 49 99 /\ ~ static_shape 50 100 Newton 50 0 /\ static_shape 50 100 Wall 50 100 /\ static_shape 50 100 Dummy (-4) (-4) /\
  dam_shape 0 19 37 73 37 Wall 74 36 /\ dam_shape 101 60 30 161 50 Newton 160 29.
Proof. unfold static_shape, dam_shape, water, inner_wall, behind_wall, rim. repeat split; try (intros H); lia || tauto || (left; split; [done|lia]) || (right; left; split; [done|lia]) || (right; right; split; [done|lia]) || idtac. all: intuition (try discriminate; lia). Qed.

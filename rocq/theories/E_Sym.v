(** Examples for C63: the two drops of E_Real are mirror images of each other and stay so; and adding them in the other order
    gives the same flow. *)
From Verif Require Import P_Neigh P_Force P_Step T_Search T_Env T_Density T_Force T_Solve T_Outcome S_Outcome S_Scheme T_Scheme S_Sym P_Sym T_Sym M_Main E_Real.
From Verif Require Import S_Sym.
Open Scope R_scope.

(** Mirror in the vertical line x = 7/2. *)
Definition mirror (a c : nat) : R := if (a =? c)%nat then (if (a =? 0)%nat then -1 else 1) else 0.
Definition mirror_at : rvec := ((7, 0) : rvec).
Lemma mirror_orthogonal : orthogonal 2 mirror.
Proof. intros a c Ha Hc. destruct a as [|[|]], c as [|[|]]; try lia; unfold mirror, sum_n, rsum, one_if_same; simpl; split; ring. Qed.
Lemma mirror_carry (x : rvec) : carry (cfg := rcfg) mirror mirror_at x = ((7 - x.1, x.2) : rvec).
Proof. destruct x as [x z]. cbn in x, z. unfold carry, rotate, mirror, mirror_at, sum_n, rsum. cbn. f_equal; ring. Qed.
Lemma mirror_rotate (x : rvec) : rotate (cfg := rcfg) mirror x = ((- x.1, x.2) : rvec).
Proof. destruct x as [x z]. cbn in x, z. unfold rotate, mirror, sum_n, rsum. cbn. f_equal; ring. Qed.
Lemma other_renumbers : renumbering 2 other.
Proof. unfold other. split; intros; lia. Qed.

Lemma drops_mirrored : same_frame (cfg := rcfg) mirror mirror_at other drops drops.
Proof.
  split; [done|]. split; [exact other_renumbers|]. intros i p Hp. destruct i as [|[|i]]; cbn in Hp; [| |done]; injection Hp as <-; cbn; f_equal.
  - unfold carry_part, drop_at. cbn [pX pU pP pN pT]. rewrite mirror_carry, mirror_rotate. cbn. f_equal; f_equal; ring.
  - unfold carry_part, drop_at. cbn [pX pU pP pN pT]. rewrite mirror_carry, mirror_rotate. cbn. f_equal; f_equal; ring.
Qed.
Lemma walls_mirrored : walls_correspond mirror mirror_at other 2 rwall rwall (fun _ _ => True).
Proof.
  intros w w' t dt _. cbv zeta. split; [done|]. intros i Hi. destruct i as [|[|i]]; [| |lia]; rewrite mirror_carry; cbn; f_equal; ring.
Qed.

Theorem example_mirror : exists (env0 : environment Rnum rcfg) (s s' : rcomputer),
  ex_env = Some env0 /\ square_ground env0 /\ 0 < eNL env0 /\ 0 <= eRe env0 /\ reachable env0 s /\ cParts s = drops /\
  orthogonal 2 mirror /\ walls_correspond mirror mirror_at other (psize s) rwall rwall (fun _ _ => True) /\
  (forall x, gravity_at (cEnv s) (carry mirror mirror_at x) = rotate mirror (gravity_at (cEnv s) x)) /\
  same_frame mirror mirror_at other (cParts s) (cParts s) /\ ended (forward_dt (ex_dt : Rnum) s) s' /\ same_losses other s' s' /\
  (* hence *) same_frame mirror mirror_at other (cParts s') (cParts s').
Proof.
  destruct ex_env_facts as (e & Hee & He). destruct (ex_new e He (1/1000000 : Rnum)) as [s0 Hs0].
  destruct (ex_completes e He _ s0 Hs0) as [s' Hf]. pose proof (ex_parts e (1/1000000 : Rnum) s0 Hs0) as HP. pose proof (ex_reachable e (1/1000000 : Rnum) s0 Hs0) as HR.
  set (s := ex_state s0) in *.
  assert (square_ground e) as Hsq by (by left). assert (0 < eNL e) as HNL by (rewrite (ef_nl e He); lra). assert (0 <= eRe e) as HRe by (rewrite (ef_re e He); lra).
  assert (psize s = 2%nat) as HN by (unfold psize; by rewrite HP).
  assert (forall x, gravity_at (cEnv s) (carry mirror mirror_at x) = rotate mirror (gravity_at (cEnv s) x)) as HG.
  { intros x. rewrite mirror_rotate.
    unfold gravity_at. cbn [cCentral rcfg]. assert (eG (cEnv s) = ((0, -10) : rvec)) as ->; [|cbn; f_equal; ring].
    destruct (reachable_geom e s Hsq HR) as (_ & _ & K). rewrite K. cbn. apply He. }
  assert (same_frame mirror mirror_at other (cParts s) (cParts s)) as HF by (rewrite HP; apply drops_mirrored).
  assert (ended (forward_dt (ex_dt : Rnum) s) s') as HE by (by left).
  assert (forall i p, cParts s' !! i = Some p -> enabled p) as HEn.
  { intros i p' Hp'. pose proof Hf as (s1 & s2 & s3 & s4 & s5 & s6 & s7 & HT)%forward_Done.
    assert (step_prefix (ex_dt : Rnum) s s1 s2 s3 s4 s5 s6) as HPre by (destruct HT; by split).
    destruct (ex_prefix e He _ s0 Hs0 _ _ _ _ _ _ HPre) as [HM _ HB _ _].
    pose proof (trace_phase _ _ _ _ _ _ _ _ _ _ HT s' ltac:(rewrite !elem_of_cons; tauto)) as P8.
    destruct (phase_type _ _ _ _ P8 Hp') as (p1 & Hp1 & Ht). destruct (pair_at _ _ _ _ _ (HB s1 ltac:(by left)) Hp1) as (_ & HT1 & _). unfold enabled. by rewrite Ht, HT1. }
  assert (same_losses other s' s') as HL. { intros i p q Hp Hq. split; intros _; by eapply HEn. }
  assert (walls_correspond mirror mirror_at other (psize s) rwall rwall (fun _ _ => True)) as HW by (rewrite HN; apply walls_mirrored).
  exists e, s, s'. repeat (split; [done|]). split; [apply mirror_orthogonal|]. repeat (split; [done|]).
  apply (C63_symmetry_kept mirror mirror_at other (fun _ _ => True) e ex_dt s s'); try done. apply mirror_orthogonal.
Qed.

(** The drops in the other order. *)
Definition spord : list rpart := [drop_at 4 3; drop_at 3 3].
Definition rwall' := fixed_walls (N := Rnum) rcfg (map pX spord).
Theorem example_order : exists (env0 : environment Rnum rcfg) (s : rcomputer) (t : computer rcfg rwall') s' t',
  ex_env = Some env0 /\ reachable env0 s /\ reachable env0 t /\ locatable env0 s /\ cParts s = drops /\ cParts t = spord /\
  walls_correspond one_if_same vzero other (psize s) rwall rwall' (fun _ _ => True) /\
  corresponding one_if_same vzero other (fun _ _ => True) s t /\
  forward_dt (ex_dt : Rnum) s = Done s' /\
  (* hence *) forward_dt (ex_dt : Rnum) t = Done t' /\ corresponding one_if_same vzero other (fun _ _ => True) s' t'.
Proof.
  destruct ex_env_facts as (e & Hee & He). destruct (ex_new e He (1/1000000 : Rnum)) as [s0 Hs0].
  destruct (ex_completes e He _ s0 Hs0) as [s' Hf]. pose proof (ex_parts e (1/1000000 : Rnum) s0 Hs0) as HP. pose proof (ex_reachable e (1/1000000 : Rnum) s0 Hs0) as HR.
  pose proof (ex_locatable e He (1/1000000 : Rnum) s0 Hs0) as HLoc.
  assert (exists t0, new_computer rcfg rwall' (1/1000000 : Rnum) e tt = Some t0) as [t0 Ht0].
  { pose proof Hs0 as H. unfold new_computer in *. destruct (new_grid _ _ _ _ _); [|done]. by eexists. }
  assert (cParts t0 = [] /\ cParts s0 = [] /\ cEnv t0 = e /\ cEnv s0 = e /\ cEps t0 = cEps s0) as (K1 & K2 & K3 & K4 & K5).
  { unfold new_computer in Ht0, Hs0. destruct (new_grid _ _ _ _ _); [|done]. injection Ht0 as <-. injection Hs0 as <-. done. }
  set (s := ex_state s0) in *. set (t := add_particles spord t0).
  assert (reachable e t) as HR' by (apply (reach_done e (AddParticles rcfg spord) t0); [by eapply reach_new|done]).
  assert (cParts t = spord) as HPt by (unfold t, add_particles; cbn [cParts]; by rewrite K1).
  assert (square_ground e) as Hsq by (by left). assert (0 < eNL e) as HNL by (rewrite (ef_nl e He); lra). assert (0 <= eRe e) as HRe by (rewrite (ef_re e He); lra).
  assert (psize s = 2%nat) as HN by (unfold psize; by rewrite HP).
  assert (corresponding one_if_same vzero other (fun _ _ => True) s t) as HC.
  { assert (cEnv t = cEnv s) as EE. { unfold t, s, ex_state, add_particles. cbn [cEnv]. congruence. }
    split; [| |unfold t, s, ex_state, add_particles; cbn [cEps]; done|done].
    - rewrite HP, HPt. split; [done|]. split; [exact other_renumbers|]. intros i p Hp. rewrite carry_part_one. destruct i as [|[|i]]; cbn in Hp |- *; done.
    - rewrite EE. split; try done. intros x. by rewrite carry_one, rotate_one. }
  assert (walls_correspond one_if_same vzero other (psize s) rwall rwall' (fun _ _ => True)) as HW.
  { rewrite HN. intros w w' u dt _. cbv zeta. split; [done|]. intros i Hi. rewrite (carry_one (cfg := rcfg)). destruct i as [|[|i]]; [done|done|lia]. }
  pose proof (C63_numbering_outcome other (fun _ _ => True) e ex_dt s t HW Hsq HNL HRe HR HR' HLoc HC) as HO.
  rewrite Hf in HO. destruct HO as (t' & H1 & H2). exists e, s, t, s', t'. done.
Qed.

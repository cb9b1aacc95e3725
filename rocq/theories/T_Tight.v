(** C78: with rounding the pressure solver can give up on a call that completes in exact arithmetic. *)
From Verif Require Import P_Neigh P_Force P_Phase P_Step P_Point P_Search T_Search T_Env T_Outcome S_Outcome S_Lattice M_Main E_Real E_Scene
  S_Frame T_Frame P_Surf P_Bench M_NumF S_Tight.
Open Scope R_scope.

Notation cfg := (plane false true true true false true true true false).
Notation V := (vec Rnum D2).
Notation part := (particle Rnum (cDim cfg)).
Notation tps := (tight_particles Rnum : list part).

(** The three places. *)
Definition tight_x (i : nat) : R := match i with 0%nat => 5 | 1%nat => 6 | _ => 193/32 end.
Lemma tight_inv i (p : part) : tps !! i = Some p ->
  (i < 3)%nat /\ coord (pX p) 0 = tight_x i /\ coord (pX p) 1 = 5 /\ pU p = vzero /\ pT p = Newton.
Proof.
  destruct i as [|[|[|i]]]; intros H; try done; injection H as <-; (split; [lia|]); repeat split; cbn; lra.
Qed.

Section Exact.
  Context (e : environment Rnum cfg) (He : scene_facts false true true true false true true true false e).
  Notation wm := (fixed_walls (N := Rnum) cfg (map pX tps)).
  Context (s0 : computer cfg wm) (Hs0 : new_computer cfg wm (nofZ 1 /. nofZ 10000000000) e tt = Some s0).
  Notation s := (scene_state false true true true false true true true false tps s0).
  Notation dt := (1 / 64).
  Notation env1 := (env_of_step dt s).
  Notation wall := (walls_of_step dt s).

  Lemma tight_fits : fits false true true true false true true true false tps.
  Proof.
    split; [cbn; lia|]. intros p Hp. apply elem_of_list_lookup in Hp as [i Hp]. apply tight_inv in Hp as (Hi & C0 & C1 & _ & T).
    split; [intros HX; pose proof (eq_trans (eq_sym T) HX); discriminate|]. intros k Hk. destruct k as [|[|k]]; [| |lia].
    - assert (0 <= tight_x i <= 10) as HX by (unfold tight_x; destruct i as [|[|i]]; lra). rewrite <- C0 in HX. exact HX.
    - assert (0 <= 5 <= 10) as HX by lra. rewrite <- C1 in HX. exact HX.
  Qed.
  Lemma tight_parts : cParts s = tps.
  Proof. exact (scene_parts _ _ _ _ _ _ _ _ _ tps e _ s0 Hs0). Qed.
  Lemma tight_env_of : cEnv s = e.
  Proof. pose proof Hs0 as H. unfold new_computer in H. destruct (new_grid _ _ _ _ _); [|done]. by injection H as <-. Qed.

  Lemma tight_removal (ps0 : list part) : removal env1 tps ps0 -> ps0 = tps.
  Proof.
    intros [Hlen H]. apply list_eq. intros i. destruct (tps !! i) as [p|] eqn:Hp.
    - destruct (H i p Hp) as (p' & Hp' & _ & Hno). rewrite Hno in Hp'; [done|]. intros (k & Hk & Hout).
      change (eMinX env1) with (eMinX (cEnv s)) in Hout. change (eMaxX env1) with (eMaxX (cEnv s)) in Hout. change (eNL env1) with (eNL (cEnv s)) in Hout.
      rewrite tight_env_of in Hout. rewrite (sf_nl _ _ _ _ _ _ _ _ _ e He), (sf_min _ _ _ _ _ _ _ _ _ e He), (sf_max _ _ _ _ _ _ _ _ _ e He) in Hout.
      destruct tight_fits as [_ Hf]. destruct (Hf p (elem_of_list_lookup_2 _ _ _ Hp)) as [_ Hb]. specialize (Hb k Hk).
      change (cDim cfg) with D2 in *. cbn [dimn] in Hk.
      assert (coord ((0, 0) : V) k = 0 /\ coord ((10, 10) : V) k = 10) as [K0 K1] by (destruct k as [|[|k]]; [done|done|cbn in Hk; lia]).
      assert (coord (pX p) k < 0 \/ exists n, IZR n - 1 < (10 - 0) / (36/25) <= IZR n /\ 0 + (IZR n + 2) * (36/25) <= coord (pX p) k) as Hout2.
      { rewrite <- K0, <- K1. exact Hout. }
      assert (0 <= coord (pX p) k <= 10) as Hb2 by exact Hb. clear Hb Hout. set (c := coord (pX p) k) in *. clearbody c.
      destruct Hout2 as [Hout2|(n & [_ Hn] & Hout2)]; lra.
    - apply lookup_ge_None. apply lookup_ge_None in Hp. etransitivity; [|exact Hp]. exact (Nat.eq_le_incl _ _ Hlen).
  Qed.
  Lemma tight_kept (a b : list part) i p : densities env1 a b -> a !! i = Some p ->
    exists p', b !! i = Some p' /\ pX p' = pX p /\ pU p' = pU p /\ pT p' = pT p.
  Proof.
    intros [_ H] Hp. destruct (H i p Hp) as (p' & Hp' & H1 & H2). exists p'. split; [done|].
    destruct (fluid_or_wall_dec (cfg := cfg) p) as [Hf|Hf]; [by rewrite H1|by rewrite H2].
  Qed.
  Lemma tight_moved (ps0 ps1 ps' : list part) i p : removal env1 tps ps0 -> densities env1 ps0 ps1 -> movement env1 wall ps1 ps' ->
    tps !! i = Some p ->
    exists p', ps' !! i = Some p' /\ pT p' = Newton /\ coord (pX p') 0 = tight_x i /\ coord (pX p') 1 = 5 - 10 / 4096.
  Proof.
    intros HR HDn HM Hp. apply tight_removal in HR as ->. destruct (tight_kept _ _ _ _ HDn Hp) as (p1 & Hp1 & X1 & U1 & T1).
    assert (forall j q, ps1 !! j = Some q -> pU q = vzero) as HU.
    { intros j q Hq. assert (j < length tps)%nat as Hj.
      { destruct HDn as [HL _]. apply lookup_lt_Some in Hq. exact (eq_ind _ (fun n => (j < n)%nat) Hq _ HL). }
      apply lookup_lt_is_Some in Hj as [q0 Hq0]. destruct (tight_kept _ _ _ _ HDn Hq0) as (q1 & Hq1 & _ & U & _).
      replace q1 with q in U by congruence. rewrite U. by apply tight_inv in Hq0 as (_ & _ & _ & -> & _). }
    destruct (tight_inv i p Hp) as (Hi & C0 & C1 & _ & T).
    destruct HM as [_ HM]. destruct (HM i p1 Hp1) as (p' & Hp' & M1 & _). exists p'. split; [done|].
    rewrite M1 by exact (eq_trans T1 T). clear M1. cbn [pT pX]. split; [exact (eq_trans T1 T)|].
    assert (friction env1 ps1 i p1 = vzero) as ->.
    { apply coord_ext. intros k Hk. unfold friction, nvsum. rewrite coord_vsum_n, coord_zero by done. apply sum_n_zero. intros j Hj. change (cDim cfg) with D2 in *.
      destruct (decide (near_to _ _ _ _)) as [Hn|]; [|by apply coord_zero]. destruct (ps1 !! j) as [q|] eqn:Hq; [|by apply coord_zero].
      destruct (decide _); [by apply coord_zero|]. rewrite coord_scal, coord_sub by done.
      rewrite (HU j q Hq), (HU i p1 Hp1), coord_zero by done. lra. }
    unfold gravity_at. cbn [cCentral]. change (eG env1) with (eG (cEnv s)). rewrite tight_env_of, (sf_g _ _ _ _ _ _ _ _ _ e He).
    change (eDt env1) with (dt : Rnum). change (cDim cfg) with D2 in *. rewrite (HU i p1 Hp1). rewrite X1.
    split.
    - change (coord (pX p) 0 + dt * (0 + dt * (0 + 0)) = tight_x i). rewrite C0. lra.
    - change (coord (pX p) 1 + dt * (0 + dt * (0 + -10)) = 5 - 10 / 4096). rewrite C1. lra.
  Qed.
  Lemma tight_displaced (ps0 ps1 ps' : list part) : removal env1 tps ps0 -> densities env1 ps0 ps1 -> movement env1 wall ps1 ps' ->
    displaced_at_most (cfg := cfg) ((eNL e - eRe e) / 2) tps ps'.
  Proof.
    intros HR HDn HM i p p' Hp Hp' _. destruct (tight_moved _ _ _ _ _ HR HDn HM Hp) as (q & Hq & _ & D0 & D1).
    assert (p' = q) as -> by exact (Some_inj _ _ (eq_trans (eq_sym Hp') Hq)).
    rewrite (sf_nl _ _ _ _ _ _ _ _ _ e He), (sf_re _ _ _ _ _ _ _ _ _ e He). destruct (tight_inv i p Hp) as (_ & C0 & C1 & _).
    change (cDim cfg) with D2 in *.
    assert (@edist D2 (pX p) (pX q) = R_sqrt.sqrt ((10/4096) * (10/4096))) as HE by (rewrite edist_plane, C0, C1, D0, D1; f_equal; lra).
    eapply Rle_trans; [right; exact HE|]. rewrite sqrt_square; lra.
  Qed.

  (** The frame in which the pressure equation is set up. *)
  Section Frame.
    Context (ps1 ps2 : list part) (FH : first_half env1 wall tps ps1 ps2).
    Lemma tight_at i : (i < 3)%nat -> exists p, ps2 !! i = Some p /\ pT p = Newton /\ coord (pX p) 0 = tight_x i /\ coord (pX p) 1 = 5 - 10 / 4096.
    Proof.
      intros Hi. destruct FH as (ps0 & ps' & HR & HDn & HM & HD2). destruct (tps !! i) as [p|] eqn:Hp.
      - destruct (tight_moved _ _ _ _ _ HR HDn HM Hp) as (q & Hq & T & C0 & C1).
        destruct (tight_kept _ _ _ _ HD2 Hq) as (q2 & Hq2 & X & _ & T2). exists q2. rewrite T2, X. done.
      - apply lookup_ge_None in Hp. cbn in Hp. lia.
    Qed.
    Lemma tight_length : length ps2 = 3%nat.
    Proof. destruct FH as (ps0 & ps' & [L0 _] & [L1 _] & [L2 _] & [L3 _]). exact (eq_trans L3 (eq_trans L2 (eq_trans L1 L0))). Qed.
    Lemma tight_dist i j p q : (i < 3)%nat -> (j < 3)%nat -> ps2 !! i = Some p -> ps2 !! j = Some q ->
      edist (pX p) (pX q) = Rabs (tight_x i - tight_x j).
    Proof.
      intros Hi Hj Hp Hq. destruct (tight_at i Hi) as (p' & Hp' & _ & C0 & C1). destruct (tight_at j Hj) as (q' & Hq' & _ & D0 & D1).
      rewrite Hp in Hp'. apply Some_inj in Hp' as <-. rewrite Hq in Hq'. apply Some_inj in Hq' as <-.
      change (cDim cfg) with D2 in *.
      assert (@edist D2 (pX p) (pX q) = R_sqrt.sqrt (Rsqr (tight_x i - tight_x j))) as HE by (rewrite edist_plane, C0, C1, D0, D1; f_equal; unfold Rsqr; lra).
      refine (eq_trans HE _). apply sqrt_Rsqr_abs.
    Qed.
    Lemma tight_near i j : (i < 3)%nat -> (j < 3)%nat -> i <> j -> near_to (cfg := cfg) (6/5) ps2 i j.
    Proof.
      intros Hi Hj Hne. split; [done|]. destruct (tight_at i Hi) as (p & Hp & _). destruct (tight_at j Hj) as (q & Hq & T & _).
      exists p, q. split; [done|]. split; [done|]. split; [intros HX; pose proof (eq_trans (eq_sym T) HX); discriminate|]. rewrite (tight_dist i j) by done.
      unfold tight_x. apply Rabs_def1; destruct i as [|[|i]], j as [|[|j]]; lra.
    Qed.
    Lemma tight_pressure i (p : part) : ps2 !! i = Some p -> has_pressure env1 p.
    Proof.
      intros Hp. assert (i < 3)%nat as Hi by (rewrite <- tight_length; by eapply lookup_lt_Some). destruct (tight_at i Hi) as (p' & Hp' & T & _).
      assert (p' = p) as -> by exact (Some_inj _ _ (eq_trans (eq_sym Hp') Hp)). split; [|by left]. split; intros HX; pose proof (eq_trans (eq_sym T) HX); discriminate.
    Qed.
    Lemma tight_re : eRe env1 = 6/5.
    Proof. change (eRe (cEnv s) = 6/5). rewrite tight_env_of. apply He. Qed.
    Lemma tight_n0 : eN0 env1 = 4/5.
    Proof. change (eN0 (cEnv s) = 4/5). rewrite tight_env_of. apply He. Qed.
    Lemma tight_surface (p : part) : ps2 !! 0%nat = Some p -> surface_particle env1 ps2 0 p <> None.
    Proof.
      intros Hp. destruct (tight_at 1 ltac:(lia)) as (p1 & Hp1 & _ & D1 & _). destruct (tight_at 2 ltac:(lia)) as (p2 & Hp2 & _ & D2' & _).
      destruct (tight_at 0 ltac:(lia)) as (p0 & Hp0 & _ & D0 & _). assert (p0 = p) as -> by exact (Some_inj _ _ (eq_trans (eq_sym Hp0) Hp)).
      assert (edist (pX p) (pX p1) = 1) as E1. { rewrite (tight_dist 0 1 p p1 ltac:(lia) ltac:(lia) Hp Hp1). unfold tight_x. rewrite Rabs_left by lra. lra. }
      assert (edist (pX p) (pX p2) = 33/32) as E2. { rewrite (tight_dist 0 2 p p2 ltac:(lia) ltac:(lia) Hp Hp2). unfold tight_x. rewrite Rabs_left by lra. lra. }
      assert (wt 1 (6/5) = 1/5) as W1. { unfold wt. destruct (Rlt_dec _ _); [|exfalso; lra]. destruct (Rlt_dec _ _); [field|exfalso; lra]. }
      assert (wt (33/32) (6/5) = 9/55) as W2. { unfold wt. destruct (Rlt_dec _ _); [|exfalso; lra]. destruct (Rlt_dec _ _); [field|exfalso; lra]. }
      assert (density env1 ps2 0 p = 20/55) as HD.
      { unfold density, nsum. rewrite tight_length, tight_re. rewrite !sum_n_S. change (sum_n 0 _) with 0.
        rewrite (decide_False (P := near_to (cfg := cfg) _ _ 0 0)) by (intros [H _]; done).
        rewrite !decide_True by (apply tight_near; lia). rewrite Hp1, Hp2, E1, E2, W1, W2. lra. }
      unfold surface_particle. cbn [cSPP]. rewrite HD, tight_n0. destruct (Rlt_dec _ _) as [_|Hn]; [|exfalso; apply Hn; lra].
      destruct (Rlt_dec _ _) as [_|Hn]; [done|]. exfalso. apply Hn. clear Hn.
      assert (coord (centre env1 ps2 0 p) 0 = (1/5 * 1 + 9/55 * (33/32)) / (4/5)) as HC.
      { unfold centre, nvsum. rewrite coord_vsum_n by (cbn; lia). rewrite tight_length, tight_re, tight_n0. rewrite !sum_n_S. change (sum_n 0 _) with 0.
        rewrite (decide_False (P := near_to (cfg := cfg) _ _ 0 0)) by (intros [H _]; done).
        rewrite !decide_True by (apply tight_near; lia). rewrite Hp1, Hp2, E1, E2, W1, W2.
        rewrite !coord_scal, !coord_sub, D0, D1, D2', coord_zero by (cbn; lia). unfold tight_x. lra. }
      pose proof (edist_coord (centre env1 ps2 0 p) vzero 0 ltac:(cbn; lia)) as HB. rewrite HC, coord_zero in HB by (cbn; lia).
      rewrite Rabs_right in HB by lra.
      assert (edist (centre env1 ps2 0 p) vzero = len (centre env1 ps2 0 p)) as HL.
      { rewrite edist_len. f_equal. apply coord_ext. intros k Hk. rewrite coord_sub, coord_zero by done. lra. }
      rewrite HL in HB. eapply Rlt_le_trans; [|exact HB]. assert (/ 2 ^ 52 < / 2 ^ 2); [|lra]. apply Rinv_lt_contravar; [lra|]. apply Rlt_pow; [lra|lia].
    Qed.
  End Frame.
  Lemma tight_done : exists s', forward_dt (dt : Rnum) s = Done s'.
  Proof.
    apply (C33_step e dt s).
    - by left.
    - rewrite (sf_re _ _ _ _ _ _ _ _ _ e He). lra.
    - rewrite (sf_re _ _ _ _ _ _ _ _ _ e He), (sf_nl _ _ _ _ _ _ _ _ _ e He). lra.
    - eapply scene_reachable; exact Hs0.
    - eapply scene_locatable; [exact tight_fits|exact He|exact Hs0].
    - eapply scene_not_crowded; [exact tight_fits|exact He|exact Hs0].
    - rewrite (sf_n0 _ _ _ _ _ _ _ _ _ e He). lra.
    - done.
    - rewrite tight_parts. apply tight_displaced.
    - rewrite tight_parts. intros ps1 ps2 FH. split.
      + intros i j p q Hne Hp Hq _ _ E.
        assert (i < 3)%nat as Hi by (rewrite <- (tight_length _ _ FH); by eapply lookup_lt_Some).
        assert (j < 3)%nat as Hj by (rewrite <- (tight_length _ _ FH); by eapply lookup_lt_Some).
        pose proof (tight_dist _ _ FH i j p q Hi Hj Hp Hq) as HE. rewrite (proj2 (edist_zero _ _) E) in HE.
        assert (tight_x i - tight_x j <> 0) as Hx; [|by apply Rabs_no_R0 in Hx].
        unfold tight_x. destruct i as [|[|[|i]]], j as [|[|[|j]]]; try lia; lra.
      + assert (reaches_surface env1 ps2 0) as H0.
        { destruct (tight_at _ _ FH 0 ltac:(lia)) as (p & Hp & _). eapply rs_here; [exact Hp|by eapply tight_pressure|]. left. by eapply tight_surface. }
        intros i p Hp Hpr. assert (i < 3)%nat as Hi by (rewrite <- (tight_length _ _ FH); by eapply lookup_lt_Some).
        destruct (decide (i = 0)%nat) as [->|Hi0]; [done|].
        destruct (tight_at _ _ FH 0 ltac:(lia)) as (q & Hq & _). eapply rs_next; [exact Hp|done| |exact Hq|by eapply tight_pressure|done].
        rewrite tight_re. eapply tight_near; [exact FH|lia..].
  Qed.
End Exact.

(** C78.  The call that completes in exact arithmetic ends with [CgNotConverged] in binary64. *)
Theorem C78_refuted_rounding :
  (exists s, tight_step Rnum = Some (Done s)) /\ (exists s, tight_step F64num = Some (Throw CgNotConverged s)).
Proof.
  split.
  - destruct (scene_env_facts false true true true false true true true false) as (e & E & He).
    destruct (scene_new false true true true false true true true false tps e He (nofZ 1 /. nofZ 10000000000)) as [s0 H0].
    destruct (tight_done e He s0 H0) as [s' H]. exists s'. unfold tight_step.
    replace (tight_env Rnum) with (Some e) by (symmetry; exact E). 
    match goal with |- match ?o with _ => _ end = _ => replace o with (Some s0) by (symmetry; exact H0) end.
    f_equal. exact H.
  - assert (match tight_step F64num with Some (Throw CgNotConverged _) => true | _ => false end = true) as H by (vm_cast_no_check (@eq_refl bool true)).
    revert H. generalize (tight_step F64num) as r. intros [[?|x s|]|] H; [discriminate H| |discriminate H..]. destruct x; [discriminate H|].
    exists s. reflexivity.
Qed.

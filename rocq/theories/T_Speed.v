(** Property theorems: density variation speed and error correction (C20, C21, C22). *)
From Coq Require Import ZifyBool.
From Coquelicot Require Import Coquelicot.
From Verif Require Import S_Terms.
From Verif Require Import P_Lattice P_Neigh T_Env T_Search T_Density.
Open Scope R_scope.

(** Derivative of the weight of a pair in uniform relative motion. *)
Lemma wt_derive (A B C re : R) : 0 < A -> R_sqrt.sqrt A <> re ->
  is_derive (fun t => wt (R_sqrt.sqrt (A + 2 * t * B + t * t * C)) re) 0
    (if Rlt_dec (R_sqrt.sqrt A) re then - re * (B / (R_sqrt.sqrt A * R_sqrt.sqrt A * R_sqrt.sqrt A)) else 0).
Proof.
  intros HA Hne. set (h := fun t : R => R_sqrt.sqrt (A + 2 * t * B + t * t * C)).
  assert (h 0 = R_sqrt.sqrt A) as Hh0 by (unfold h; f_equal; ring).
  assert (0 < R_sqrt.sqrt A) as Hr by (by apply sqrt_lt_R0).
  assert (is_derive h 0 (B / R_sqrt.sqrt A)) as Hd.
  { unfold h. evar (l : R). assert (is_derive (fun t : R => R_sqrt.sqrt (A + 2 * t * B + t * t * C)) 0 l) as Hd.
    { subst l. auto_derive; [|reflexivity]. replace (A + 2 * 0 * B + 0 * 0 * C) with A by ring. done. }
    replace (B / R_sqrt.sqrt A) with l; [done|]. subst l. replace (A + 2 * 0 * B + 0 * 0 * C) with A by ring. field. lra. }
  assert (continuous h 0) as Hcont by (apply (@ex_derive_continuous R_AbsRing R_NormedModule); by eexists).
  assert (forall P : R -> Prop, locally (h 0) P -> locally 0 (fun t => P (h t))) as Hloc.
  { intros P HP. by apply Hcont. }
  destruct (Rlt_dec (R_sqrt.sqrt A) re) as [L|L].
  - assert (locally 0 (fun t => 0 < h t < re)) as Hl.
    { apply (Hloc (fun y => 0 < y < re)). rewrite Hh0. apply filter_and; [by apply (open_gt 0)|by apply (open_lt re)]. }
    eapply is_derive_ext_loc with (f := fun t => re / h t - 1).
    + eapply filter_imp; [|exact Hl]. intros t [H1 H2]. fold (h t). unfold wt.
      destruct (Rlt_dec 0 (h t)); [|lra]. destruct (Rlt_dec (h t) re); [done|lra].
    + assert (ex_derive h 0) as Hex by (by eexists).
      auto_derive; [split; [done|]; split; [rewrite Hh0; lra|done]|].
      assert (Derive h 0 = B / R_sqrt.sqrt A) as HD by (by apply is_derive_unique).
      replace (Derive (fun x => h x) 0) with (B / R_sqrt.sqrt A) by (symmetry; exact HD).
      rewrite Hh0. field. lra.
  - assert (re < R_sqrt.sqrt A) as L' by lra.
    assert (locally 0 (fun t => re < h t)) as Hl.
    { apply (Hloc (fun y => re < y)). rewrite Hh0. by apply (open_gt re). }
    eapply is_derive_ext_loc with (f := fun t => 0).
    + eapply filter_imp; [|exact Hl]. intros t H1. fold (h t). unfold wt. destruct (Rlt_dec 0 (h t)); [|done].
      destruct (Rlt_dec (h t) re); [lra|done].
    + apply (is_derive_const (K := R_AbsRing) (V := R_NormedModule)).
Qed.
Lemma sum_derive n (f : nat -> R -> R) (l : nat -> R) x :
  (forall j, (j < n)%nat -> is_derive (f j) x (l j)) -> is_derive (fun t => sum_n n (fun j => f j t)) x (sum_n n l).
Proof.
  induction n as [|n IH]; intros H.
  - change (is_derive (fun _ : R => 0) x 0). apply (is_derive_const (K := R_AbsRing) (V := R_NormedModule)).
  - eapply is_derive_ext; [intros t; symmetry; apply sum_n_S|]. rewrite sum_n_S.
    apply (is_derive_plus (K := R_AbsRing) (V := R_NormedModule)); [apply IH; auto|apply H; lia].
Qed.

Section Speed.
  Context {cfg : config} {wm : wallmotion Rnum (cDim cfg)}.
  Notation d := (cDim cfg).
  Notation V := (vec Rnum d).
  Notation part := (particle Rnum d).
  Notation computer := (computer cfg wm).
  Implicit Types (s : computer) (p q : part) (env : environment Rnum cfg).

  Lemma density_speed_HS s i p (n : R) :
    midstep s -> cHS cfg = true -> cParts s !! i = Some p -> enabled p -> cNws s !! i = Some (n : Rnum) ->
    density_speed s i = Some
      (if cSPP cfg && @nltb Rnum n (eN0 (cEnv s)) then 0
       else - eRe (cEnv s) * close_sum (eRe (cEnv s)) s i
         (fun j q => inner (pX q -^ pX p) (pU q -^ pU p) / (edist (pX p) (pX q) * edist (pX p) (pX q) * edist (pX p) (pX q)))).
  Proof.
    intros Hm HS Hp He Hn. unfold density_speed. rewrite Hp. cbn [mbind option_bind]. rewrite HS.
    assert (cSPP cfg && @nltb Rnum n (eN0 (cEnv s)) = false ->
      acc s i (@nofZ Rnum 0) (@nadd Rnum) (speed_func cfg (pX p) (pU p)) =
      Some (close_sum (eRe (cEnv s)) s i
         (fun j q => inner (pX q -^ pX p) (pU q -^ pU p) / (edist (pX p) (pX q) * edist (pX p) (pX q) * edist (pX p) (pX q))))) as Hacc.
    { intros Hc. destruct (C19_no_virtual_particle s i p n Hm Hp He Hn) as [HA _].
      { destruct (cSPP cfg); [|by left]. right. left. by apply Rltb_false. }
      rewrite HA. f_equal. apply close_sum_ext. intros j q _ _. unfold speed_func.
      rewrite vdot_inner, vnorm_len, edist_sym, edist_len. done. }
    destruct (cSPP cfg) eqn:HSPP; cbn [andb] in Hacc |- *.
    - destruct (cNws s !! i) as [n'|]; [|done]. injection Hn as ->. cbn [mbind option_bind].
      destruct (@nltb Rnum n (eN0 (cEnv s))) eqn:L; [done|].
      rewrite Hacc by done. done.
    - rewrite Hacc by done. done.
  Qed.

  Lemma moving_dist (xp up xq uq : V) (t : R) :
    edist (xp +^ (t : Rnum) *^ up) (xq +^ (t : Rnum) *^ uq)
    = R_sqrt.sqrt (inner (xq -^ xp) (xq -^ xp) + 2 * t * inner (xq -^ xp) (uq -^ up) + t * t * inner (uq -^ up) (uq -^ up)).
  Proof.
    rewrite edist_sym, edist_len.
    replace (xq +^ (t : Rnum) *^ uq -^ (xp +^ (t : Rnum) *^ up)) with ((xq -^ xp) +^ (t : Rnum) *^ (uq -^ up)).
    - unfold len. f_equal. rewrite inner_add_l, !inner_add_r, !inner_scal_l, !inner_scal_r, (inner_comm (uq -^ up) (xq -^ xp)). ring.
    - apply coord_ext. intros k Hk. rewrite coord_add, coord_scal, !coord_sub, !coord_add, !coord_scal by done. ring.
  Qed.

  (** C20: at time 0 it is the density ... *)
  Theorem C20_density_now s i p : cParts s !! i = Some p -> moving_density s i p 0 = raw_density s i p.
  Proof.
    intros Hp. unfold moving_density, raw_density, close_sum. apply sum_n_ext. intros j Hj.
    assert (forall x u : V, x +^ (0 : Rnum) *^ u = x) as H0.
    { intros x u. rewrite vscal_0. apply vadd_0_r. }
    destruct (decide (j = i)) as [->|Hne].
    { destruct (decide (close _ s i i)) as [[C _]|]; done. }
    unfold at_part. destruct (cParts s !! j) as [q|] eqn:Hq; [|by destruct (decide _)]. rewrite !H0.
    destruct (decide (pT q = Disabled)) as [E|E].
    { destruct (decide (close _ s i j)) as [(_ & _ & q' & _ & Hq' & He & _)|]; [|done]. rewrite Hq in Hq'. injection Hq' as <-. done. }
    destruct (decide (close _ s i j)) as [C|C]; [done|]. unfold wt. destruct (Rlt_dec 0 _); [|done]. destruct (Rlt_dec _ _) as [L|L]; [|done].
    exfalso. apply C. split; [done|]. eauto 10.
  Qed.
  (** ... and the source term is its derivative. *)
  Theorem C20_speed_is_derivative s i p (n : R) :
    midstep s -> cHS cfg = true -> cParts s !! i = Some p -> enabled p -> cNws s !! i = Some (n : Rnum) ->
    cSPP cfg = false \/ eN0 (cEnv s) <= n ->
    (forall j q, j <> i -> cParts s !! j = Some q -> enabled q -> pX q <> pX p /\ edist (pX p) (pX q) <> eRe (cEnv s)) ->
    exists v, density_speed s i = Some v /\ derivable_pt_lim (moving_density s i p) 0 v.
  Proof.
    intros Hm HS Hp He Hn Hc Hreg. rewrite (density_speed_HS s i p n) by done. eexists. split; [reflexivity|].
    assert (cSPP cfg && @nltb Rnum n (eN0 (cEnv s)) = false) as ->.
    { destruct Hc as [->|Hc]; [done|]. apply andb_false_iff. right. by apply Rltb_false. }
    apply is_derive_Reals. unfold moving_density, close_sum. rewrite <- sum_n_scal.
    apply (sum_derive (psize s) (fun j t => if decide (j = i) then 0
      else at_part s j 0 (fun q => if decide (pT q = Disabled) then 0
        else wt (edist (pX p +^ (t : Rnum) *^ pU p) (pX q +^ (t : Rnum) *^ pU q)) (eRe (cEnv s))))).
    intros j Hj.
    assert (forall l : R, l = 0 -> is_derive (fun _ : R => 0) 0 l) as Hconst.
    { intros l ->. apply (is_derive_const (K := R_AbsRing) (V := R_NormedModule)). }
    destruct (decide (j = i)) as [->|Hne].
    { apply Hconst. destruct (decide (close _ s i i)) as [[C _]|]; [done|]. ring. }
    unfold at_part. destruct (cParts s !! j) as [q|] eqn:Hq; [|apply Hconst; destruct (decide _); ring].
    destruct (decide (pT q = Disabled)) as [E|E].
    { apply Hconst. destruct (decide (close _ s i j)) as [(_ & _ & q' & _ & Hq' & He' & _)|]; [|ring].
      rewrite Hq in Hq'. injection Hq' as <-. done. }
    destruct (Hreg j q Hne Hq E) as [Hx Hr].
    assert (edist (pX p) (pX q) = R_sqrt.sqrt (inner (pX q -^ pX p) (pX q -^ pX p))) as Hed by (by rewrite edist_sym, edist_len).
    apply (is_derive_ext (fun t => wt (R_sqrt.sqrt (inner (pX q -^ pX p) (pX q -^ pX p) + 2 * t * inner (pX q -^ pX p) (pU q -^ pU p)
      + t * t * inner (pU q -^ pU p) (pU q -^ pU p))) (eRe (cEnv s)))); [intros t; by rewrite moving_dist|].
    assert (0 < inner (pX q -^ pX p) (pX q -^ pX p)) as HA.
    { destruct (inner_pos (pX q -^ pX p)) as [|H0]; [done|]. exfalso. apply Hx. apply edist_zero. rewrite edist_len.
      unfold len. rewrite <- H0. apply sqrt_0. }
    match goal with |- is_derive _ _ ?l => assert (l = if Rlt_dec (R_sqrt.sqrt (inner (pX q -^ pX p) (pX q -^ pX p))) (eRe (cEnv s))
      then - eRe (cEnv s) * (inner (pX q -^ pX p) (pU q -^ pU p) / (R_sqrt.sqrt (inner (pX q -^ pX p) (pX q -^ pX p)) *
         R_sqrt.sqrt (inner (pX q -^ pX p) (pX q -^ pX p)) * R_sqrt.sqrt (inner (pX q -^ pX p) (pX q -^ pX p)))) else 0) as -> end.
    { rewrite <- Hed. destruct (Rlt_dec _ _) as [L|L], (decide (close _ s i j)) as [C|C]; try done.
      - exfalso. apply C. split; [done|]. eauto 10.
      - exfalso. apply L. destruct C as (_ & a & b & Ha & Hb & _ & Hd). rewrite Hp in Ha. rewrite Hq in Hb.
        injection Ha as <-. injection Hb as <-. done.
      - ring. }
    apply wt_derive; [done|]. by rewrite <- Hed.
  Qed.
  (** At the free surface the source is switched off. *)
  Theorem C20_free_surface s i p (n : R) :
    cHS cfg = true -> cSPP cfg = true -> cParts s !! i = Some p -> cNws s !! i = Some (n : Rnum) ->
    n < eN0 (cEnv s) -> density_speed s i = Some 0.
  Proof.
    intros H1 H2 Hp Hn L. unfold density_speed. rewrite Hp. cbn [mbind option_bind]. rewrite H1, H2.
    destruct (cNws s !! i) as [n'|]; [|done]. injection Hn as ->. simpl. by destruct (Rlt_dec n _).
  Qed.

  (** ** C21 *)
  Theorem C21_rigid_motion s i p :
    midstep s -> cHS cfg = true -> cParts s !! i = Some p -> enabled p -> rigid_motion s ->
    density_speed s i = Some 0.
  Proof.
    intros Hm HS Hp He (c & A & Hanti & Hu). destruct (ms_nws_at s i p Hm Hp) as [n Hn].
    rewrite (density_speed_HS s i p n) by done. f_equal. destruct (_ && _); [done|].
    assert (close_sum (eRe (cEnv s)) s i (fun j q => inner (pX q -^ pX p) (pU q -^ pU p) /
       (edist (pX p) (pX q) * edist (pX p) (pX q) * edist (pX p) (pX q))) = 0) as ->; [|ring].
    unfold close_sum. apply sum_n_zero. intros j Hj. destruct (decide _) as [C|]; [|done].
    destruct C as (Hne & _ & q & _ & Hq & Heq & _). rewrite (at_part_eq s j q) by done.
    assert (inner (pX q -^ pX p) (pU q -^ pU p) = 0) as ->; [|unfold Rdiv; ring].
    rewrite (Hu i p Hp He), (Hu j q Hq Heq).
    unfold inner.
    erewrite (sum_n_ext _ _ (fun k => sum_n (dimn d) (fun l => coord (pX q -^ pX p) k * A k l * coord (pX q -^ pX p) l))).
    - apply sum_n_antisym. intros k l _ _. rewrite (Hanti k l). ring.
    - intros k Hk. rewrite !coord_sub, !coord_add, !coord_tmk by done.
      replace (coord c k + sum_n (dimn d) (fun l => A k l * coord (pX q) l) - (coord c k + sum_n (dimn d) (fun l => A k l * coord (pX p) l)))
        with (sum_n (dimn d) (fun l => A k l * coord (pX q) l) - sum_n (dimn d) (fun l => A k l * coord (pX p) l)) by ring.
      rewrite <- sum_n_sub, <- sum_n_scal. apply sum_n_ext. intros l Hl. rewrite coord_sub by done. ring.
  Qed.
  Lemma boosted_at c s i : cParts (boosted c s) !! i = (fun p => set_U (pU p +^ c) p) <$> cParts s !! i.
  Proof. unfold boosted. cbn [cParts with_parts]. by rewrite list_lookup_fmap. Qed.
  Lemma boosted_close c s r i j : close r (boosted c s) i j <-> close r s i j.
  Proof.
    unfold close. rewrite !boosted_at. apply and_iff_compat_l. split.
    - intros (a & b & Ha & Hb & H). destruct (cParts s !! i) as [a0|]; [|done]. destruct (cParts s !! j) as [b0|]; [|done].
      injection Ha as <-. injection Hb as <-. exists a0, b0. done.
    - intros (a & b & Ha & Hb & H). rewrite Ha, Hb. eexists _, _. split; [reflexivity|]. split; [reflexivity|]. done.
  Qed.
  Lemma boosted_midstep c s : midstep s -> midstep (boosted c s).
  Proof.
    intros Hm. split; [apply Hm| | |apply Hm|apply Hm].
    - intros i p' Hp' He. rewrite boosted_at in Hp'. destruct (cParts s !! i) as [p|] eqn:Hp; [|done]. injection Hp' as <-.
      destruct (ms_cover s Hm i p Hp He) as (l & Hl & Hnd & Hin & Hall). exists l. split; [exact Hl|]. split; [done|]. split.
      + intros j Hj. destruct (Hin j Hj) as (Hne & q & Hq & Heq). split; [done|]. rewrite boosted_at, Hq. eexists. split; [reflexivity|]. done.
      + intros j Hj. apply Hall. exact (proj1 (boosted_close c s _ i j) Hj).
    - unfold psize. unfold boosted. cbn [cParts with_parts cNws]. rewrite map_length. apply Hm.
  Qed.
  Theorem C21_common_velocity s i p (c : V) :
    midstep s -> cHS cfg = true -> cParts s !! i = Some p -> enabled p ->
    density_speed (boosted c s) i = density_speed s i.
  Proof.
    intros Hm HS Hp He. destruct (ms_nws_at s i p Hm Hp) as [n Hn].
    rewrite (density_speed_HS s i p n) by done.
    rewrite (density_speed_HS (boosted c s) i (set_U (pU p +^ c) p) n); [|by apply boosted_midstep|done|by rewrite boosted_at, Hp|done|done].
    change (cEnv (boosted c s)) with (cEnv s). destruct (_ && _); [done|]. do 2 f_equal.
    unfold close_sum. assert (psize (boosted c s) = psize s) as -> by (unfold psize, boosted; cbn [cParts with_parts]; by rewrite map_length).
    apply sum_n_ext. intros j Hj.
    destruct (decide (close _ (boosted c s) i j)) as [C|C], (decide (close _ s i j)) as [C'|C'];
      try (exfalso; first [exact (C (proj2 (boosted_close c s _ i j) C')) | exact (C' (proj1 (boosted_close c s _ i j) C))]); [|done].
    unfold at_part. rewrite boosted_at. destruct (cParts s !! j) as [q|]; [|done]. cbn [fmap option_fmap option_map pX pU set_U].
    f_equal. f_equal. apply coord_ext. intros k Hk. rewrite !coord_sub, !coord_add by done. ring.
  Qed.

  (** ** C22 *)
  Theorem C22_error_correction dt s s1 s2 s3 s4 s5 s6 s7 s8 i p :
    cSPP cfg = true -> cECS cfg = true -> 0 < eN0 (cEnv s) ->
    step_trace dt s s1 s2 s3 s4 s5 s6 s7 s8 -> cParts s3 !! i = Some p -> fluid_or_wall p ->
    exists speed e : R, density_speed s2 i = Some (speed : Rnum) /\ cEcs s3 !! i = Some (e : Rnum) /\
      0 <= e /\ (speed <= 0 -> e = 0) /\
      (0 <= speed -> e = 2 * ((pN p - eN0 (cEnv s)) / eN0 (cEnv s)) * speed).
  Proof.
    intros HS HE HN HT Hp Hf. pose proof (st_ecs _ _ _ _ _ _ _ _ _ _ HT) as H. rewrite HE in H.
    pose proof (ecs_rest _ _ H) as HR. assert (cParts s2 !! i = Some p) as Hp2 by (rewrite HR in Hp; exact Hp).
    pose proof (ecs_at _ _ i p H Hp2) as HA. rewrite (proj2 (is_active_true p) Hf) in HA.
    destruct HA as (speed & Hs & He). exists speed. eexists. split; [done|]. split; [exact He|].
    assert (cEnv s2 = cEnv (start_step dt s)) as HEnv.
    { eapply trace_env; [exact HT|]. rewrite !elem_of_cons; tauto. }
    rewrite HEnv. simpl. set (n0 := eN0 (cEnv s)) in *.
    assert (n0 <= pN p) as Hge.
    { pose proof (st_dens1 _ _ _ _ _ _ _ _ _ _ HT) as HD.
      destruct (lookup_lt_is_Some_2 (cParts s1) i) as [p1 Hp1].
      { change (i < psize s1)%nat. rewrite <- (pr_size _ _ (dens_pr _ _ HD)). by eapply lookup_lt_Some. }
      pose proof (dens_at _ _ i p1 HD Hp1) as HX.
      assert (pT p1 = pT p) as HTy.
      { destruct (dens_keep _ _ i p1 HD Hp1) as (n & Hn & _). rewrite Hn in Hp2. by injection Hp2 as <-. }
      rewrite HTy, (proj2 (is_active_true p) Hf), HS in HX. destruct HX as (n & _ & Hn & _).
      rewrite Hp2 in Hn. injection Hn as ->. cbn [pN set_N]. rewrite nmax_R.
      assert (eN0 (cEnv s1) = n0) as ->; [|apply Rmax_r].
      assert (cEnv s1 = cEnv (start_step dt s)) as ->; [|done]. eapply trace_env; [exact HT|]. rewrite !elem_of_cons; tauto. }
    set (err := (pN p - n0) / n0).
    assert (0 <= err) as Herr by (unfold err; apply Rmult_le_pos; [lra|left; by apply Rinv_0_lt_compat]).
    rewrite (Rabs_right err) by lra. split; [|split].
    - unfold Rabs. destruct (Rcase_abs speed); nra.
    - intros L. unfold Rabs. destruct (Rcase_abs speed); [ring|]. assert (speed = 0) as -> by lra. ring.
    - intros L. rewrite Rabs_right by lra. ring.
  Qed.
End Speed.

(** Property theorems: whole steps, in terms of frames (C14, C33). *)
From Coq Require Import ZifyBool.
From Verif Require Import S_Terms.
From Verif Require Import S_Frame S_Outcome S_Ppe P_Ppe P_Force T_Force T_Speed T_Ppe T_Solve T_Grad T_Stab T_Rest T_Shift T_Outcome T_Env P_Lattice T_Density T_Scheme T_Step.
Open Scope R_scope.

Section Frame.
  Context {cfg : config} {wm : wallmotion Rnum (cDim cfg)}.
  Notation d := (cDim cfg).
  Notation V := (vec Rnum d).
  Notation part := (particle Rnum d).
  Notation computer := (computer cfg wm).
  Implicit Types (s t : computer) (p q v : part) (env : environment Rnum cfg).

  (** The first half of the step of the scheme, as the program computes it. *)
  Lemma prefix_first_half env0 (dt : R) s s1 s2 s3 s4 s5 s6 :
    square_ground env0 -> 0 < eRe env0 -> eRe env0 <= eNL env0 -> reachable env0 s -> step_prefix (dt : Rnum) s s1 s2 s3 s4 s5 s6 ->
    let env := env_of_step dt s in let wall := walls_of_step dt s in
    (forall ps0 ps1 ps', removal env (cParts s) ps0 -> densities env ps0 ps1 -> movement env wall ps1 ps' ->
       displaced_at_most ((eNL env0 - eRe env0) / 2) (cParts s) ps') ->
    first_half env wall (cParts s) (cParts s2) (cParts s6) /\ moved_at_most ((eNL env0 - eRe env0) / 2) s s4.
  Proof.
    intros Hsq HRe HNL' Hr HT env wall HD. assert (0 < eNL env0) as HNL by (simpl in *; lra).
    pose proof (prefix_facts_hold env0 dt s s1 s2 s3 s4 s5 s6 Hsq HRe HNL' Hr HT) as [HE M1 M2 M3 Rec2 A3 A6].
    assert (forall x, x ∈ [s1; s2; s3; s4; s5; s6] -> cEnv x = env) as He by (intros x Hx; by apply HE).
    pose proof HT as [H1 H2 H3 H4 H5 H6].
    assert (cEnv s1 = env) as E1 by (apply He; rewrite !elem_of_cons; tauto).
    assert (cEnv s3 = env) as E3 by (apply He; rewrite !elem_of_cons; tauto).
    assert (cEnv s4 = env) as E4 by (apply He; rewrite !elem_of_cons; tauto).
    pose proof (removal_phase env0 dt s s1 Hsq HNL Hr H1) as R1. change (cEnv (start_step (dt : Rnum) s)) with env in R1.
    pose proof (densities_phase s1 s2 M1 H2) as R2. rewrite E1 in R2.
    pose proof (movement_phase s3 s4 M3 H4) as R4. cbv zeta in R4. rewrite E3, A3 in R4.
    assert (cWall s3 = cWall s) as W.
    { destruct (search_frame (start_step (dt : Rnum) s) s1) as [Eq1 _]; [by rewrite H1|].
      assert (cWall s3 = cWall s2) as W3 by (destruct (cECS cfg); [by rewrite (ecs_rest _ _ H3)|by subst s3]).
      by rewrite W3, (dens_rest _ _ H2); simpl; rewrite Eq1. }
    rewrite W in R4. change (eDt env) with (dt : Rnum) in R4.
    assert (moved_at_most ((eNL env0 - eRe env0) / 2) s s4) as V4 by (by apply (HD (cParts s1) (cParts s2))).
    split; [|done].
    pose proof (late_facts_hold env0 dt s s1 s2 s3 s4 s5 s6 Hsq HRe HNL' Hr HT V4) as [M4 M5 M6 Rec5 Rec6 C6].
    pose proof (densities_phase s4 s5 M4 H5) as R5. rewrite E4 in R5. rewrite A6.
    exists (cParts s1), (cParts s4). done.
  Qed.

  (** C33.  In exact arithmetic the pressure solver never fails, and so the step completes, if no block of the grid is
      overfull, nothing is displaced too far by the movement, and in the frame after the movement no two particles are at the
      same place and every unknown is connected with the free surface. *)
  Theorem C33_step env0 (dt : R) s :
    square_ground env0 -> 0 < eRe env0 -> eRe env0 <= eNL env0 -> reachable env0 s -> locatable env0 s -> ~ crowded env0 s ->
    0 < eN0 env0 -> (cHL cfg = false -> 0 < eLambda env0) ->
    let env := env_of_step dt s in let wall := walls_of_step dt s in
    (forall ps0 ps1 ps', removal env (cParts s) ps0 -> densities env ps0 ps1 -> movement env wall ps1 ps' ->
       displaced_at_most ((eNL env0 - eRe env0) / 2) (cParts s) ps') ->
    (forall ps1 ps2, first_half env wall (cParts s) ps1 ps2 ->
       frame_apart ps2 /\ forall i p, ps2 !! i = Some p -> has_pressure env p -> reaches_surface env ps2 i) ->
    exists s', forward_dt (dt : Rnum) s = Done s'.
  Proof.
    intros Hsq HRe HNL' Hr Hloc Hc HN0 HLam env wall HD HF. apply (C56_completes cfg wm env0 dt s); try done.
    intros s1 s2 s3 s4 s5 s6 HT.
    destruct (prefix_first_half env0 dt s s1 s2 s3 s4 s5 s6 Hsq HRe HNL' Hr HT HD) as [FH V4].
    pose proof (prefix_facts_hold env0 dt s s1 s2 s3 s4 s5 s6 Hsq HRe HNL' Hr HT) as [HE _ _ _ _ _ _].
    assert (cEnv s6 = env) as E6 by (apply HE; rewrite !elem_of_cons; tauto).
    pose proof (late_facts_hold env0 dt s s1 s2 s3 s4 s5 s6 Hsq HRe HNL' Hr HT V4) as [M4 M5 M6 Rec5 Rec6 C6].
    destruct (HF _ _ FH) as [HA HS]. split; [done|]. split; [done|].
    intros i p Hp Hu. rewrite E6 in Hu. apply has_unknown in Hu. specialize (HS i p Hp Hu). clear p Hp Hu.
    induction HS as [i p Hp Hu Hon|i p j q Hp Hu Hn Hq Hu' _ IH].
    - apply (sc_here s6 i p); [done|rewrite E6; by apply has_unknown|].
      destruct Hon as [Hv|(j & q & Hn & Hq & Hf & Hx)].
      + left. rewrite <- surface_virtual by (done || apply Hu). by rewrite E6.
      + right. exists j, q. rewrite E6. split; [exact Hn|]. split; [done|]. split; [done|]. by rewrite <- has_unknown.
    - apply (sc_next s6 i p j); [done|rewrite E6; by apply has_unknown| |done].
      unfold coupled. rewrite E6. split; [exact Hn|]. rewrite (at_part_eq s6 j q) by done. by apply has_unknown.
  Qed.

  (** ** C14: the density of a particle in an undisturbed lattice, after a step *)
  Lemma lattice_density_frame maxDt courant g rho nu surf ratio c (l_0 : R) minX maxX env0 env (ps : list part) i p :
    new_env cfg (maxDt : Rnum) courant g rho nu surf ratio c l_0 minX maxX = Some env0 -> 0 < l_0 ->
    eRe env = eRe env0 -> lattice_around env l_0 ps i p -> ps !! i = Some p -> density env ps i p = eN0 env0.
  Proof.
    intros H Hl HRe (site & Hon & Hinj & Hfull) Hp. unfold density, nsum. rewrite HRe in *. set (r := eRe env0) in *.
    set (js := filter (near_to r ps i) (seq 0 (length ps))).
    assert (eRe env0 = ratio * l_0) as Hr.
    { revert H. unfold new_env. destruct (nceil _); [|done]. destruct (_ || _)%bool; [done|]. intros [= <-]. done. }
    assert (forall j, j ∈ js <-> near_to r ps i j) as Hjs.
    { intros j. unfold js. rewrite elem_of_list_filter. split; [tauto|]. intros C. split; [done|].
      destruct C as (_ & _ & q & _ & Hq & _). apply elem_of_seq. apply lookup_lt_Some in Hq. lia. }
    assert (lattice_within d ratio (map site js)) as HL.
    { split.
      - apply NoDup_fmap_2_strong; [|apply list.NoDup_filter, NoDup_seq]. intros j k Hj Hk. rewrite Hjs in Hj, Hk. by apply Hinj.
      - intros z Hz. apply elem_of_list_fmap in Hz as (j & -> & Hj). apply Hjs in Hj. pose proof Hj as (Hne & p0 & q & Hp0 & Hq & Hr').
        by apply (Hon j q).
      - intros z Hz Hn Hlt. destruct (Hfull z Hz Hn) as (j & Hj & <-); [unfold r; rewrite Hr; nra|].
        apply elem_of_list_fmap. exists j. split; [done|]. by apply Hjs. }
    destruct (C13_reference_density _ _ _ _ _ _ _ _ _ _ _ _ _ H Hl HL) as [-> _].
    rewrite map_map. unfold sum_n.
    rewrite <- (rsum_filter (near_to r ps i) (fun j => match ps !! j with Some q => wt (edist (pX p) (pX q)) r | None => 0 end)).
    apply rsum_map_ext. intros j Hj. apply Hjs in Hj. pose proof Hj as (Hne & p0 & q & Hp0 & Hq & Hr'). rewrite Hq.
    destruct (Hon j q) as (L1 & L2 & ->); [done|done|]. f_equal.
    rewrite edist_len, vadd_sub, len_scal, len_lattice_vec by (done || lra). rewrite Rabs_left; lra.
  Qed.

  (** The first half of a step is a function of the frame. *)
  Lemma outside_dec env (x : V) : Decision (outside_grid env x).
  Proof.
    assert (forall n, Decision (exists k, (k < n)%nat /\
      (coord x k < coord (eMinX env) k \/
       exists n, IZR n - 1 < (coord (eMaxX env) k - coord (eMinX env) k) / eNL env <= IZR n /\
         coord (eMinX env) k + (IZR n + 2) * eNL env <= coord x k))) as H; [|apply H].
    induction n as [|n [IH|IH]]; [right; intros (k & Hk & _); lia|left; destruct IH as (k & Hk & H); exists k; split; [lia|done]|].
    destruct (Rlt_dec (coord x n) (coord (eMinX env) n)) as [H1|H1]; [left; exists n; split; [lia|by left]|].
    set (z := Zceil ((coord (eMaxX env) n - coord (eMinX env) n) / eNL env)).
    destruct (Rle_dec (coord (eMinX env) n + (IZR z + 2) * eNL env) (coord x n)) as [H2|H2].
    - left. exists n. split; [lia|]. right. exists z. split; [|done].
      pose proof (Zceil_ub ((coord (eMaxX env) n - coord (eMinX env) n) / eNL env)) as U. fold z in U. split; [|done].
      pose proof (Zceil_lb ((coord (eMaxX env) n - coord (eMinX env) n) / eNL env)) as L. fold z in L. lra.
    - right. intros (k & Hk & [Hl|(m & Hm & Hu)]).
      + destruct (decide (k = n)) as [->|]; [lra|]. apply IH. exists k. split; [lia|by left].
      + destruct (decide (k = n)) as [->|]; [|apply IH; exists k; split; [lia|right; eauto]].
        assert (m = z) as -> by (symmetry; apply Zceil_imp; by rewrite minus_IZR). done.
  Qed.
  Lemma pointwise_det (rel : nat -> part -> part -> Prop) ps a b :
    (forall i p x y, ps !! i = Some p -> rel i p x -> rel i p y -> x = y) -> pointwise rel ps a -> pointwise rel ps b -> a = b.
  Proof.
    intros H [La Ha] [Lb Hb]. apply (list_eq_same_length _ _ (length ps)); [done|done|]. intros i x y Hi Hx Hy.
    destruct (lookup_lt_is_Some_2 ps i Hi) as [p Hp]. destruct (Ha i p Hp) as (x' & Hx' & Rx). destruct (Hb i p Hp) as (y' & Hy' & Ry).
    rewrite Hx in Hx'. rewrite Hy in Hy'. injection Hx' as <-. injection Hy' as <-. by apply (H i p).
  Qed.
  Lemma fluid_or_wall_dec p : Decision (fluid_or_wall p).
  Proof. unfold fluid_or_wall. destruct (decide (pT p = Disabled)); [right; tauto|]. destruct (decide (pT p = Dummy)); [right; tauto|by left]. Qed.
  Lemma densities_det env (ps a b : list part) : densities env ps a -> densities env ps b -> a = b.
  Proof.
    apply pointwise_det. intros i p x y _ [X1 X2] [Y1 Y2]. destruct (fluid_or_wall_dec p).
    - by rewrite X1, Y1. - by rewrite X2, Y2.
  Qed.
  Lemma first_half_det env wall (ps a1 a2 b1 b2 : list part) :
    first_half env wall ps a1 a2 -> first_half env wall ps b1 b2 -> a1 = b1 /\ a2 = b2.
  Proof.
    intros (a0 & a' & A1 & A2 & A3 & A4) (b0 & b' & B1 & B2 & B3 & B4).
    assert (a0 = b0) as <-.
    { revert A1 B1. apply pointwise_det. intros i p x y _ [X1 X2] [Y1 Y2]. destruct (outside_dec env (pX p)).
      - by rewrite X1, Y1. - by rewrite X2, Y2. }
    assert (a1 = b1) as <- by (by eapply densities_det). split; [done|].
    assert (a' = b') as <-; [|by eapply densities_det].
    revert A3 B3. apply pointwise_det. intros i p x y _ [X1 X2] [Y1 Y2]. destruct (decide (pT p = Newton)).
    - by rewrite X1, Y1. - by rewrite X2, Y2.
  Qed.

  (** C14.  Where the particles around a fluid or wall particle form an undisturbed lattice after the movement, the density
      it shows after the step is exactly N0. *)
  Theorem C14_step maxDt courant g rho nu surf ratio c (l_0 : R) minX maxX env0 (dt : R) s s' ps1 ps2 i p :
    new_env cfg (maxDt : Rnum) courant g rho nu surf ratio c l_0 minX maxX = Some env0 -> 0 < l_0 ->
    square_ground env0 -> 0 < eRe env0 -> eRe env0 <= eNL env0 -> reachable env0 s -> forward_dt (dt : Rnum) s = Done s' ->
    let env := env_of_step dt s in let wall := walls_of_step dt s in
    (forall ps0 ps1 ps', removal env (cParts s) ps0 -> densities env ps0 ps1 -> movement env wall ps1 ps' ->
       displaced_at_most ((eNL env0 - eRe env0) / 2) (cParts s) ps') ->
    first_half env wall (cParts s) ps1 ps2 -> ps2 !! i = Some p -> fluid_or_wall p -> lattice_around env l_0 ps2 i p ->
    exists p', cParts s' !! i = Some p' /\ pN p' = eN0 env0.
  Proof.
    intros HN Hl Hsq HRe HNL' Hr H env wall HD FH Hp Hf HL.
    destruct (forward_Done (dt : Rnum) s s' H) as (s1 & s2 & s3 & s4 & s5 & s6 & s7 & HT).
    pose proof (trace_prefix dt _ _ _ _ _ _ _ _ _ HT) as HX.
    destruct (prefix_first_half env0 dt s s1 s2 s3 s4 s5 s6 Hsq HRe HNL' Hr HX HD) as [FH' V4].
    destruct (first_half_det _ _ _ _ _ _ _ FH FH') as [-> ->].
    pose proof (prefix_facts_hold env0 dt s s1 s2 s3 s4 s5 s6 Hsq HRe HNL' Hr HX) as [HE _ _ _ _ _ A6].
    pose proof (late_facts_hold env0 dt s s1 s2 s3 s4 s5 s6 Hsq HRe HNL' Hr HX V4) as [M4 M5 M6 Rec5 Rec6 C6].
    assert (cEnv s4 = env) as E4 by (apply HE; rewrite !elem_of_cons; tauto).
    assert (cEnv s6 = env) as E6 by (apply HE; rewrite !elem_of_cons; tauto).
    pose proof (inv_env _ _ (reachable_inv env0 s Hsq Hr)) as Hc. apply same_constants_fields in Hc as (EN & _ & _ & _ & ER & _).
    assert (raw_density s6 i p = eN0 env0) as HR.
    { rewrite <- density_raw. rewrite E6. by eapply lattice_density_frame. }
    assert (same_places s4 s6) as SP.
    { intros j. rewrite A6. by apply (dens_same s4 s5 (st_dens2 _ _ _ _ _ _ _ _ _ _ HT)). }
    assert (exists p4, cParts s4 !! i = Some p4 /\ pX p = pX p4 /\ pT p = pT p4) as (p4 & Hp4 & Hx & Ht).
    { pose proof (same_places_sym _ _ SP) as SP'. destruct (same_places_at s6 s4 i p SP' Hp) as (p4 & ? & ? & ?). by exists p4. }
    assert (raw_density s4 i p4 = eN0 env0) as HR4.
    { rewrite <- HR. symmetry. apply same_places_raw; [done|by rewrite E6, E4|done]. }
    destruct (lookup_lt_is_Some_2 (cParts s') i) as [p' Hp'].
    { pose proof (trace_phase _ _ _ _ _ _ _ _ _ _ HT) as Hph.
      rewrite (pr_size _ _ (Hph s' ltac:(rewrite !elem_of_cons; tauto)) : length (cParts s') = length (cParts s1)),
        <- (pr_size _ _ (Hph s6 ltac:(rewrite !elem_of_cons; tauto)) : length (cParts s6) = length (cParts s1)).
      by eapply lookup_lt_Some. }
    exists p'. split; [done|].
    destruct (C18_step env0 (dt : Rnum) s s1 s2 s3 s4 s5 s6 s7 s' i p4 p' Hsq ltac:(simpl in *; lra) HRe Hr HT V4 Hp4 Hp') as (T4 & D1 & _).
    rewrite D1 by (unfold fluid_or_wall, enabled in *; by rewrite T4, <- Ht). rewrite HR4. destruct (cSPP cfg); [|done]. apply Rmax_left. lra.
  Qed.
End Frame.

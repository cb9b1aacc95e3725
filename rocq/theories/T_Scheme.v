(** Property theorems: a step of the program is a step of the MPS scheme (C61). *)
From Coq Require Import ZifyBool.
From Verif Require Import S_Scheme S_Ppe P_Ppe P_Force T_Force T_Speed T_Ppe T_Solve T_Grad T_Stab T_Rest T_Shift.
Open Scope R_scope.

Section Scheme.
  Context {cfg : config} {wm : wallmotion Rnum (cDim cfg)}.
  Notation d := (cDim cfg).
  Notation V := (vec Rnum d).
  Notation part := (particle Rnum d).
  Notation computer := (computer cfg wm).
  Implicit Types (s t : computer) (p q v : part) (env : environment Rnum cfg).

  (** ** Sums *)
  Lemma nsum_close s i (f : nat -> part -> R) : nsum (cEnv s) (cParts s) i f = close_sum (eRe (cEnv s)) s i f.
  Proof.
    unfold nsum, close_sum. apply sum_n_ext. intros j _.
    destruct (decide (near_to _ (cParts s) i j)) as [H|H], (decide (close _ s i j)) as [H'|H']; done.
  Qed.
  Lemma nvsum_close s i (f : nat -> part -> V) : nvsum (cEnv s) (cParts s) i f = close_vsum (eRe (cEnv s)) s i f.
  Proof.
    unfold nvsum, close_vsum. unfold vsum_n. apply f_equal, map_ext_in. intros j _.
    destruct (decide (near_to _ (cParts s) i j)) as [H|H], (decide (close _ s i j)) as [H'|H']; done.
  Qed.
  Lemma density_raw s i p : density (cEnv s) (cParts s) i p = raw_density s i p.
  Proof. unfold density, raw_density. apply nsum_close. Qed.
  Lemma centre_centroid s i p : centre (cEnv s) (cParts s) i p = centroid s i p.
  Proof. unfold centre, centroid. apply nvsum_close. Qed.

  (** The densities on record are those of the frame. *)
  Definition recorded s : Prop :=
    forall i p, cParts s !! i = Some p -> fluid_or_wall p -> cNws s !! i = Some (raw_density s i p : Rnum).
  Lemma surface_virtual s i p : recorded s -> cParts s !! i = Some p -> fluid_or_wall p ->
    surface_particle (cEnv s) (cParts s) i p = virtual s i p.
  Proof.
    intros HR Hp Hf. unfold surface_particle, virtual. destruct (cSPP cfg); [|done].
    pose proof (HR i p Hp Hf) as HN. destruct (cNws s !! i) as [n|]; [|done]. injection HN as ->.
    rewrite density_raw, centre_centroid. done.
  Qed.
  Lemma surface_term_virtual {A} s i p (none : A) f : recorded s -> cParts s !! i = Some p -> fluid_or_wall p ->
    surface_term (cEnv s) (cParts s) i p none f = of_virtual s i p none f.
  Proof. intros HR Hp Hf. unfold surface_term, of_virtual. by rewrite surface_virtual. Qed.

  (** ** The first half *)
  Lemma removal_phase env0 (dt : R) s s1 :
    square_ground env0 -> 0 < eNL env0 -> reachable env0 s -> search_neighbor (start_step (dt : Rnum) s) = Done s1 ->
    removal (cEnv (start_step (dt : Rnum) s)) (cParts s) (cParts s1).
  Proof.
    intros Hsq HNL Hr H. destruct (search_frame (start_step (dt : Rnum) s) s1) as [_ HF]; [by rewrite H|]. apply Forall2_length in HF.
    split; [symmetry; exact HF|]. intros i p Hp.
    destruct (C07_disabled_iff_outside env0 dt s s1 i p Hsq HNL Hr H Hp) as (p1 & Hp1 & HX & HU & HP & HN & HT & HD).
    exists p1. split; [done|].
    assert (outside_grid (cEnv (start_step (dt : Rnum) s)) (pX p) <-> outside env0 (pX p)) as HO.
    { destruct (reachable_geom env0 s Hsq Hr) as (_ & _ & HE). apply same_constants_fields in HE as (_ & _ & _ & _ & _ & E1 & E2 & E3).
      unfold outside_grid, outside, outside_axis. cbn [cEnv start_step with_env set_next_t set_dt eMinX eMaxX eNL].
      assert (forall k, coord (eMinX (cEnv s)) k = coord (eMinX env0) k) as F2 by (intros k; by rewrite E2).
      assert (forall k, coord (eMaxX (cEnv s)) k = coord (eMaxX env0) k) as F3 by (intros k; by rewrite E3).
      split; intros (k & Hk & Ho); exists k; (split; [done|]); rewrite F2, F3, E1 in *.
      - destruct Ho as [Ho|(n & Hn & Ho)]; [by left|right]. assert (Zceil ((coord (eMaxX env0) k - coord (eMinX env0) k) / eNL env0) = n) as ->; [|done].
        apply Zceil_imp. rewrite minus_IZR. done.
      - destruct Ho as [Ho|Ho]; [by left|right]. eexists. split; [|exact Ho]. set (x := (_ / _)). split; [|apply Zceil_ub].
        pose proof (Zceil_lb x). lra. }
    split.
    - intros Ho. assert (pT p1 = Disabled) as HT1 by (apply HD; right; by apply HO). destruct p1, p; simpl in *; subst. done.
    - intros Ho. destruct HT as [HT|HT]; [destruct p1, p; simpl in *; subst; done|].
      destruct (proj1 HD HT) as [HT'|HT']; [|by destruct Ho; apply HO]. destruct p1, p; simpl in *; subst. done.
  Qed.

  Lemma densities_phase s s' : midstep s -> compute_densities s = Some s' -> densities (cEnv s) (cParts s) (cParts s').
  Proof.
    intros Hm H. split; [apply (pr_size s s'), dens_pr, H|]. intros i p Hp.
    destruct (is_active (pT p)) eqn:E.
    - apply is_active_true in E. destruct (dens_active s s' i p Hm H Hp E) as [HP _]. eexists. split; [exact HP|].
      split; [|by intros]. intros _. rewrite density_raw. done.
    - pose proof (dens_at s s' i p H Hp) as D. rewrite E in D. destruct D as [D _]. exists p. split; [done|].
      split; [|by intros]. intros HF. apply is_active_true in HF. congruence.
  Qed.

  (** Two frames with the same positions and types. *)
  Definition same_places s s' : Prop := forall i,
    (fun p => (pX p, pT p)) <$> cParts s !! i = (fun p => (pX p, pT p)) <$> cParts s' !! i.
  Lemma same_places_at s s' i p : same_places s s' -> cParts s !! i = Some p ->
    exists p', cParts s' !! i = Some p' /\ pX p' = pX p /\ pT p' = pT p.
  Proof.
    intros H Hp. specialize (H i). rewrite Hp in H. destruct (cParts s' !! i) as [p'|]; [|done]. injection H as H1 H2. eauto.
  Qed.
  Lemma same_places_sym s s' : same_places s s' -> same_places s' s.
  Proof. intros H i. by rewrite H. Qed.
  Lemma same_places_size s s' : same_places s s' -> psize s = psize s'.
  Proof.
    intros H. assert (forall s s', same_places s s' -> (psize s <= psize s')%nat) as HL.
    { clear. intros s s' H. destruct (le_lt_dec (psize s) (psize s')) as [|L]; [done|]. destruct (lookup_lt_is_Some_2 (cParts s) (psize s') L) as [p Hp].
      destruct (same_places_at s s' _ p H Hp) as (p' & Hp' & _). apply lookup_lt_Some in Hp'. unfold psize in Hp'. lia. }
    apply Nat.le_antisymm; apply HL; [done|by apply same_places_sym].
  Qed.
  Lemma same_places_close s s' r i j : same_places s s' -> close r s i j -> close r s' i j.
  Proof.
    intros H (Hij & p & q & Hp & Hq & He & Hd). destruct (same_places_at s s' i p H Hp) as (p' & Hp' & HX & _).
    destruct (same_places_at s s' j q H Hq) as (q' & Hq' & HX' & HT'). split; [done|]. exists p', q'. rewrite HX, HX'.
    unfold enabled in *. rewrite HT'. done.
  Qed.
  Lemma same_places_raw s s' i p p' : same_places s s' -> cEnv s' = cEnv s -> pX p' = pX p -> raw_density s' i p' = raw_density s i p.
  Proof.
    intros H HE HX. unfold raw_density, close_sum. rewrite HE, (same_places_size s s' H). apply sum_n_ext. intros j _.
    destruct (decide (close _ s' i j)) as [C|C], (decide (close _ s i j)) as [C'|C'].
    - destruct C' as (_ & _ & q & _ & Hq & _). destruct (same_places_at s s' j q H Hq) as (q' & Hq' & HX' & _).
      rewrite (at_part_eq s' j q'), (at_part_eq s j q) by done. by rewrite HX, HX'.
    - exfalso. apply C'. eapply same_places_close; [apply same_places_sym, H|done].
    - exfalso. apply C. eapply same_places_close; [exact H|done].
    - done.
  Qed.
  Lemma recorded_same s s' : same_places s s' -> cEnv s' = cEnv s -> cNws s' = cNws s -> recorded s -> recorded s'.
  Proof.
    intros H HE HN HR i p' Hp' Hf. destruct (same_places_at s' s i p' (same_places_sym _ _ H) Hp') as (p & Hp & HX & HT).
    etransitivity; [exact (f_equal (fun l => l !! i) HN)|]. rewrite (same_places_raw s s' i p p' H HE) by done. apply HR; [done|].
    unfold fluid_or_wall in *. by rewrite HT.
  Qed.
  Lemma dens_same s s' : compute_densities s = Some s' -> same_places s s'.
  Proof.
    intros H i. destruct (cParts s !! i) as [p|] eqn:Hp.
    - destruct (dens_keep s s' i p H Hp) as (n & -> & _). done.
    - assert (cParts s' !! i = None) as ->; [|done]. apply lookup_ge_None. apply lookup_ge_None in Hp.
      pose proof (pr_size s s' (dens_pr s s' H)) as HZ. unfold psize in HZ. lia.
  Qed.
  Lemma dens_recorded s s' : midstep s -> compute_densities s = Some s' -> recorded s'.
  Proof.
    intros Hm H i p' Hp' Hf. pose proof (dens_same s s' H) as HS.
    destruct (same_places_at s' s i p' (same_places_sym _ _ HS) Hp') as (p & Hp & HX & HT).
    rewrite (same_places_raw s s' i p p' HS) by first [done|apply (pr_env s s'), dens_pr, H].
    apply (dens_active s s' i p Hm H Hp). unfold fluid_or_wall in *. by rewrite HT.
  Qed.

  Lemma vscalr_scal (a : V) (c : R) : vscalr a (c : Rnum) = (c : Rnum) *^ a.
  Proof. apply coord_ext. intros k Hk. rewrite coord_scal, coord_scalr by done. ring. Qed.
  Lemma gravity_R env (x : V) : gravity env x = gravity_at env x.
  Proof.
    unfold gravity, gravity_at. destruct (cCentral cfg); [|done]. cbv zeta. rewrite vnorm_len.
    assert (axis_z d = (dimn d - 1)%nat) as Hz by (by destruct d). rewrite Hz.
    assert ((eL0 env ×. (nofZ 1 /. nofZ 100) : Rnum) = eL0 env / 100) as -> by (simpl; unfold Rdiv; ring).
    unfold nltb. cbn [Rnum]. destruct (Rlt_dec _ _); apply coord_ext; intros k Hk; rewrite coord_scal, ?coord_zero by done; [apply Rmult_0_r|].
    rewrite coord_div, coord_scal by done. change (tget d (eG env) (dimn d - 1)) with (coord (eG env) (dimn d - 1)). unfold Rdiv. ring.
  Qed.
  Lemma friction_R s i p : friction (cEnv s) (cParts s) i p = viscous s i p.
  Proof.
    unfold friction, viscous. rewrite nvsum_close. apply close_vsum_ext. intros j q _ _. destruct (decide _); [done|]. f_equal.
    unfold viscous_coefficient, viscosity. destruct (cHL cfg); [|done]. set (r := edist _ _).
    assert (forall a b c e r : R, a * b * c / (e * r ^ 3) = a * b * c / e / (r * r * r)) as HA.
    { intros. simpl. unfold Rdiv. rewrite !Rinv_mult, Rinv_1. ring. }
    apply HA.
  Qed.
  Lemma movement_phase s s' : midstep s -> compute_explicit s = Some s' ->
    let t := eT (cEnv s) in let dt := eDt (cEnv s) in
    movement (cEnv s) (fun i => wPos wm (wPre wm (cWall s) t dt) i t dt) (cParts s) (cParts s').
  Proof.
    intros Hm H t dt. split; [apply (pr_size s s'), explicit_pr, H|]. intros i p Hp. pose proof (explicit_at s s' i p H Hp) as HX. cbv zeta in HX.
    destruct (is_newton (pT p)) eqn:HN.
    - apply is_newton_true in HN. destruct HX as (vis & Hv & HX). eexists. split; [exact HX|]. split; [|by intros]. intros _. cbv zeta.
      assert (enabled p) as He by (unfold enabled; congruence).
      rewrite (acc_V s i p) in Hv; [|left; apply Hm|apply Hm|done|done|by eapply ms_nws_at].
      assert (vis = viscous s i p) as ->.
      { injection Hv as <-. rewrite <- (vadd_0_r (viscous s i p)). f_equal.
        - apply close_vsum_ext. intros j q _ _. apply vis_func_R.
        - unfold of_virtual. destruct (virtual s i p) as [v|] eqn:Ev; [|done].
          apply virtual_fields in Ev as (HU & HT & _). rewrite vis_func_R, HU, HT. simpl. rewrite vsub_self. apply vscal_zero. }
      unfold set_U, set_X. simpl. rewrite friction_R, <- gravity_R, !vscalr_scal. done.
    - eexists. split; [exact HX|]. split; [intros E; apply is_newton_true in E; congruence|]. intros _. unfold set_U, set_X. cbn [pP pN pT pX pU].
      f_equal. apply coord_ext. intros k Hk. rewrite coord_div, coord_scal by done. unfold Rdiv. rewrite Rmult_1_l. apply Rmult_comm.
  Qed.

  (** ** Source term and compensation *)
  Lemma rate_speed s i p : midstep s -> recorded s -> cParts s !! i = Some p -> fluid_or_wall p ->
    density_speed s i = Some (rate (cEnv s) (cParts s) i p : Rnum).
  Proof.
    intros Hm HR Hp Hf. unfold rate. destruct (cHS cfg) eqn:HS.
    - rewrite (density_speed_HS s i p (raw_density s i p)); [|done|done|done|apply Hf|by apply HR]. f_equal.
      unfold below. rewrite density_raw. unfold nltb. cbn [Rnum]. destruct (_ && _); [done|]. f_equal. rewrite nsum_close.
      apply close_sum_ext. intros j q _ _. f_equal. ring.
    - unfold density_speed. rewrite Hp. cbn [mbind option_bind]. by rewrite HS.
  Qed.
  Lemma compensation_ecs s s' i p : midstep s -> recorded s -> cECS cfg = true -> compute_ecs s = Some s' ->
    cParts s !! i = Some p -> fluid_or_wall p -> cEcs s' !! i = Some (compensation (cEnv s) (cParts s) i p : Rnum).
  Proof.
    intros Hm HR HE H Hp Hf. pose proof (ecs_at s s' i p H Hp) as HX. rewrite (proj2 (is_active_true p) Hf) in HX.
    destruct HX as (sp & Hsp & HX). rewrite (rate_speed s i p Hm HR Hp Hf) in Hsp. injection Hsp as <-. etransitivity; [exact HX|]. f_equal.
    unfold compensation. rewrite HE. done.
  Qed.

  (** ** The pressure equation *)
  Lemma has_unknown env p : has_pressure env p <-> unknown env p.
  Proof. done. Qed.
  Lemma coefficient_R env (r : R) : laplacian_coefficient env r = laplacian env r.
  Proof. done. Qed.

  Lemma row_laplacian s t i p (x : list R) : midstep s -> recorded s -> set_ppe s = Some t -> cParts s !! i = Some p -> unknown (cEnv s) p ->
    mat_vec (psize s) (cA t) x i = pressure_laplacian (cEnv s) (cParts s) (fun j => el x j) i p.
  Proof.
    intros Hm HR H Hp Hu. assert (fluid_or_wall p) as Hf by apply Hu. assert (i < psize s)%nat as Hi by (by eapply lookup_lt_Some).
    destruct (C30_rows s t i p Hm H Hp Hu) as (Hoff & Hdiag & _). unfold mat_vec, pressure_laplacian.
    change (laplacian_coefficient (cEnv s)) with (laplacian (cEnv s)).
    rewrite (surface_term_virtual s i p) by done. rewrite nsum_close.
    set (a j := if decide (coupled s i j) then at_part s j 0 (fun q => laplacian (cEnv s) (edist (pX p) (pX q))) else 0) in *.
    assert (forall j, a j = 0 \/ j <> i) as Ha.
    { intros j. unfold a. destruct (decide (coupled s i j)) as [[(HN & _) _]|]; [right; congruence|by left]. }
    transitivity (sum_n (psize s) (fun j => a j * el x j + if (j =? i)%nat then elem (cA t) i i * el x i else 0)).
    { apply sum_n_ext. intros j _. destruct (Nat.eqb_spec j i) as [->|Hji].
      - destruct (Ha i) as [->|]; [|done]. by rewrite Rmult_0_l, Rplus_0_l.
      - rewrite (Hoff j Hji). fold (a j). by rewrite Rplus_0_r. }
    rewrite sum_n_plus, (sum_n_delta _ i (fun _ => elem (cA t) i i * el x i)) by done. rewrite Hdiag. unfold leak.
    set (lk := close_sum _ _ _ _). set (vt := of_virtual _ _ _ _ _) at 1.
    assert (of_virtual s i p 0 (fun v => laplacian (cEnv s) (edist (pX p) (pX v)) * (0 - el x i)) = - vt * el x i) as ->.
    { unfold vt, of_virtual. destruct (virtual s i p); ring. }
    transitivity (sum_n (psize s) (fun j => a j * el x j) + (- sum_n (psize s) a - lk) * el x i + - vt * el x i); [ring|]. f_equal.
    unfold close_sum in lk. match goal with lk := sum_n _ ?f |- _ => set (b := f) in lk end.
    transitivity (sum_n (psize s) (fun j => a j * el x j + ((- el x i) * a j + (- el x i) * b j))).
    { rewrite !sum_n_plus, !sum_n_scal. unfold lk. ring. }
    unfold close_sum. apply sum_n_ext. intros j Hj. unfold a, b. destruct (lookup_lt_is_Some_2 (cParts s) j Hj) as [q Hq].
    rewrite !(at_part_eq s j q) by done. destruct (decide (close _ s i j)) as [C|C].
    - destruct (decide (pT q = Dummy)) as [HD|HD].
      + rewrite (decide_False (P := coupled s i j)), (decide_False (P := fluid_or_wall q /\ _)); [ring| |].
        * intros [[_ HF] _]. done.
        * intros [_ HU]. rewrite (at_part_eq s j q) in HU by done. destruct HU as [[_ HF] _]. done.
      + assert (enabled q) as Heq. { destruct C as (_ & _ & q' & _ & Hq' & He & _). rewrite Hq in Hq'. by injection Hq' as <-. }
        destruct (decide (has_pressure (cEnv s) q)) as [HU|HU].
        * rewrite (decide_True (P := coupled s i j)), (decide_False (P := fluid_or_wall q /\ _)); [ring| |].
          -- intros [_ HN]. by apply HN.
          -- split; [done|]. by rewrite (at_part_eq s j q).
        * rewrite (decide_False (P := coupled s i j)), (decide_True (P := fluid_or_wall q /\ _)); [ring| |].
          -- split; [by split|done].
          -- intros [_ HN]. rewrite (at_part_eq s j q) in HN by done. by apply HU.
    - rewrite (decide_False (P := coupled s i j)); [ring|]. intros [HN _]. done.
  Qed.

  (** Right-hand side. *)
  Definition compensated (c : nat -> R) s : Prop :=
    forall i p, cParts s !! i = Some p -> fluid_or_wall p -> if cECS cfg then cEcs s !! i = Some (c i : Rnum) else c i = 0.
  Lemma row_residual s t i p c (x : list R) : midstep s -> recorded s -> compensated c s -> set_ppe s = Some t ->
    cParts s !! i = Some p -> unknown (cEnv s) p ->
    el (cBv t) i - mat_vec (psize s) (cA t) x i = residual (cEnv s) c (cParts s) (fun j => el x j) i p.
  Proof.
    intros Hm HR HC H Hp Hu. assert (fluid_or_wall p) as Hf by apply Hu. unfold residual. rewrite (row_laplacian s t i p) by done. f_equal.
    apply (C30_right_hand_side s t i p (rate (cEnv s) (cParts s) i p) (c i) H Hp Hu); [by apply rate_speed|by apply (HC i p)].
  Qed.
  Lemma res2_residual2 s t c (x : list R) : midstep s -> recorded s -> compensated c s -> set_ppe s = Some t -> vanishes s x ->
    res2 (psize s) (cA t) (cBv t) x = residual2 (cEnv s) c (cParts s) (fun j => el x j).
  Proof.
    intros Hm HR HC H Hx. unfold res2, residual2. apply sum_n_ext. intros i Hi. destruct (lookup_lt_is_Some_2 (cParts s) i Hi) as [p Hp].
    rewrite Hp. destruct (decide (has_pressure (cEnv s) p)) as [Hu|Hu]; [by rewrite (row_residual s t i p c)|].
    rewrite (ppe_excluded_product s t i p) by done. destruct (vanishes_start s t H) as [_ Vb]. rewrite (Vb i p), (Hx i p) by done. ring.
  Qed.
  Lemma residual2_ext env c ps (x y : nat -> R) : (forall i p, ps !! i = Some p -> has_pressure env p -> x i = y i) ->
    residual2 env c ps x = residual2 env c ps y.
  Proof.
    intros HX. unfold residual2. apply sum_n_ext. intros i _. destruct (ps !! i) as [p|] eqn:Hp; [|done].
    destruct (decide (has_pressure env p)) as [Hu|]; [|done]. f_equal. unfold residual. f_equal. unfold pressure_laplacian. f_equal.
    - unfold nsum. apply sum_n_ext. intros j _. destruct (decide _); [|done]. destruct (ps !! j) as [q|] eqn:Hq; [|done].
      destruct (decide (pT q = Dummy)); [done|]. rewrite (HX i p Hp Hu). destruct (decide (has_pressure env q)) as [Hq'|]; [|done]. by rewrite (HX j q Hq Hq').
    - by rewrite (HX i p Hp Hu).
  Qed.

  Lemma solve_vanishes s t x (ok : bool) : midstep s -> set_ppe s = Some t ->
    cg_solve (N := Rnum) (cA t) (cXv t) (cBv t) (cEps t) = (x, ok) -> vanishes s x.
  Proof.
    intros Hm H E i p Hp Hu. unfold cg_solve in E. cbv zeta in E. destruct (_ =?. _).
    - injection E as <- _. by apply (proj1 (vanishes_start s t H) i p).
    - apply (f_equal fst) in E. cbn [fst] in E. rewrite <- E.
      exact (C34_excluded_stay_zero s t i p _ _ Hm H Hp Hu).
  Qed.

  Lemma same_places_of s s' : (forall i p, cParts s !! i = Some p -> exists p', cParts s' !! i = Some p' /\ pX p' = pX p /\ pT p' = pT p) ->
    psize s' = psize s -> same_places s s'.
  Proof.
    intros H HZ i. destruct (cParts s !! i) as [p|] eqn:Hp.
    - destruct (H i p Hp) as (p' & -> & HX & HT). cbn. by rewrite HX, HT.
    - assert (cParts s' !! i = None) as ->; [|done]. apply lookup_ge_None. apply lookup_ge_None in Hp. unfold psize in HZ. rewrite HZ. done.
  Qed.

  (** What the acceleration phase needs to know about the state between the pressures and it. *)
  Record carried s s3 : Prop := {
    ca_places : same_places s s3;
    ca_env : cEnv s3 = cEnv s;
    ca_nws : cNws s3 = cNws s;
    ca_orig : cOrigX s3 = cOrigX s;
    ca_pr : phase_rel s s3;
    ca_mid : midstep s3
  }.
  Lemma midstep_same s s' : same_places s s' -> phase_rel s s' -> midstep s -> midstep s'.
  Proof.
    intros HS HP [M1 M2 M3 M4 M5]. destruct (pr_ppe _ _ HP M4 M5) as [L1 L2]. split; try done.
    - by rewrite (pr_env _ _ HP).
    - intros i p' Hp' He'. destruct (same_places_at s' s i p' (same_places_sym _ _ HS) Hp') as (p & Hp & _ & HT).
      assert (enabled p) as He by (unfold enabled in *; by rewrite HT).
      destruct (M2 i p Hp He) as (l & Hl & Hnd & Hin & Hall). exists l. split.
      { unfold neighbor_list in *. by rewrite (pr_nb _ _ HP). }
      split; [done|]. split.
      + intros j Hj. destruct (Hin j Hj) as (Hji & q & Hq & Heq). split; [done|]. destruct (same_places_at s s' j q HS Hq) as (q' & Hq' & _ & HT').
        exists q'. split; [done|]. unfold enabled in *. by rewrite HT'.
      + intros j C. apply Hall. rewrite (pr_env _ _ HP) in C. by apply (same_places_close s' s); [apply same_places_sym|].
    - rewrite (pr_nws _ _ HP), M3. symmetry. by apply pr_size.
  Qed.
  Lemma clamp_R s p (x : R) : fluid_or_wall p -> (~ has_pressure (cEnv s) p -> x = 0) ->
    clamp s p (x : Rnum) = if decide (has_pressure (cEnv s) p) then Rmax 0 x else 0.
  Proof.
    intros Hf Hx. unfold clamp. destruct (decide (has_pressure (cEnv s) p)) as [Hu|Hu].
    - pose proof (proj2 (excluded_unknown _ _) Hu) as Hex. unfold ppe_excluded in Hex. apply orb_false_iff in Hex as [_ Hsur].
      rewrite Hsur, orb_false_r. destruct (_ <?. _) eqn:Elt.
      + apply Rltb_true in Elt. rewrite Rmax_left; [done|]. simpl in Elt. lra.
      + apply Rltb_false in Elt. rewrite Rmax_right; [done|]. simpl in Elt. lra.
    - rewrite (Hx Hu). by destruct (_ || _).
  Qed.

  Lemma pressures_phase s s' c : midstep s -> recorded s -> compensated c s -> compute_implicit s = Done s' ->
    exists s3, pressures (cEnv s) (cEps s) c (cParts s) (cParts s3) /\ modify_by_gradient s3 = Some s' /\ carried s s3.
  Proof.
    intros Hm HR HC H. unfold pressures. destruct (cExplicit cfg) eqn:Hx.
    - destruct (implicit_Done_explicit s s' H Hx) as (s3 & H1 & H2). exists s3.
      pose proof (explicitp_rest _ _ _ H1) as Hr1. pose proof (explicitp_pr _ _ _ H1) as HP. pose proof (pr_size _ _ HP) as HZ.
      assert (forall i p, cParts s !! i = Some p -> cParts s3 !! i = Some (mkParticle (pX p) (pU p) (eC (cEnv s) ^ 2 * Rmax 0 (eRho (cEnv s) * pN p / eN0 (cEnv s) - eRho (cEnv s))) (pN p) (pT p))) as HA.
      { intros i p Hp. rewrite (explicitp_at _ _ _ _ H1 Hp). unfold set_P. by rewrite explicit_pressure_R. }
      split; [|split; [done|]].
      + split; [exact HZ|]. intros i p Hp. eexists. split; [by apply HA|done].
      + assert (same_places s s3) as HS. { apply same_places_of; [|done]. intros i p Hp. eexists. split; [by apply HA|done]. }
        split; [done|by rewrite Hr1|by rewrite Hr1|by rewrite Hr1|done|by apply (midstep_same s)].
    - destruct (implicit_Done s s' H Hx) as (t & s2 & s3 & [H1 H2 H3 H4 H5]). exists s3.
      destruct (ppe_lengths s t Hm H1) as [Lx Lb]. pose proof (ppe_sparse s t Hm H1) as HSp.
      assert (cEps t = cEps s) as HEps by (by rewrite (set_ppe_rest _ _ H1)).
      destruct (cg_solve (N := Rnum) (cA t) (cXv t) (cBv t) (cEps t)) as [x ok] eqn:EC. cbn [fst snd] in H2, H3. subst ok.
      destruct (C32_solver (psize s) (cA t) (cXv t) (cBv t) (cEps t) x true HSp Lb Lx EC) as [L HRes].
      pose proof (solve_vanishes s t x true Hm H1 EC) as HV. destruct (vanishes_start s t H1) as [V0 _].
      rewrite (res2_residual2 s t c x) in HRes by done. rewrite (res2_residual2 s t c (cXv t)) in HRes by done.
      assert (forall i p, cParts s !! i = Some p -> has_pressure (cEnv s) p -> el (cXv t) i = pP p) as HX0.
      { intros i p Hp Hu. destruct (C30_rows s t i p Hm H1 Hp Hu) as (_ & _ & HXi). by apply el_lookup. }
      rewrite (residual2_ext (cEnv s) c (cParts s) (fun j => el (cXv t) j) (old_pressures (cParts s))) in HRes.
      2: { intros i p Hp Hu. unfold old_pressures. rewrite Hp. by apply HX0. }
      assert (cEnv s2 = cEnv s) as HE by (rewrite H2; simpl; by rewrite (set_ppe_rest _ _ H1)).
      assert (cParts s2 = cParts s) as HPa by (rewrite H2; simpl; by rewrite (set_ppe_rest _ _ H1)).
      assert (phase_rel s s3) as HP.
      { eapply phase_rel_trans; [by apply set_ppe_pr|]. eapply phase_rel_trans; [|by eapply assign_pr].
        destruct (solve_pr t) as (s2' & _ & Hp2 & Hs2). rewrite EC in Hs2. cbn [fst] in Hs2. rewrite H2, <- Hs2. done. }
      assert (forall i p, cParts s !! i = Some p -> exists p', cParts s3 !! i = Some p' /\
        (fluid_or_wall p -> p' = mkParticle (pX p) (pU p) (if decide (has_pressure (cEnv s) p) then Rmax 0 (el x i) else 0) (pN p) (pT p)) /\
        (~ fluid_or_wall p -> p' = p)) as HA.
      { intros i p Hp. assert (cParts s2 !! i = Some p) as Hp2 by (by rewrite HPa). pose proof (assign_at _ _ _ _ H4 Hp2) as Ha.
        destruct (is_active (pT p)) eqn:Eac.
        - apply is_active_true in Eac. destruct Ha as (v & Hv & Ha). eexists. split; [exact Ha|]. split; [|done]. intros _. unfold set_P. f_equal.
          assert (el x i = v) as Hel by (apply el_lookup; rewrite H2 in Hv; exact Hv). rewrite Hel.
          rewrite <- HE. apply (clamp_R s2 p v Eac). rewrite HE. intros Hu. rewrite <- Hel. by apply (HV i p).
        - exists p. split; [exact Ha|]. split; [|done]. intros Hf. apply is_active_true in Hf. congruence. }
      split; [|split; [done|]].
      + exists (fun j => el x j). split.
        * destruct HRes as [[E1 E2]|E]; [left|right].
          -- split; [intros i p Hp Hu; rewrite E1; by apply HX0|]. by rewrite <- HEps.
          -- by rewrite <- HEps.
        * split; [apply (pr_size _ _ HP)|]. exact HA.
      + assert (same_places s s3) as HS.
        { apply same_places_of; [|by apply pr_size]. intros i p Hp. destruct (HA i p Hp) as (p' & Hp' & F1 & F2). exists p'. split; [done|].
          destruct (decide (fluid_or_wall p)) as [Hf|Hf]; [by rewrite F1|by rewrite F2]. }
        assert (cNws s2 = cNws s /\ cOrigX s2 = cOrigX s) as [N2 O2] by (split; rewrite H2; simpl; by rewrite (set_ppe_rest _ _ H1)).
        split; [done|by rewrite (assign_rest _ _ _ H4)|by rewrite (assign_rest _ _ _ H4)|by rewrite (assign_rest _ _ _ H4)|done|by apply (midstep_same s)].
  Qed.

  (** ** Acceleration *)
  Lemma gc_matrix_R s p j q a b : (a < dimn d)%nat -> (b < dimn d)%nat ->
    mget (gc_matrix_func (pX p) (eRe (cEnv s)) j q) a b =
    wt (edist (pX p) (pX q)) (eRe (cEnv s)) / edist (pX p) (pX q) ^ 2 * (coord (pX q -^ pX p) a * coord (pX q -^ pX p) b).
  Proof.
    intros Ha Hb. unfold gc_matrix_func. cbv zeta. unfold mscal. rewrite mget_mmk by done. unfold mouter. rewrite mget_mmk by done.
    rewrite dist_edist, weight_wt, vdot_inner, inner_edist, edist_sym. done.
  Qed.
  Lemma acc_moments s i p m : midstep s -> recorded s -> cParts s !! i = Some p -> fluid_or_wall p ->
    acc s i mzero madd (gc_matrix_func (pX p) (eRe (cEnv s))) = Some m ->
    forall a b, (a < dimn d)%nat -> (b < dimn d)%nat -> mget m a b = moments (cEnv s) (cParts s) i p a b.
  Proof.
    intros Hm HR Hp Hf Ha a b Hla Hlb. assert (enabled p) as He by apply Hf. unfold moments. cbv zeta.
    rewrite (surface_term_virtual s i p) by done. rewrite nsum_close.
    destruct (acc_list s i p mzero madd (gc_matrix_func (pX p) (eRe (cEnv s))) (Rlt_le _ _ (ms_re s Hm)) (ms_cover s Hm) Hp He (ms_nws_at s i p Hm Hp)) as (l & Hl & E).
    pose proof (eq_trans (eq_sym Ha) E) as E'. injection E' as ->. clear E Ha.
    set (g (j : nat) := fun q : part => wt (edist (pX p) (pX q)) (eRe (cEnv s)) / edist (pX p) (pX q) ^ 2 * (coord (pX q -^ pX p) a * coord (pX q -^ pX p) b)).
    assert (forall (l : list nat) (z : mat Rnum d), mget (foldl madd z (map (fun j => at_part s j mzero (gc_matrix_func (pX p) (eRe (cEnv s)) (Z.of_nat j))) l)) a b
      = mget z a b + rsum (map (fun j => at_part s j 0 (g j)) l)) as Hfold.
    { clear l Hl. induction l as [|j l IH]; intros z; [unfold rsum; simpl; lra|]. simpl map. cbn [foldl]. rewrite IH. unfold rsum at 2. cbn [foldr].
      fold (rsum (map (fun j => at_part s j 0 (g j)) l)). unfold madd at 1. rewrite mget_mmk by done.
      unfold at_part at 1 3. destruct (cParts s !! j) as [q|].
      - rewrite gc_matrix_R by done. fold (g j q). simpl nadd. rewrite Rplus_assoc. done.
      - unfold mzero. rewrite mget_mmk by done. simpl. lra. }
    set (F := foldl _ _ _).
    assert (mget F a b = close_sum (eRe (cEnv s)) s i (fun j q => g j q)) as HF.
    { unfold F. rewrite Hfold. unfold mzero. rewrite mget_mmk by done. rewrite <- (close_sum_filter _ _ _ g).
      rewrite <- (rsum_perm _ _ (Permutation_map _ Hl)). simpl. lra. }
    unfold of_virtual. destruct (virtual s i p) as [v|].
    - unfold madd at 1. rewrite mget_mmk by done. rewrite gc_matrix_R by done. rewrite HF. done.
    - rewrite HF, Rplus_0_r. done.
  Qed.
  Lemma regular_determinant (m : mat Rnum d) (M : nat -> nat -> R) :
    (forall a b, (a < dimn d)%nat -> (b < dimn d)%nat -> mget m a b = M a b) -> (regular (cfg := cfg) M <-> determinant m <> 0).
  Proof.
    unfold regular. generalize m. clear m. generalize (cDim cfg). intros d0 m HM. destruct d0; cbn [determinant]; cbn [dimn] in HM.
    - unfold determinant2. rewrite !HM by lia. done.
    - unfold determinant3. rewrite !HM by lia. done.
  Qed.
  Lemma invert_singular (d0 : dim) (m : mat Rnum d0) (val : R) a b : (a < dimn d0)%nat -> (b < dimn d0)%nat -> determinant m = 0 ->
    mget (minvert m (val : Rnum)) a b = val * kron a b.
  Proof.
    destruct d0; intros Ha Hb HD; simpl in HD.
    - pose proof (C49_invert2 m val a b Ha Hb) as H. by destruct (Req_EM_T _ _).
    - pose proof (C49_invert3 m val a b Ha Hb) as H. by destruct (Req_EM_T _ _).
  Qed.
  Lemma correction_invert env (m : mat Rnum d) (M : nat -> nat -> R) :
    (forall a b, (a < dimn d)%nat -> (b < dimn d)%nat -> mget m a b = M a b) ->
    (forall a b, M a b = M b a) ->
    correction env M (mget (minvert m (INR (dimn d) / eN0 env : Rnum))).
  Proof.
    intros HM HS a b Ha Hb. rewrite (regular_determinant m M HM). split.
    - intros HD. change (unit_matrix a b) with (kron a b). rewrite <- (invert_symmetric d m (INR (dimn d) / eN0 env) a b Ha Hb); [|intros x y Hx Hy; rewrite !HM by done; apply HS|done].
      unfold mmul. apply sum_n_ext. intros k Hk. by rewrite HM.
    - intros HD. rewrite invert_singular; [done|done|done|]. destruct (Req_dec (determinant m) 0); [done|]. by destruct HD.
  Qed.
  Lemma moments_sym env (ps : list part) i p a b : moments env ps i p a b = moments env ps i p b a.
  Proof.
    unfold moments. cbv zeta. f_equal.
    - unfold nsum. apply sum_n_ext. intros j _. destruct (decide _); [|done]. destruct (ps !! j); [|done]. ring.
    - unfold surface_term. destruct (surface_particle _ _ _ _); [|done]. ring.
  Qed.
  Lemma gc_func_R env p j q (C : mat Rnum d) :
    gc_func cfg (pP p) (pX p) (eRe env) C j q =
    if decide (pT q = Dummy) then vzero
    else apply_matrix (mget C) (push_term env p q (if cMidpoint cfg then pP q + pP p else pP q - pP p)).
  Proof.
    unfold gc_func. rewrite is_dummy_decide. destruct (decide (pT q = Dummy)); [done|]. cbv zeta.
    rewrite dist_edist, weight_wt, vdot_inner, inner_edist, (edist_sym (pX q) (pX p)).
    apply coord_ext. intros a Ha. rewrite coord_scal, coord_mprod by done. unfold apply_matrix, coord at 2. rewrite tget_tmk by done.
    rewrite <- sum_n_scal. apply sum_n_ext. intros k Hk. unfold push_term. rewrite coord_scal by done.
    destruct (cMidpoint cfg); cbn [nadd nsub Rnum nmul ndiv]; unfold Rdiv; ring.
  Qed.

  Lemma acceleration_phase s s' : midstep s -> recorded s -> modify_by_gradient s = Some s' -> acceleration (cEnv s) (cParts s) (cParts s').
  Proof.
    intros Hm HR H. split; [apply (pr_size s s'), gradient_pr, H|]. intros i p Hp.
    destruct (decide (pT p = Newton)) as [Hf|Hf].
    - assert (fluid_or_wall p) as Hfw by (unfold fluid_or_wall, enabled; by rewrite Hf). assert (enabled p) as He by apply Hfw.
      destruct (cGC cfg) eqn:HG.
      + pose proof (gradient_at s s' i p H Hp) as HX. rewrite (proj2 (is_newton_true p) Hf) in HX. destruct HX as (a & Ha & HX).
        eexists. split; [exact HX|]. split; [|done]. intros _. unfold grad_value in Ha. cbv zeta in Ha. rewrite HG in Ha.
        destruct (acc s i mzero madd _) as [mm|] eqn:EM; [|done]. cbn [mbind option_bind] in Ha.
        pose proof (acc_moments s i p mm Hm HR Hp Hfw EM) as HMM.
        assert ((nofZ (Z.of_nat (dimn d)) /. eN0 (cEnv s) : Rnum) = INR (dimn d) / eN0 (cEnv s)) as HV by (simpl; by rewrite <- INR_IZR_INZ).
        rewrite HV in Ha. exists (mget (minvert mm (INR (dimn d) / eN0 (cEnv s) : Rnum))). split.
        { apply correction_invert; [done|]. intros x y. apply moments_sym. }
        rewrite (acc_V s i p) in Ha; [|left; apply Hm|apply Hm|done|done|by eapply ms_nws_at]. cbn [mbind option_bind] in Ha.
        set (C := minvert mm _) in *. injection Ha as <-.
        assert (corrected_push (cEnv s) (cParts s) i p (mget C) =
          close_vsum (eRe (cEnv s)) s i (fun j q => gc_func cfg (pP p) (pX p) (eRe (cEnv s)) C (Z.of_nat j) q) +^ of_virtual s i p vzero (gc_func cfg (pP p) (pX p) (eRe (cEnv s)) C (-1)%Z)) as HCP.
        { unfold corrected_push. cbv zeta. rewrite (surface_term_virtual s i p) by done. rewrite nvsum_close. f_equal.
          - apply close_vsum_ext. intros j q _ _. symmetry. apply (gc_func_R (cEnv s)).
          - unfold of_virtual. destruct (virtual s i p) as [v|] eqn:Ev; [|done]. rewrite (gc_func_R (cEnv s)).
            apply virtual_fields in Ev as (_ & HT & HP & _). rewrite HT, HP. done. }
        rewrite HCP. unfold kicked, kick, set_U, set_X. cbn [pX pU pP pN pT].
        assert (- eDt (cEnv s) * pN p / (eRho (cEnv s) * eN0 (cEnv s)) = - (eDt (cEnv s) * pN p / (eRho (cEnv s) * eN0 (cEnv s)))) as HF by (unfold Rdiv; ring).
        rewrite HF. f_equal. f_equal. apply vscalr_scal.
      + pose proof (C35_gradient_phase s s' i p Hm HG H Hp Hf) as HX. cbv zeta in HX. eexists. split; [exact HX|]. split; [|done]. intros _.
        unfold push. rewrite (surface_term_virtual s i p) by done. rewrite nvsum_close. unfold kick, grad_factor, virtual_push, pressure_sum.
        assert (of_virtual s i p vzero (fun v => push_term (cEnv s) p v (pP p)) = of_virtual s i p vzero (fun v => grad_term (cEnv s) (pX p) (pP p) (pX v) 0)) as HV.
        { unfold of_virtual. destruct (virtual s i p); [|done]. unfold push_term, grad_term. by rewrite Rplus_0_l. }
        rewrite HV. done.
    - pose proof (gradient_at s s' i p H Hp) as HX. destruct (is_newton (pT p)) eqn:HN; [by apply is_newton_true in HN|]. exists p. done.
  Qed.

  (** ** Stabilisation *)
  Lemma spread_R env (dx dx0 : V) : ds_term (limit2 env : Rnum) dx dx0 = spread env dx dx0.
  Proof.
    unfold spread. cbv zeta. destruct (Req_EM_T (len dx0) 0) as [Hn|Hn]; rewrite len_zero_iff in Hn.
    - rewrite Hn, ds_term_zero. symmetry. apply vscal_zero.
    - rewrite (ds_term_R (limit2 env) dx dx0 Hn). done.
  Qed.
  Lemma stabilisation_phase (ps0 : list part) s s' : midstep s -> length (cOrigX s) = psize s ->
    (forall j q, cParts s !! j = Some q -> fluid_or_wall q -> saved s j = place ps0 j) ->
    stabilize s = Some s' -> stabilisation (cEnv s) ps0 (cParts s) (cParts s').
  Proof.
    intros Hm HL Hsv H. split; [apply (pr_size s s'), stabilize_pr, H|]. intros i p Hp.
    destruct (decide (pT p = Newton)) as [Hf|Hf].
    - pose proof (C36_stabilisation_phase s s' i p Hm HL H Hp Hf) as HX. cbv zeta in HX. eexists. split; [exact HX|]. split; [|done]. intros _.
      unfold kick. rewrite nvsum_close.
      assert (stab_sum s i p = close_vsum (eRe (cEnv s)) s i (fun j q => if decide (pT q = Dummy) then vzero
         else if Rlt_dec (edist (pX p) (pX q) ^ 2) ((eL0 (cEnv s) - eMaxDx (cEnv s)) ^ 2) then spread (cEnv s) (pX q -^ pX p) (place ps0 j -^ place ps0 i) else vzero)) as ->; [|done].
      unfold stab_sum. apply close_vsum_ext. intros j q Hq C.
      destruct (decide (overlapping (cEnv s) p q)) as [[O1 O2]|O]; destruct (decide (pT q = Dummy)) as [HD|HD]; try done.
      + destruct (Rlt_dec _ _) as [_|N]; [|done]. rewrite (Hsv i p), (Hsv j q); try done; [by rewrite spread_R|..].
        * split; [|done]. destruct C as (_ & _ & q' & _ & Hq' & He & _). rewrite Hq in Hq'. by injection Hq' as <-.
        * unfold fluid_or_wall, enabled. by rewrite Hf.
      + destruct (Rlt_dec _ _) as [L|_]; [|done]. exfalso. apply O. done.
    - pose proof (stabilize_at s s' i p H Hp) as HX. destruct (is_newton (pT p)) eqn:HN; [by apply is_newton_true in HN|]. exists p. done.
  Qed.


  Lemma compensated_step env s2 s3 s6 : midstep s2 -> recorded s2 -> cEnv s2 = env -> cParts s3 = cParts s2 ->
    (if cECS cfg then compute_ecs s2 = Some s3 else s3 = s2) -> cEcs s6 = cEcs s3 -> phase_rel s2 s6 ->
    compensated (compensations env (cParts s2)) s6.
  Proof.
    intros Hm HR HE HP H HEq Hph i p Hp Hf. pose proof (f_equal (fun l => l !! i) (pr_types _ _ Hph)) as HT. cbv beta in HT.
    rewrite !list_lookup_fmap, Hp in HT. destruct (cParts s2 !! i) as [p2|] eqn:Hp2; [|done]. injection HT as HT.
    assert (fluid_or_wall p2) as Hf2. { unfold fluid_or_wall, enabled in *. by rewrite <- HT. }
    unfold compensations. rewrite Hp2. destruct (cECS cfg) eqn:HEC.
    - rewrite HEq. rewrite <- HE. by apply (compensation_ecs s2 s3).
    - unfold compensation. by rewrite HEC.
  Qed.

  (** A step of the program, in exact arithmetic, is a step of the scheme, as long as no particle is displaced by more than
      half the margin of the neighbour search within the step. *)
  Theorem C61_step env0 (dt : R) s s' :
    square_ground env0 -> 0 < eRe env0 -> eRe env0 <= eNL env0 -> reachable env0 s -> forward_dt (dt : Rnum) s = Done s' ->
    let env := set_next_t (set_dt (dt : Rnum) (cEnv s)) in
    let wall i := wPos wm (wPre wm (cWall s) (eT env) dt) i (eT env) dt in
    displacements_at_most env ((eNL env0 - eRe env0) / 2) wall (cEps s) (cParts s) ->
    mps_step env wall (cEps s) (cParts s) (cParts s').
  Proof.
    intros Hsq HRe HNL' Hr H env wall [HD1 HD2]. assert (0 < eNL env0) as HNL by (simpl in *; lra).
    destruct (forward_Done (dt : Rnum) s s' H) as (s1 & s2 & s3 & s4 & s5 & s6 & s7 & HT).
    pose proof (trace_phase _ _ _ _ _ _ _ _ _ _ HT) as Hph. assert (forall x, x ∈ [s1; s2; s3; s4; s5; s6; s7; s'] -> cEnv x = cEnv (start_step (dt : Rnum) s)) as Henv by (intros x; by apply (trace_env _ _ _ _ _ _ _ _ _ _ _ HT)).
    change (cEnv (start_step (dt : Rnum) s)) with env in Henv.
    destruct HT as [H1 H2 H3 H4 H5 H6 H7 H8].
    assert (phase_rel s1 s4) as P4 by (apply Hph; rewrite !elem_of_cons; tauto).
    assert (phase_rel s1 s7) as P7 by (apply Hph; rewrite !elem_of_cons; tauto).
    assert (cEnv s1 = env) as E1 by (apply Henv; rewrite !elem_of_cons; tauto).
    assert (cEnv s2 = env) as E2 by (apply Henv; rewrite !elem_of_cons; tauto).
    assert (cEnv s3 = env) as E3 by (apply Henv; rewrite !elem_of_cons; tauto).
    assert (cEnv s4 = env) as E4 by (apply Henv; rewrite !elem_of_cons; tauto).
    assert (cEnv s5 = env) as E5 by (apply Henv; rewrite !elem_of_cons; tauto).
    assert (cEnv s6 = env) as E6 by (apply Henv; rewrite !elem_of_cons; tauto).
    assert (cEnv s7 = env) as E7 by (apply Henv; rewrite !elem_of_cons; tauto).
    destruct (search_frame (start_step (dt : Rnum) s) s1) as [Eq1 F1]; [by rewrite H1|].
    pose proof (removal_phase env0 dt s s1 Hsq HNL Hr H1) as R1. change (cEnv (start_step (dt : Rnum) s)) with env in R1.
    assert (moved_at_most ((eNL env0 - eRe env0) / 2) s s1) as V1.
    { intros i p p' Hp Hp' _. assert (pX p' = pX p) as ->.
      { destruct (Forall2_lookup_l _ _ _ i p F1 Hp) as (p1 & Hp1 & K). rewrite Hp' in Hp1. injection Hp1 as <-. by destruct K as [->| ->]. }
      rewrite (proj2 (edist_zero (pX p) (pX p)) eq_refl). simpl in *. lra. }
    pose proof (phase_midstep env0 dt s s1 s1 Hsq HNL HRe Hr H1 (phase_rel_refl s1) V1) as M1.
    pose proof (densities_phase s1 s2 M1 H2) as R2. rewrite E1 in R2.
    pose proof (dens_same s1 s2 H2) as S2. pose proof (midstep_same s1 s2 S2 (dens_pr _ _ H2) M1) as M2. pose proof (dens_recorded s1 s2 M1 H2) as Rec2.
    assert (cParts s3 = cParts s2 /\ cWall s3 = cWall s2 /\ phase_rel s2 s3) as (A3 & W3 & P3).
    { destruct (cECS cfg).
      - rewrite (ecs_rest _ _ H3). split; [done|]. split; [done|]. rewrite <- (ecs_rest _ _ H3). by apply ecs_pr.
      - subst s3. split; [done|]. split; [done|]. apply phase_rel_refl. }
    assert (midstep s3) as M3. { apply (midstep_same s2); [|done|done]. intros i. by rewrite A3. }
    pose proof (movement_phase s3 s4 M3 H4) as R4. cbv zeta in R4. rewrite E3, A3 in R4.
    assert (cWall s3 = cWall s) as W by (by rewrite W3, (dens_rest _ _ H2); simpl; rewrite Eq1).
    rewrite W in R4. change (eDt env) with (dt : Rnum) in R4. fold wall in R4.
    assert (moved_at_most ((eNL env0 - eRe env0) / 2) s s4) as V4 by (by apply (HD1 (cParts s1) (cParts s2))).
    pose proof (phase_midstep env0 dt s s1 s4 Hsq HNL HRe Hr H1 P4 V4) as M4.
    pose proof (densities_phase s4 s5 M4 H5) as R5. rewrite E4 in R5.
    pose proof (dens_same s4 s5 H5) as S5. pose proof (midstep_same s4 s5 S5 (dens_pr _ _ H5) M4) as M5. pose proof (dens_recorded s4 s5 M4 H5) as Rec5.
    assert (cParts s6 = cParts s5 /\ cNws s6 = cNws s5 /\ cEcs s6 = cEcs s5 /\ phase_rel s5 s6) as (A6 & N6 & C6 & P6).
    { destruct (cDS cfg).
      - rewrite (savex_rest _ _ H6). split; [done|]. split; [done|]. split; [done|]. rewrite <- (savex_rest _ _ H6). by apply savex_pr.
      - subst s6. split; [done|]. split; [done|]. split; [done|]. apply phase_rel_refl. }
    assert (same_places s5 s6) as S6 by (intros i; by rewrite A6).
    assert (midstep s6) as M6 by (by apply (midstep_same s5)).
    assert (recorded s6) as Rec6 by (apply (recorded_same s5); [done|by rewrite E6|done|done]).
    assert (compensated (compensations env (cParts s2)) s6) as HC.
    { apply (compensated_step env s2 s3); try done.
      - rewrite C6, (dens_rest _ _ H5). simpl. by rewrite (explicit_rest _ _ H4).
      - eapply phase_rel_trans; [exact P3|]. eapply phase_rel_trans; [by apply explicit_pr|]. eapply phase_rel_trans; [by apply dens_pr|done]. }
    destruct (pressures_phase s6 s7 _ M6 Rec6 HC H7) as (s3' & R6 & H7' & [K1 K2 K3 K4 K5 K6]). rewrite E6, A6 in R6.
    assert (recorded s3') as RecX by (by apply (recorded_same s6)).
    pose proof (acceleration_phase s3' s7 K6 RecX H7') as R7. rewrite K2, E6 in R7.
    assert (cEps s6 = cEps s) as HEps by (rewrite (pr_eps _ _ (Hph s6 ltac:(rewrite !elem_of_cons; tauto))), Eq1; done).
    rewrite HEps in R6.
    assert (first_half env wall (cParts s) (cParts s2) (cParts s5)) as FH by (exists (cParts s1), (cParts s4); done).
    assert (second_half env (cEps s) (cParts s2) (cParts s5) (cParts s7)) as SH by (exists (cParts s3'); done).
    exists (cParts s2), (cParts s5), (cParts s7). split; [done|]. split; [done|].
    destruct (cDS cfg) eqn:HDS; [|by subst].
    specialize (HD2 eq_refl _ _ _ FH SH). pose proof (phase_midstep env0 dt s s1 s7 Hsq HNL HRe Hr H1 P7 HD2) as M7.
    rewrite <- E7. apply stabilisation_phase; try done.
    - pose proof (reachable_inv env0 s Hsq Hr) as Hinv. destruct (inv_ok _ _ Hsq Hinv) as [Hwf Hok].
      assert (P_Search.wf s1) as W1 by (eapply wf_searched; [by apply (wf_start (dt : Rnum))|by apply (search_searched env0 dt s s1)]).
      apply (wf_origx s7). by eapply wf_phase.
    - intros j q Hq Hf. unfold saved, place. rewrite (implicit_origx s6 s7 H7).
      assert (phase_rel s6 s7) as P67 by (apply implicit_pr; by rewrite H7).
      pose proof (f_equal (fun l => l !! j) (pr_types _ _ P67)) as HTy. cbv beta in HTy. rewrite !list_lookup_fmap, Hq, A6 in HTy.
      destruct (cParts s5 !! j) as [q5|] eqn:Hq5; [|done]. injection HTy as HTy.
      rewrite (savex_at s5 s6 j q5 H6 Hq5); [done|]. apply is_active_true. unfold fluid_or_wall, enabled in *. by rewrite <- HTy.
  Qed.
End Scheme.

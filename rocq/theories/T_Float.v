(** Property theorems: what of the above survives rounding (C70), for [double] as the type of numbers. *)
From Coq Require Import ZArith Reals Lra.
From Verif Require Import S_Float P_Life P_Point P_Step P_Reach P_Neigh P_B64 S_Reach.
From Flocq Require Import Core BinarySingleNaN Relative.
Open Scope R_scope.

(** *** Comparison of doubles *)
Lemma leb_le (x y : B64) : is_finite x = true -> is_finite y = true -> Bleb x y = true <-> B2R x <= B2R y.
Proof.
  intros Hx Hy. rewrite Bleb_correct by done. split; [|by intros; apply Rle_bool_true].
  by destruct (Rle_bool_spec (B2R x) (B2R y)).
Qed.
Lemma ltb_lt (x y : B64) : is_finite x = true -> is_finite y = true -> Bltb x y = true <-> B2R x < B2R y.
Proof.
  intros Hx Hy. rewrite Bltb_correct by done. split; [|by intros; apply Rlt_bool_true].
  by destruct (Rlt_bool_spec (B2R x) (B2R y)).
Qed.
Lemma leb_refl (x : B64) : is_nan x = false -> Bleb x x = true.
Proof.
  intros H. destruct (is_finite x) eqn:E; [apply leb_le; [done..|lra]|]. by destruct x as [|[]| |].
Qed.
Lemma ltb_false (x y : B64) : is_nan x = false -> is_nan y = false -> Bltb x y = false -> Bleb y x = true.
Proof.
  intros Nx Ny H. destruct (is_finite x) eqn:Fx, (is_finite y) eqn:Fy.
  - apply leb_le; [done..|]. destruct (Rlt_or_le (B2R x) (B2R y)) as [Hl|]; [|done]. apply ltb_lt in Hl; [congruence|done..].
  - by destruct y as [|[]| |], x as [[]|[]| |[] ? ? ?].
  - by destruct x as [|[]| |], y as [[]|[]| |[] ? ? ?].
  - by destruct x as [|[]| |], y as [|[]| |].
Qed.
Lemma ltb_leb (x y : B64) : Bltb x y = true -> Bleb x y = true.
Proof.
  intros H. destruct (is_finite x) eqn:Fx, (is_finite y) eqn:Fy.
  - apply leb_le; [done..|]. apply ltb_lt in H; [lra|done..].
  - by destruct y as [|[]| |], x as [[]|[]| |[] ? ? ?].
  - by destruct x as [|[]| |], y as [[]|[]| |[] ? ? ?].
  - by destruct x as [|[]| |], y as [|[]| |].
Qed.
Lemma leb_nan_l (x y : B64) : Bleb x y = true -> is_nan x = false.
Proof. by destruct x, y. Qed.
Lemma leb_nan_r (x y : B64) : Bleb x y = true -> is_nan y = false.
Proof. by destruct x as [|[]| |[]], y as [|[]| |[]]. Qed.
Lemma leb_trans (x y z : B64) : Bleb x y = true -> Bleb y z = true -> Bleb x z = true.
Proof.
  intros H1 H2.
  assert (forall a b : B64, Bleb a b = true -> a = B754_infinity true \/ b = B754_infinity false \/ is_finite a = true /\ is_finite b = true) as HC.
  { intros a b H. destruct a as [[]|[]| |[] ? ? ?]; destruct b as [[]|[]| |[] ? ? ?]; try done; auto. }
  pose proof (leb_nan_l _ _ H1). pose proof (leb_nan_r _ _ H2).
  destruct (HC x y H1) as [->|[->|[Fx Fy]]]; [by destruct z as [|[]| |]|by destruct z as [|[]| |[]], x as [|[]| |[]]|].
  destruct (HC y z H2) as [->|[->|[_ Fz]]]; [done|by destruct x as [[]|[]| |[] ? ? ?]|].
  apply leb_le in H1; [|done..]. apply leb_le in H2; [|done..]. apply leb_le; [done..|lra].
Qed.
Lemma ge0_of (x : B64num) : (nofZ 0 <=?. x) = true <-> ge0 x = true.
Proof. by rewrite ge0_leb. Qed.

(** ** Weights *)
Theorem C70_weight (r r_e : B64num) : nofZ 0 <=?. weight r r_e = true.
Proof.
  apply ge0_of. unfold weight. destruct (nofZ 0 <?. r) eqn:H1; [|done]. destruct (r <?. r_e) eqn:H2; [|done].
  cbn [andb]. by apply quotient_minus_one_ge0.
Qed.

(** ** The constants *)
Theorem C70_constants cfg maxDt courant g rho nu surf ratio c l_0 minX maxX (env : environment B64num cfg) :
  new_env cfg maxDt courant g rho nu surf ratio c l_0 minX maxX = Some env ->
  nofZ 0 <=?. eN0 env = true /\
  (maxDt <=?. maxDt = true -> eMaxDt env <=?. maxDt = true).
Proof.
  unfold new_env. destruct (nceil ratio) as [range|]; [|done]. destruct (_ || _)%bool; [done|]. intros H. apply (inj Some) in H. subst env. split.
  - cbn [eN0]. set (R_e := ratio ×. l_0). apply ge0_of.
    assert (forall l (st : B64num * B64num), ge0 st.1 = true -> ge0 (foldl (lattice_step cfg l_0 R_e) st l).1 = true) as H.
    { induction l as [|idx l IH]; intros st Hst; [done|]. simpl. apply IH. unfold lattice_step.
      destruct (forallb _ _); [done|]. cbv zeta. destruct (_ <?. _); [|done]. cbn [fst]. apply plus_ge0; [done|].
      apply ge0_of, C70_weight. }
    by apply H.
  - intros Hn. cbn [eMaxDt]. assert (forall a : B64num, nmin maxDt a <=?. maxDt = true) as H.
    { intros a. unfold nmin. destruct (a <?. maxDt) eqn:E; [by apply ltb_leb|done]. }
    destruct (cExplicit cfg); apply H.
Qed.

Section Dots.
  Context {d : dim}.
  Notation V := (vec B64num d).
  Lemma mult_self (x : B64) : Bmult mode_NE x x = Bmult mode_NE (Babs x) (Babs x).
  Proof.
    destruct x as [[]|[]| |[] m e B]; try done. apply B2SF_inj. simpl. by rewrite !B2SF_SF2B.
  Qed.
  Lemma norm_dot (v : V) : vnorm v = Bsqrt mode_NE (vdot v v).
  Proof.
    unfold vnorm, vdot. change (@nsqrt B64num) with (@Bsqrt 53 1024 _ _ mode_NE). f_equal.
    generalize (nofZ 0 : B64num) as a. generalize (seq 0 (dimn d)) as l. induction l as [|k l IH]; intros a; [done|]. cbn [foldl].
    rewrite <- IH. f_equal. change (@nadd B64num) with (@Bplus 53 1024 _ _ mode_NE). f_equal. symmetry. apply mult_self.
  Qed.
  Lemma dot_ge0 (v : V) : numbers v -> ge0 (vdot v v) = true.
  Proof.
    intros Hv. unfold vdot. assert (forall k, k ∈ seq 0 (dimn d) -> (k < dimn d)%nat) as Hl.
    { intros k Hk. apply elem_of_list_In, in_seq in Hk. lia. }
    assert (ge0 (nofZ 0 : B64num) = true) as Ha by done. revert Ha Hl.
    generalize (nofZ 0 : B64num) as a. generalize (seq 0 (dimn d)) as l. induction l as [|k l IH]; intros a Ha Hl; [done|]. cbn [foldl].
    apply IH.
    - apply plus_ge0; [done|]. change (ge0 (Bmult mode_NE (tget d v k : B64) (tget d v k : B64)) = true). rewrite mult_self. apply mult_abs_ge0, Hv, Hl. left.
    - intros j Hj. apply Hl. by right.
  Qed.
End Dots.

Section Float.
  Context {cfg : config} {wm : wallmotion B64num (cDim cfg)}.
  Notation d := (cDim cfg).
  Notation V := (vec B64num d).
  Notation part := (particle B64num d).
  Notation computer := (computer cfg wm).
  Implicit Types (s : computer) (p q : part).

  (** What an accumulation yields, if it yields anything. *)
  Lemma acc_inv {A} s i (zero : A) plus f (Q : A -> Prop) a :
    acc s i zero plus f = Some a -> Q zero ->
    (forall a j q, Q a -> cParts s !! j = Some q -> Q (plus a (f (Z.of_nat j) q))) ->
    (forall a p x, Q a -> Q (plus a (f (-1)%Z (spp_particle p x)))) -> Q a.
  Proof.
    intros Ha H0 Hj Hspp. unfold acc in Ha. destruct (neighbor_list s i) as [js|]; [|done]. cbn [mbind option_bind] in Ha.
    destruct (cParts s !! i) as [p|]; [|done]. cbn [mbind option_bind] in Ha.
    destruct (foldM _ _ _) as [st|] eqn:E; [|done]. cbn [mbind option_bind] in Ha.
    assert (Q st.1) as Hst.
    { refine (foldM_inv _ (fun st => Q st.1) _ _ _ _ _ E); [|done]. intros st0 j st1 _ HQ H. unfold acc_step in H.
      destruct (_ =? _)%nat; [by simplify_eq|]. destruct (cParts s !! j) as [q|] eqn:Hq; [|done]. cbn [mbind option_bind] in H.
      destruct (_ <?. _); simplify_eq; [|done]. cbn [fst]. by apply Hj. }
    destruct (cSPP cfg); [|by simplify_eq]. unfold acc_spp in Ha. destruct (cNws s !! i); [|done]. cbn [mbind option_bind] in Ha.
    destruct (_ <?. _); [|by simplify_eq]. destruct (neps <?. _); simplify_eq; [by apply Hspp|done].
  Qed.

  Lemma density_ge0 s i x r_e n : acc s i (nofZ 0) nadd (dens_func cfg x r_e) = Some n -> ge0 n = true.
  Proof.
    intros H. refine (acc_inv s i _ _ _ (fun a : B64num => ge0 a = true) n H _ _ _); [done| |].
    - intros a j q Ha _. apply plus_ge0; [done|]. unfold dens_func. destruct (_ && _); [done|]. apply ge0_of, C70_weight.
    - intros a q y Ha. apply plus_ge0; [done|]. unfold dens_func. destruct (_ && _); [done|]. apply ge0_of, C70_weight.
  Qed.

  (** ** Densities: after a step none is negative or NaN, whatever the positions; with virtual particles none is
      below N0 (the grid, not the arithmetic, is what square_ground is about). *)
  Theorem C70_density env0 dt s s' i p :
    square_ground env0 -> reachable env0 s -> forward_dt dt s = Done s' ->
    cParts s' !! i = Some p -> fluid_or_wall p -> nofZ 0 <=?. eN0 env0 = true ->
    nofZ 0 <=?. pN p = true /\ (cSPP cfg = true -> eN0 env0 <=?. pN p = true).
  Proof.
    intros Hsq Hr Hf Hp Ha HN0.
    destruct (forward_Done dt s s' Hf) as (s1 & s2 & s3 & s4 & s5 & s6 & s7 & T).
    assert (exists p0, cParts s !! i = Some p0) as [p0 Hp0].
    { pose proof (forward_frame dt s s') as Hfr. rewrite Hf in Hfr. destruct (Hfr eq_refl) as [_ F].
      apply Forall2_length in F. rewrite !fmap_length in F. apply lookup_lt_is_Some. rewrite F. by eapply lookup_lt_Some. }
    destruct (step_particle dt s _ _ _ _ _ _ _ _ i p0 T Hp0) as (p1 & H1 & _ & n1 & _ & _ & _ & p4 & H4 & T4 & _ & _ & n2 & H5 & _ & _ & p7 & _ & T7 & _ & p8 & H8 & T8 & _ & N8).
    rewrite Hp in H8. injection H8 as <-.
    pose proof (dens_at s4 s5 i p4 (st_dens2 _ _ _ _ _ _ _ _ _ _ T) H4) as D.
    assert (is_active (pT p4) = true) as Ha4. { rewrite T4, <- T8. by apply is_active_true. }
    rewrite Ha4 in D. destruct D as (n & Hn & HP & _). rewrite H5 in HP. apply (inj Some) in HP.
    assert (n2 = if cSPP cfg then nmax n (eN0 (cEnv s4)) else n) as HN2 by (exact (f_equal pN HP)). rewrite N8, HN2.
    assert (ge0 n = true) as Gn by (by eapply density_ge0).
    assert (eN0 (cEnv s4) = eN0 env0) as HE.
    { destruct (reachable_geom env0 s Hsq Hr) as (_ & _ & HC). apply same_constants_fields in HC.
      rewrite (pr_env _ _ (explicit_pr _ _ (st_explicit _ _ _ _ _ _ _ _ _ _ T))).
      assert (cEnv s3 = cEnv s2) as ->.
      { pose proof (st_ecs _ _ _ _ _ _ _ _ _ _ T) as H. destruct (cECS cfg); [by apply ecs_pr, pr_env in H|by subst]. }
      rewrite (pr_env _ _ (dens_pr _ _ (st_dens1 _ _ _ _ _ _ _ _ _ _ T))).
      destruct (search_frame (start_step dt s) s1) as [-> _]; [by rewrite (st_search _ _ _ _ _ _ _ _ _ _ T)|]. exact (proj1 HC). }
    rewrite HE. apply ge0_of in HN0. destruct (cSPP cfg); [|split; [by apply ge0_of|done]].
    assert (eN0 env0 <=?. nmax n (eN0 env0) = true) as HL.
    { unfold nmax. destruct (n <?. eN0 env0) eqn:E; [by apply leb_refl, ge0_nan|]. apply ltb_false; [by apply ge0_nan..|done]. }
    split; [|done]. apply ge0_of in HN0. exact (leb_trans _ _ _ HN0 HL).
  Qed.

  (** ** Lengths of velocities *)
  Lemma sqrt_le (a b : B64) : ge0 a = true -> Bleb a b = true -> Bleb (Bsqrt mode_NE a) (Bsqrt mode_NE b) = true.
  Proof.
    intros Ha Hab. assert (ge0 b = true) as Hb. { apply ge0_of. apply ge0_of in Ha. exact (leb_trans _ _ _ Ha Hab). }
    destruct (ge0_split a Ha) as [[Fa Va]| ->]; [|by destruct b as [|[]| |[]]].
    destruct (ge0_split b Hb) as [[Fb Vb]| ->]; [|pose proof (sqrt_ge0 a Ha) as H; by destruct (Bsqrt mode_NE a) as [|[]| |[]]].
    apply leb_le in Hab; [|done..].
    destruct (Bsqrt_correct 53 1024 _ _ mode_NE a) as (VA & FA & _). destruct (Bsqrt_correct 53 1024 _ _ mode_NE b) as (VB & FB & _).
    assert (is_finite (Bsqrt mode_NE a) = true) by (rewrite FA; by destruct a as [[]|[]| |[] ? ? ?]).
    assert (is_finite (Bsqrt mode_NE b) = true) by (rewrite FB; by destruct b as [[]|[]| |[] ? ? ?]).
    apply leb_le; [done..|]. rewrite VA, VB. apply rnd_le. by apply sqrt_le_1.
  Qed.
  Lemma fastest (ps : list part) p : (forall q, q ∈ p :: ps -> numbers (pU q)) ->
    foldl max_u_step p ps ∈ p :: ps /\
    forall q, q ∈ p :: ps -> vdot (pU q) (pU q) <=?. vdot (pU (foldl max_u_step p ps)) (pU (foldl max_u_step p ps)) = true.
  Proof.
    revert p. induction ps as [|r ps IH]; intros p Hn; cbn [foldl].
    - split; [left|]. intros q ->%elem_of_list_singleton. apply leb_refl, ge0_nan, dot_ge0, Hn. left.
    - assert (ge0 (vdot (pU p) (pU p)) = true) as Gp by (apply dot_ge0, Hn; left).
      assert (ge0 (vdot (pU r) (pU r)) = true) as Gr by (apply dot_ge0, Hn; right; left).
      unfold max_u_step at 2 4 6. destruct (_ <?. _) eqn:E.
      + destruct (IH r) as [H1 H2]; [intros q Hq; apply Hn; by right|]. split; [by right|].
        intros q [->|Hq]%elem_of_cons; [|by apply H2]. eapply leb_trans; [apply ltb_leb, E|]. apply H2. left.
      + destruct (IH p) as [H1 H2]; [intros q [->|Hq]%elem_of_cons; apply Hn; [left|right; by right]|].
        split; [apply elem_of_cons in H1 as [->|?]; [left|right; by right]|].
        intros q [->|[->|Hq]%elem_of_cons]%elem_of_cons; [apply H2; left| |apply H2; by right].
        eapply leb_trans; [|apply H2; left]. apply ltb_false; [by apply ge0_nan..|done].
  Qed.

  (** What the automatic step is, if no velocity is NaN. *)
  Lemma step_cases s dt :
    (forall p, p ∈ cParts s -> numbers (pU p)) -> determine_dt s = Some dt ->
    exists m : B64num, ge0 m = true /\ (forall p, p ∈ cParts s -> Bleb (vnorm (pU p)) m = true) /\
      dt = if m =?. nofZ 0 then eMaxDt (cEnv s) else nmin (eMaxDx (cEnv s) /. m) (eMaxDt (cEnv s)).
  Proof.
    unfold determine_dt. destruct (cParts s) as [|p ps]; [done|]. intros Hn H. apply (inj Some) in H.
    destruct (fastest ps p Hn) as [H1 H2]. exists (vnorm (pU (foldl max_u_step p ps))). split; [|split].
    - rewrite norm_dot. apply sqrt_ge0, dot_ge0, Hn, H1.
    - intros q Hq. rewrite !norm_dot. apply sqrt_le; [by apply dot_ge0, Hn|]. by apply H2.
    - by rewrite <- H.
  Qed.
  Lemma zero_test (m : B64num) : m =?. nofZ 0 = false -> m <> B754_zero false /\ m <> B754_zero true.
  Proof. intros H. by split; intros ->. Qed.

  (** ** The automatic step: not NaN, not negative, not above MaxDt - provided no velocity is NaN *)
  Theorem C70_step s dt :
    (forall p, p ∈ cParts s -> numbers (pU p)) ->
    is_finite (eMaxDx (cEnv s) : B64) = true -> nofZ 0 <=?. eMaxDx (cEnv s) = true -> nofZ 0 <=?. eMaxDt (cEnv s) = true ->
    determine_dt s = Some dt -> nofZ 0 <=?. dt = true /\ dt <=?. eMaxDt (cEnv s) = true.
  Proof.
    intros Hn HF Hdx Hdt H. destruct (step_cases s dt Hn H) as (m & Hm & _ & ->).
    apply ge0_of in Hdx, Hdt. destruct (m =?. nofZ 0) eqn:E.
    - split; [by apply ge0_of|]. by apply leb_refl, ge0_nan.
    - apply zero_test in E as [E1 E2]. assert (ge0 (eMaxDx (cEnv s) /. m) = true) as Hq by (by apply div_ge0).
      unfold nmin. destruct (_ <?. _) eqn:Et.
      + split; [by apply ge0_of|]. by apply leb_refl, ge0_nan.
      + split; [by apply ge0_of|]. apply ltb_false; [by apply ge0_nan..|done].
  Qed.

  Lemma rnd_bound a : 0 <= a -> rnd a <= a * (1 + bpow radix2 (-53)) + bpow radix2 (-1075).
  Proof.
    intros Ha. destruct (error_N_FLT radix2 (3 - 1024 - 53) 53 eq_refl (fun x => negb (Z.even x)) a) as (eps & eta & He & Ht & _ & Hr).
    change (rnd a) with (round radix2 (FLT_exp (3 - 1024 - 53) 53) (Znearest (fun x => negb (Z.even x))) a). rewrite Hr.
    assert (/ 2 * bpow radix2 (- (53) + 1) = bpow radix2 (-53)) as E1.
    { change (/ 2) with (bpow radix2 (-1)). by rewrite <- bpow_plus. }
    assert (/ 2 * bpow radix2 (3 - 1024 - 53) = bpow radix2 (-1075)) as E2.
    { change (/ 2) with (bpow radix2 (-1)). by rewrite <- bpow_plus. }
    rewrite E1 in He. rewrite E2 in Ht. apply Rabs_le_inv in He, Ht. apply Rplus_le_compat; [|lra].
    apply Rmult_le_compat_l; [done|lra].
  Qed.

  (** ... and the Courant condition holds up to one rounding: for the length of the velocity as computed *)
  Theorem C70_cfl s dt p :
    (forall p, p ∈ cParts s -> numbers (pU p)) ->
    is_finite (eMaxDx (cEnv s) : B64) = true -> nofZ 0 <=?. eMaxDx (cEnv s) = true ->
    is_finite (eMaxDt (cEnv s) : B64) = true -> nofZ 0 <=?. eMaxDt (cEnv s) = true ->
    determine_dt s = Some dt -> p ∈ cParts s ->
    let u := B2R (vnorm (pU p) : B64) in
    u * B2R (dt : B64) <= B2R (eMaxDx (cEnv s) : B64) * (1 + bpow radix2 (-53)) + u * bpow radix2 (-1075).
  Proof.
    intros Hn HF Hdx HFt Hdt H Hp u. destruct (C70_step s dt Hn HF Hdx Hdt H) as [Hd0 Hd1].
    destruct (step_cases s dt Hn H) as (m & Hm & Hall & Hdt').
    apply ge0_of in Hdx, Hdt, Hd0. specialize (Hall p Hp).
    assert (ge0 (vnorm (pU p)) = true) as Hu by (rewrite norm_dot; by apply sqrt_ge0, dot_ge0, Hn).
    set (DX := B2R (eMaxDx (cEnv s) : B64)). assert (0 <= DX) as HDX by (by apply ge0_real).
    pose proof (bpow_gt_0 radix2 (-53)) as HB. pose proof (bpow_gt_0 radix2 (-1075)) as HB'.
    assert (0 <= DX * (1 + bpow radix2 (-53))) as HDX' by (apply Rmult_le_pos; lra).
    destruct (ge0_split _ Hu) as [[Fu Vu]|Eu].
    2: { unfold u. rewrite Eu. simpl B2R. lra. }
    fold u in Vu. assert (0 <= u * bpow radix2 (-1075)) as Hub by (apply Rmult_le_pos; lra).
    assert (is_finite (dt : B64) = true) as Fd.
    { destruct (ge0_split dt Hd0) as [[? _]| ->]; [done|]. by destruct (eMaxDt (cEnv s)) as [|[]| |[]]. }
    assert (0 <= B2R (dt : B64)) as Vd by (by apply ge0_real).
    destruct (m =?. nofZ 0) eqn:E.
    { assert (u <= 0) as Hu0.
      { assert (B2R m = 0 /\ is_finite m = true) as [Zm Fm] by (by destruct m as [|[]| |[]]). unfold u. apply leb_le in Hall; [|done..]. lra. }
      assert (u = 0) as -> by lra. lra. }
    apply zero_test in E as [E1 E2].
    destruct (ge0_split m Hm) as [[Fm Vm]| ->].
    - assert (B2R m <> 0) as Hm0. { destruct m as [[]|[]| |[] mm e B]; simpl in *; try done. intros E. by apply (eq_0_F2R radix2) in E. }
      apply leb_le in Hall; [|done..]. fold u in Hall. set (M := B2R m) in *. assert (0 < M) as HM by lra.
      assert (B2R (dt : B64) <= rnd (DX / M)) as Hr.
      { assert (0 <= DX / M) as Hq by (apply Rmult_le_pos; [done|left; by apply Rinv_0_lt_compat]).
        pose proof (Bdiv_correct 53 1024 _ _ mode_NE (eMaxDx (cEnv s) : B64) m Hm0) as HQ. fold DX M in HQ.
        destruct (Rlt_bool_spec (Rabs (rnd (DX / M))) (bpow radix2 1024)) as [_|Hov].
        - destruct HQ as (VQ & FQ & _). rewrite HF in FQ. rewrite <- VQ. apply leb_le; [done..|].
          subst dt. unfold nmin. destruct (_ <?. _) eqn:Et; [by apply ltb_leb|]. apply leb_refl. by destruct (Bdiv _ _ _).
        - rewrite Rabs_right in Hov by (apply Rle_ge; by apply rnd_ge0).
          pose proof (abs_B2R_lt_emax 53 1024 (dt : B64)) as Hb. rewrite Rabs_right in Hb by lra. lra. }
      assert (0 <= DX / M) as Hq by (apply Rmult_le_pos; [done|left; by apply Rinv_0_lt_compat]).
      pose proof (rnd_bound (DX / M) Hq) as HR.
      assert (u * B2R (dt : B64) <= u * (DX / M * (1 + bpow radix2 (-53)) + bpow radix2 (-1075))) as H1 by (apply Rmult_le_compat_l; lra).
      assert (u * (DX / M) <= DX) as H2.
      { apply (Rle_trans _ (M * (DX / M))); [by apply Rmult_le_compat_r|]. right. field. lra. }
      assert (u * (DX / M) * (1 + bpow radix2 (-53)) <= DX * (1 + bpow radix2 (-53))) as H3 by (apply Rmult_le_compat_r; lra).
      lra.
    - assert (B2R (dt : B64) = 0) as ->; [|lra].
      assert (B2R (eMaxDx (cEnv s) /. (B754_infinity false : B64num) : B64) = 0 /\ is_finite (eMaxDx (cEnv s) /. (B754_infinity false : B64num) : B64) = true) as [VZ FZ].
      { by destruct (eMaxDx (cEnv s)) as [|[]| |[]]. }
      assert (Bleb dt (eMaxDx (cEnv s) /. (B754_infinity false : B64num)) = true) as HL.
      { subst dt. change ((B754_infinity false : B64num) =?. nofZ 0) with false. cbv iota. unfold nmin.
        destruct (_ <?. _) eqn:Et; [by apply ltb_leb|]. apply leb_refl. by destruct (eMaxDx (cEnv s) /. _). }
      apply leb_le in HL; [|done..]. lra.
  Qed.

  (** ** Time never runs backwards *)
  Theorem C70_time dt s s' :
    is_finite (eT (cEnv s) : B64) = true -> nofZ 0 <=?. dt = true ->
    (forward_dt dt s = Done s' \/ exists ex, forward_dt dt s = Throw ex s') ->
    eT (cEnv s) <=?. eT (cEnv s') = true.
  Proof.
    intros HF Hdt Hf. assert (final (forward_dt dt s) = Some s') as Hfin by (by destruct Hf as [->|[ex ->]]).
    apply forward_frame in Hfin as [He _]. rewrite He. cbn [eT set_next_t set_dt eDt]. apply plus_le; [done|]. by apply ge0_of.
  Qed.
End Float.

(** Viscosity (C67), momentum over a whole step (C68), torque of the pressure forces. *)
From Verif Require Import P_Real P_AccR P_Point P_Life P_Step P_Force T_Env T_Density T_Force T_Grad T_Scheme.
From Verif Require Export S_Phys.
Open Scope R_scope.

Section Frame.
  Context {cfg : config} (env : environment Rnum cfg).
  Notation d := (cDim cfg).
  Notation V := (vec Rnum d).
  Notation part := (particle Rnum d).
  Implicit Types (ps : list part) (p q : part) (i j : nat).

  Lemma amount_ext ps f g : (forall i p, ps !! i = Some p -> pT p = Newton -> f i p = g i p) -> amount ps f = amount ps g.
  Proof.
    intros H. apply sum_n_ext. intros i _. destruct (ps !! i) as [p|] eqn:E; [|done]. destruct (decide _); [by apply H|done].
  Qed.
  Lemma amount_le ps f g : (forall i p, ps !! i = Some p -> pT p = Newton -> f i p <= g i p) -> amount ps f <= amount ps g.
  Proof.
    intros H. apply sum_n_le. intros i _. destruct (ps !! i) as [p|] eqn:E; [|lra]. destruct (decide _); [by apply H|lra].
  Qed.
  Lemma amount_plus ps f g : amount ps (fun i p => f i p + g i p) = amount ps f + amount ps g.
  Proof.
    unfold amount. rewrite <- sum_n_plus. apply sum_n_ext. intros i _. destruct (ps !! i); [|ring]. destruct (decide _); ring.
  Qed.
  Lemma amount_scal ps c f : amount ps (fun i p => c * f i p) = c * amount ps f.
  Proof.
    unfold amount. rewrite <- sum_n_scal. apply sum_n_ext. intros i _. destruct (ps !! i); [|ring]. destruct (decide _); ring.
  Qed.
  Lemma amount_nonneg ps f : (forall i p, ps !! i = Some p -> pT p = Newton -> 0 <= f i p) -> 0 <= amount ps f.
  Proof.
    intros H. apply sum_n_nonneg. intros i _. destruct (ps !! i) as [p|] eqn:E; [|lra]. destruct (decide _); [by apply H|lra].
  Qed.
  Lemma coord_total ps f k : (k < dimn d)%nat -> coord (total ps f) k = amount ps (fun _ p => coord (f p) k).
  Proof.
    intros Hk. unfold total, amount. rewrite coord_vsum_n by done. apply sum_n_ext. intros i _.
    destruct (ps !! i); [|by rewrite coord_zero]. destruct (decide _); [done|by rewrite coord_zero].
  Qed.
  (** From frame to frame. *)
  Lemma amount_pointwise rel ps ps' f f' : pointwise rel ps ps' ->
    (forall i p p', ps !! i = Some p -> rel i p p' -> (pT p' = Newton <-> pT p = Newton)) ->
    (forall i p p', ps !! i = Some p -> rel i p p' -> pT p = Newton -> f' i p' = f i p) ->
    amount ps' f' = amount ps f.
  Proof.
    intros [HL H] HT Hf. unfold amount. rewrite HL. apply sum_n_ext. intros i Hi.
    destruct (lookup_lt_is_Some_2 ps i Hi) as [p Hp]. destruct (H i p Hp) as (p' & Hp' & Hr). rewrite Hp, Hp'.
    pose proof (HT i p p' Hp Hr). destruct (decide (pT p' = Newton)), (decide (pT p = Newton)); try tauto. by eapply Hf.
  Qed.

  Lemma nsum_ext ps i f g : (forall j q, near_to (eRe env) ps i j -> ps !! j = Some q -> f j q = g j q) -> nsum env ps i f = nsum env ps i g.
  Proof.
    intros H. apply sum_n_ext. intros j _. destruct (decide _) as [C|]; [|done]. destruct (ps !! j) as [q|] eqn:E; [by apply H|done].
  Qed.
  Lemma nsum_plus ps i f g : nsum env ps i (fun j q => f j q + g j q) = nsum env ps i f + nsum env ps i g.
  Proof.
    unfold nsum. rewrite <- sum_n_plus. apply sum_n_ext. intros j _. destruct (decide _); [|ring]. destruct (ps !! j); ring.
  Qed.
  Lemma nsum_scal ps i c f : nsum env ps i (fun j q => c * f j q) = c * nsum env ps i f.
  Proof.
    unfold nsum. rewrite <- sum_n_scal. apply sum_n_ext. intros j _. destruct (decide _); [|ring]. destruct (ps !! j); ring.
  Qed.
  Lemma nsum_le ps i f g : (forall j q, near_to (eRe env) ps i j -> ps !! j = Some q -> f j q <= g j q) -> nsum env ps i f <= nsum env ps i g.
  Proof.
    intros H. apply sum_n_le. intros j _. destruct (decide _) as [C|]; [|lra]. destruct (ps !! j) as [q|] eqn:E; [by apply H|lra].
  Qed.
  Lemma coord_nvsum ps i f k : (k < dimn d)%nat -> coord (nvsum env ps i f) k = nsum env ps i (fun j q => coord (f j q) k).
  Proof.
    intros Hk. unfold nvsum, nsum. rewrite coord_vsum_n by done. apply sum_n_ext. intros j _.
    destruct (decide _); [|by rewrite coord_zero]. destruct (ps !! j); [done|by rewrite coord_zero].
  Qed.
  Lemma inner_nvsum ps i f (c : V) : inner (nvsum env ps i f) c = nsum env ps i (fun j q => inner (f j q) c).
  Proof.
    unfold inner, nsum. transitivity (sum_n (dimn d) (fun k => sum_n (length ps) (fun j => if decide (near_to (eRe env) ps i j) then
      match ps !! j with Some q => coord (f j q) k * coord c k | None => 0 end else 0))).
    - apply sum_n_ext. intros k Hk. rewrite coord_nvsum by done. unfold nsum. rewrite Rmult_comm, <- sum_n_scal. apply sum_n_ext. intros j _.
      destruct (decide _); [|ring]. destruct (ps !! j); ring.
    - rewrite sum_n_swap. apply sum_n_ext. intros j _. destruct (decide _); [|by apply sum_n_zero].
      destruct (ps !! j); [done|by apply sum_n_zero].
  Qed.
  Lemma near_to_sym ps i j p q r : ps !! i = Some p -> ps !! j = Some q -> enabled p -> near_to r ps i j -> near_to r ps j i.
  Proof.
    intros Hp Hq He (Hij & p' & q' & Hp' & Hq' & He' & Hd). rewrite Hp in Hp'. injection Hp' as <-. rewrite Hq in Hq'. injection Hq' as <-.
    split; [done|]. exists q, p. rewrite edist_sym. done.
  Qed.

  (** ** Double sums over pairs of fluid particles *)
  Definition pairs ps (F : nat -> nat -> part -> part -> R) : R := amount ps (fun i p => nsum env ps i (fun j q => F i j p q)).
  Lemma pairs_swap ps (F : nat -> nat -> part -> part -> R) :
    (forall i j p q, ps !! i = Some p -> ps !! j = Some q -> pT p = Newton -> near_to (eRe env) ps i j -> pT q <> Newton -> F i j p q = 0) ->
    pairs ps F = pairs ps (fun i j p q => if decide (pT q = Newton) then F j i q p else 0).
  Proof.
    intros Hz. set (n := length ps).
    set (G := fun i j => match ps !! i, ps !! j with
      | Some p, Some q => if decide (pT p = Newton) then if decide (pT q = Newton) then if decide (near_to (eRe env) ps i j) then F i j p q else 0 else 0 else 0
      | _, _ => 0 end).
    transitivity (sum_n n (fun i => sum_n n (G i))).
    - apply sum_n_ext. intros i Hi. destruct (lookup_lt_is_Some_2 ps i Hi) as [p Hp]. rewrite Hp. destruct (decide (pT p = Newton)) as [Hf|Hf].
      + apply sum_n_ext. intros j Hj. unfold G. rewrite Hp. destruct (lookup_lt_is_Some_2 ps j Hj) as [q Hq]. rewrite Hq.
        rewrite (decide_True (P := pT p = Newton)) by done. destruct (decide (near_to _ _ _ _)) as [C|C]; [|by destruct (decide _)].
        destruct (decide (pT q = Newton)); [done|]. by apply (Hz i j).
      + symmetry. apply sum_n_zero. intros j Hj. unfold G. rewrite Hp. destruct (ps !! j); [|done]. by rewrite decide_False.
    - rewrite sum_n_swap. apply sum_n_ext. intros j Hj. destruct (lookup_lt_is_Some_2 ps j Hj) as [q Hq]. rewrite Hq.
      destruct (decide (pT q = Newton)) as [Hf|Hf].
      + apply sum_n_ext. intros i Hi. unfold G. destruct (lookup_lt_is_Some_2 ps i Hi) as [p Hp]. rewrite Hp, Hq.
        destruct (decide (pT p = Newton)) as [Hf'|Hf']; [|by destruct (decide (near_to _ _ _ _))].
        rewrite (decide_True (P := pT q = Newton)) by done.
        destruct (decide (near_to (eRe env) ps i j)) as [C|C], (decide (near_to (eRe env) ps j i)) as [C'|C']; try done.
        * exfalso. apply C'. eapply near_to_sym; [done|done| |done]. unfold enabled. by rewrite Hf'.
        * exfalso. apply C. eapply near_to_sym; [exact Hq|exact Hp| |done]. unfold enabled. by rewrite Hf.
      + apply sum_n_zero. intros i Hi. unfold G. rewrite Hq. destruct (ps !! i); [|done]. destruct (decide _); [|done]. by rewrite decide_False.
  Qed.
  Lemma pairs_antisym ps (F : nat -> nat -> part -> part -> R) :
    (forall i j p q, ps !! i = Some p -> ps !! j = Some q -> pT p = Newton -> near_to (eRe env) ps i j -> pT q <> Newton -> F i j p q = 0) ->
    (forall i j p q, pT p = Newton -> pT q = Newton -> F j i q p = - F i j p q) ->
    pairs ps F = 0.
  Proof.
    intros Hz Ha. assert (pairs ps F = - pairs ps F) as H; [|lra].
    rewrite (pairs_swap ps F Hz) at 1. transitivity (-1 * pairs ps F); [|ring]. unfold pairs. rewrite <- amount_scal.
    apply amount_ext. intros i p Hp Hf. rewrite <- nsum_scal. apply nsum_ext. intros j q C Hq. destruct (decide _) as [Fq|Fq].
    - rewrite (Ha i j p q) by done. ring.
    - rewrite (Hz i j p q) by done. ring.
  Qed.
  Lemma pairs_sym ps (F : nat -> nat -> part -> part -> R) :
    (forall i j p q, ps !! i = Some p -> ps !! j = Some q -> pT p = Newton -> near_to (eRe env) ps i j -> pT q <> Newton -> F i j p q = 0 /\ F j i q p = 0) ->
    pairs ps F = pairs ps (fun i j p q => F j i q p).
  Proof.
    intros Hz. rewrite pairs_swap by (intros i j p q H1 H2 H3 H4 H5; exact (proj1 (Hz i j p q H1 H2 H3 H4 H5))).
    apply amount_ext. intros i p Hp Hf. apply nsum_ext. intros j q C Hq. destruct (decide _) as [Fq|Fq]; [done|]. symmetry. by apply (Hz i j p q).
  Qed.
End Frame.

Section Viscosity.
  Context {cfg : config} {wm : wallmotion Rnum (cDim cfg)}.
  Notation d := (cDim cfg).
  Notation V := (vec Rnum d).
  Notation part := (particle Rnum d).
  Notation computer := (computer cfg wm).
  Implicit Types (env : environment Rnum cfg) (ps : list part) (p q : part) (i j : nat) (s : computer).

  Lemma viscous_coefficient_nonneg env (r : R) : usual_constants env -> 0 < r -> 0 <= viscous_coefficient env r.
  Proof.
    intros (H1 & H2 & H3 & H4) Hr. unfold viscous_coefficient. assert (0 <= 5 - INR (dimn d)) as HD by (destruct d; simpl; lra).
    assert (0 <= INR (dimn d)) as HD' by apply pos_INR.
    destruct (cHL cfg).
    - unfold Rdiv. apply Rmult_le_pos; [|apply Rlt_le, Rinv_0_lt_compat, Rmult_lt_0_compat; [done|by apply pow_lt]].
      apply Rmult_le_pos; [|lra]. by apply Rmult_le_pos.
    - apply Rmult_le_pos; [|apply wt_nonneg]. unfold Rdiv. apply Rmult_le_pos; [|apply Rlt_le, Rinv_0_lt_compat; by apply Rmult_lt_0_compat].
      apply Rmult_le_pos; [lra|done].
  Qed.
  (** The coefficient between two particles; 0 for dummies. *)
  Definition vc env p q : R := if decide (pT q = Dummy) then 0 else viscous_coefficient env (edist (pX p) (pX q)).
  Lemma vc_nonneg env ps i j p q : usual_constants env -> all_apart ps -> ps !! i = Some p -> ps !! j = Some q -> enabled p ->
    near_to (eRe env) ps i j -> 0 <= vc env p q.
  Proof.
    intros Hc Ha Hp Hq He (Hij & p' & q' & Hp' & Hq' & He' & Hd). rewrite Hp in Hp'. injection Hp' as <-. rewrite Hq in Hq'. injection Hq' as <-.
    unfold vc. destruct (decide _); [lra|]. apply viscous_coefficient_nonneg; [done|].
    pose proof (edist_nonneg (pX p) (pX q)). destruct (Req_dec (edist (pX p) (pX q)) 0) as [E|E]; [|lra].
    apply edist_zero in E. by destruct (Ha i j p q Hij Hp Hq He He').
  Qed.
  Lemma friction_coord env ps i p k : (k < dimn d)%nat ->
    coord (friction env ps i p) k = nsum env ps i (fun j q => vc env p q * (coord (pU q) k - coord (pU p) k)).
  Proof.
    intros Hk. unfold friction. rewrite coord_nvsum by done. apply nsum_ext. intros j q _ _. unfold vc. destruct (decide _).
    - rewrite coord_zero by done. ring.
    - by rewrite coord_scal, coord_sub.
  Qed.
  Lemma movement_fluid s s' i p : midstep s -> cCentral cfg = false -> compute_explicit s = Some s' -> cParts s !! i = Some p -> pT p = Newton ->
    exists p', cParts s' !! i = Some p' /\ pT p' = Newton /\
      pU p' = pU p +^ (eDt (cEnv s) : Rnum) *^ (friction (cEnv s) (cParts s) i p +^ eG (cEnv s)).
  Proof.
    intros Hm HC H Hp Hf. rewrite friction_R. eexists. split; [by apply (C24_explicit_phase s s' i p)|]. done.
  Qed.

  (** C67.  Viscosity averages velocities: if the time step is short enough, every component of the velocity of a fluid particle ends up
      between the smallest and the largest value among the particle and its fluid and wall neighbours - plus what gravity adds. *)
  Theorem C67_average s s' i p p' k (lo hi : R) :
    midstep s -> cCentral cfg = false -> compute_explicit s = Some s' -> usual_constants (cEnv s) -> all_apart (cParts s) ->
    cParts s !! i = Some p -> pT p = Newton -> cParts s' !! i = Some p' -> (k < dimn d)%nat ->
    0 <= eDt (cEnv s) -> eDt (cEnv s) * viscous_load (cEnv s) (cParts s) i p <= 1 ->
    (forall j q, cParts s !! j = Some q -> j = i \/ near_to (eRe (cEnv s)) (cParts s) i j -> pT q <> Dummy -> lo <= coord (pU q) k <= hi) ->
    lo + eDt (cEnv s) * coord (eG (cEnv s)) k <= coord (pU p') k <= hi + eDt (cEnv s) * coord (eG (cEnv s)) k.
  Proof.
    intros Hm HC H Hc Ha Hp Hf Hp' Hk Hdt Hl Hb. destruct (movement_fluid s s' i p Hm HC H Hp Hf) as (p1 & Hp1 & _ & HU).
    rewrite Hp' in Hp1. injection Hp1 as <-. rewrite HU, coord_add, coord_scal, coord_add, friction_coord by done.
    set (dt := eDt (cEnv s)) in *. set (u := coord (pU p) k). set (L := viscous_load (cEnv s) (cParts s) i p) in *.
    assert (lo <= u <= hi) as Hu by (apply (Hb i p); [done|by left|by rewrite Hf]).
    assert (forall j q, near_to (eRe (cEnv s)) (cParts s) i j -> cParts s !! j = Some q -> 0 <= vc (cEnv s) p q) as Hv.
    { intros j q C Hq. apply (vc_nonneg (cEnv s) (cParts s) i j p q); try done. unfold enabled. by rewrite Hf. }
    assert (nsum (cEnv s) (cParts s) i (fun j q => vc (cEnv s) p q * (coord (pU q) k - u)) <= L * (hi - u)) as H1.
    { unfold L, viscous_load. rewrite Rmult_comm, <- nsum_scal. apply nsum_le. intros j q C Hq. specialize (Hv j q C Hq).
      fold (vc (cEnv s) p q). rewrite Rmult_comm. destruct (decide (pT q = Dummy)) as [E|E].
      { unfold vc. rewrite decide_True by done. lra. }
      apply Rmult_le_compat_r; [done|]. specialize (Hb j q Hq (or_intror C) E). lra. }
    assert (L * (lo - u) <= nsum (cEnv s) (cParts s) i (fun j q => vc (cEnv s) p q * (coord (pU q) k - u))) as H2.
    { unfold L, viscous_load. rewrite Rmult_comm, <- nsum_scal. apply nsum_le. intros j q C Hq. specialize (Hv j q C Hq).
      fold (vc (cEnv s) p q). rewrite (Rmult_comm (vc _ _ _)). destruct (decide (pT q = Dummy)) as [E|E].
      { unfold vc. rewrite decide_True by done. lra. }
      apply Rmult_le_compat_r; [done|]. specialize (Hb j q Hq (or_intror C) E). lra. }
    set (S := nsum _ _ _ _) in *. clearbody S u. nra.
  Qed.

  Lemma friction_vc env ps i p : friction env ps i p = nvsum env ps i (fun j q => (vc env p q : Rnum) *^ (pU q -^ pU p)).
  Proof.
    apply coord_ext. intros k Hk. rewrite friction_coord, coord_nvsum by done. apply nsum_ext. intros j q _ _. by rewrite coord_scal, coord_sub.
  Qed.
  Lemma vc_sym env p q : pT p = Newton -> pT q = Newton -> vc env p q = vc env q p.
  Proof. intros Hp Hq. unfold vc. rewrite !decide_False by (rewrite ?Hp, ?Hq; done). by rewrite edist_sym. Qed.
  Lemma vc_free env ps i j p q : free_fluid env ps -> ps !! i = Some p -> ps !! j = Some q -> pT p = Newton -> near_to (eRe env) ps i j ->
    pT q <> Newton -> vc env p q = 0.
  Proof. intros Hw Hp Hq Hf C Hn. unfold vc. destruct (Hw i j p q Hp Hf C Hq) as [?|E]; [done|]. by rewrite decide_True. Qed.

  (** C67.  Away from walls the viscous forces take energy out of the fluid (or leave it alone), whatever the time step: their power is not
      positive. *)
  Theorem C67_dissipative s s' :
    midstep s -> cCentral cfg = false -> compute_explicit s = Some s' -> usual_constants (cEnv s) -> all_apart (cParts s) ->
    free_fluid (cEnv s) (cParts s) -> 0 <= eDt (cEnv s) ->
    amount (cParts s) (fun i p => match cParts s' !! i with
      | Some p' => inner (pU p) (pU p' -^ (pU p +^ (eDt (cEnv s) : Rnum) *^ eG (cEnv s)))
      | None => 0 end) <= 0.
  Proof.
    intros Hm HC H Hc Ha Hw Hdt. set (ps := cParts s) in *. set (env := cEnv s) in *.
    assert (amount ps (fun i p => inner (pU p) (friction env ps i p)) <= 0) as HP.
    { assert (amount ps (fun i p => inner (pU p) (friction env ps i p))
        = pairs env ps (fun _ _ p q => vc env p q * inner (pU q -^ pU p) (pU p))) as E1.
      { apply amount_ext. intros i p _ _. rewrite friction_vc, inner_comm, inner_nvsum. apply nsum_ext. intros j q _ _. by rewrite inner_scal_l. }
      assert (pairs env ps (fun _ _ p q => vc env p q * inner (pU q -^ pU p) (pU p)) =
        pairs env ps (fun _ _ p q => if decide (pT q = Newton) then vc env p q * inner (pU p -^ pU q) (pU q) else 0)) as E2.
      { rewrite (pairs_swap env ps).
        - apply amount_ext. intros i p Hp Hf. apply nsum_ext. intros j q _ _. destruct (decide _); [|done]. by rewrite (vc_sym env q p).
        - intros i j p q Hp Hq Hf C Hn. rewrite (vc_free env ps i j p q) by done. ring. }
      assert (2 * pairs env ps (fun _ _ p q => vc env p q * inner (pU q -^ pU p) (pU p)) <= 0) as E3; [|lra].
      replace (2 * pairs env ps (fun _ _ p q => vc env p q * inner (pU q -^ pU p) (pU p))) with
        (pairs env ps (fun _ _ p q => vc env p q * inner (pU q -^ pU p) (pU p)) + pairs env ps (fun _ _ p q => vc env p q * inner (pU q -^ pU p) (pU p))) by ring.
      rewrite E2 at 2. unfold pairs. rewrite <- amount_plus.
      apply Rle_trans with (amount ps (fun i p => 0)); [|apply Req_le; unfold amount; apply sum_n_zero; intros i _; destruct (ps !! i); [by destruct (decide _)|done]].
      apply amount_le. intros i p Hp Hf. rewrite <- nsum_plus. apply Rle_trans with (nsum env ps i (fun _ _ => 0)).
      - apply nsum_le. intros j q C Hq. assert (0 <= vc env p q) as Hv.
        { apply (vc_nonneg env ps i j p q); try done. unfold enabled. by rewrite Hf. }
        destruct (decide (pT q = Newton)) as [Fq|Fq].
        + pose proof (inner_pos (pU q -^ pU p)) as Hpos. rewrite inner_sub_r in Hpos.
          assert (inner (pU p -^ pU q) (pU q) = - inner (pU q -^ pU p) (pU q)) as -> by (rewrite !inner_sub_l; ring). nra.
        + rewrite (vc_free env ps i j p q) by done. lra.
      - apply Req_le, sum_n_zero. intros j _. destruct (decide _); [|done]. by destruct (ps !! j). }
    assert (amount ps (fun i p => match cParts s' !! i with
      | Some p' => inner (pU p) (pU p' -^ (pU p +^ (eDt env : Rnum) *^ eG env)) | None => 0 end)
      = eDt env * amount ps (fun i p => inner (pU p) (friction env ps i p))) as ->; [|nra].
    rewrite <- amount_scal. apply amount_ext. intros i p Hp Hf.
    destruct (movement_fluid s s' i p Hm HC H Hp Hf) as (p' & -> & _ & ->). fold env ps.
    rewrite inner_sub_r, !inner_add_r, !inner_scal_r, inner_add_r. ring.
  Qed.

  (** C67.  Away from walls, if the time step is short enough for every fluid particle, the kinetic energy does not grow by
      viscosity (velocities are taken relative to free fall). *)
  Theorem C67_energy s s' :
    midstep s -> cCentral cfg = false -> compute_explicit s = Some s' -> usual_constants (cEnv s) -> all_apart (cParts s) ->
    free_fluid (cEnv s) (cParts s) -> 0 <= eDt (cEnv s) ->
    (forall i p, cParts s !! i = Some p -> pT p = Newton -> eDt (cEnv s) * viscous_load (cEnv s) (cParts s) i p <= 1) ->
    amount (cParts s') (fun _ p' => inner (pU p' -^ (eDt (cEnv s) : Rnum) *^ eG (cEnv s)) (pU p' -^ (eDt (cEnv s) : Rnum) *^ eG (cEnv s)) / 2)
      <= kinetic_energy (cParts s).
  Proof.
    intros Hm HC H Hc Ha Hw Hdt Hl. set (ps := cParts s) in *. set (env := cEnv s) in *. set (dt := eDt env) in *.
    assert (amount (cParts s') (fun _ p' => inner (pU p' -^ (dt : Rnum) *^ eG env) (pU p' -^ (dt : Rnum) *^ eG env) / 2)
      = amount ps (fun i p => inner (pU p +^ (dt : Rnum) *^ friction env ps i p) (pU p +^ (dt : Rnum) *^ friction env ps i p) / 2)) as ->.
    { pose proof (movement_phase s s' Hm H) as Hmv. eapply (amount_pointwise _ _ _ _ _ Hmv).
      - intros i p p' Hp [R1 R2]. destruct (decide (pT p = Newton)) as [E|E]; [specialize (R1 E); cbv zeta in R1; by subst p'|].
        rewrite (R2 E). done.
      - intros i p p' Hp [R1 _] E. specialize (R1 E). cbv zeta in R1. subst p'. cbn [pU]. fold env ps dt.
        unfold gravity_at. rewrite HC. f_equal.
        assert (pU p +^ (dt : Rnum) *^ (friction env ps i p +^ eG env) -^ (dt : Rnum) *^ eG env = pU p +^ (dt : Rnum) *^ friction env ps i p) as ->; [|done].
        apply coord_ext. intros k Hk. rewrite coord_sub, !coord_add, !coord_scal, coord_add by done. ring. }
    apply Rle_trans with (amount ps (fun i p => inner (pU p) (pU p) / 2 + dt / 2 * nsum env ps i (fun j q => vc env p q * (inner (pU q) (pU q) - inner (pU p) (pU p))))).
    - apply amount_le. intros i p Hp Hf. set (f := friction env ps i p). specialize (Hl i p Hp Hf).
      set (b := (dt : Rnum) *^ f).
      assert (forall j q, near_to (eRe env) ps i j -> ps !! j = Some q -> 0 <= vc env p q) as Hv.
      { intros j q C Hq. apply (vc_nonneg env ps i j p q); try done. unfold enabled. by rewrite Hf. }
      assert (0 <= nsum env ps i (fun j q => dt * vc env p q * inner (pU q -^ pU p -^ b) (pU q -^ pU p -^ b))) as H0.
      { rewrite <- (sum_n_zero (length ps) (fun _ => 0)) by done. apply sum_n_le. intros j _. destruct (decide _) as [C|C]; [|lra].
        destruct (ps !! j) as [q|] eqn:Hq; [|lra]. apply Rmult_le_pos; [apply Rmult_le_pos; [done|by apply (Hv j)]|apply inner_pos]. }
      assert (nsum env ps i (fun j q => dt * vc env p q * inner (pU q -^ pU p -^ b) (pU q -^ pU p -^ b))
        = nsum env ps i (fun j q => dt * vc env p q * inner (pU q -^ pU p) (pU q -^ pU p)) - 2 * inner b b + dt * viscous_load env ps i p * inner b b) as E0.
      { assert (inner b b = nsum env ps i (fun j q => dt * vc env p q * inner (pU q -^ pU p) b)) as E.
        { unfold b at 1. rewrite inner_scal_l. unfold f at 1. rewrite friction_vc, inner_nvsum, <- nsum_scal. apply nsum_ext. intros j q _ _.
          rewrite inner_scal_l. ring. }
        rewrite E at 1. unfold viscous_load.
        replace (dt * nsum env ps i (fun j q => if decide (pT q = Dummy) then 0 else viscous_coefficient env (edist (pX p) (pX q))) * inner b b)
          with (inner b b * dt * nsum env ps i (fun j q => vc env p q)) by (unfold vc; ring).
        unfold Rminus. rewrite Ropp_mult_distr_l, <- !nsum_scal, <- !nsum_plus. apply nsum_ext. intros j q _ _. fold (vc env p q).
        rewrite (inner_sub_l (pU q -^ pU p) b), !(inner_sub_r _ b), (inner_comm b (pU q -^ pU p)). ring. }
      assert (nsum env ps i (fun j q => dt * vc env p q * inner (pU q -^ pU p) (pU q -^ pU p))
        = dt * nsum env ps i (fun j q => vc env p q * (inner (pU q) (pU q) - inner (pU p) (pU p))) - 2 * inner (pU p) b) as E2.
      { assert (inner (pU p) b = dt * nsum env ps i (fun j q => vc env p q * inner (pU q -^ pU p) (pU p))) as ->.
        { unfold b, f. rewrite inner_comm, inner_scal_l, friction_vc, inner_nvsum. f_equal. apply nsum_ext. intros j q _ _. by rewrite inner_scal_l. }
        unfold Rminus. rewrite Ropp_mult_distr_l, <- Rmult_assoc, <- !nsum_scal, <- nsum_plus. apply nsum_ext. intros j q _ _.
        rewrite !inner_sub_l, !inner_sub_r, (inner_comm (pU p) (pU q)). ring. }
      rewrite !inner_add_l, !inner_add_r, (inner_comm b (pU p)). pose proof (inner_pos b).
      set (X := nsum env ps i (fun j q => vc env p q * _)) in *. nra.
    - rewrite amount_plus. unfold kinetic_energy. rewrite amount_scal.
      assert (amount ps (fun i p => nsum env ps i (fun j q => vc env p q * (inner (pU q) (pU q) - inner (pU p) (pU p)))) = 0) as ->; [|lra].
      apply (pairs_antisym env ps (fun _ _ p q => vc env p q * (inner (pU q) (pU q) - inner (pU p) (pU p)))).
      + intros i j p q Hp Hq Hf C Hn. rewrite (vc_free env ps i j p q) by done. ring.
      + intros i j p q Hp Hq. rewrite (vc_sym env q p) by done. ring.
  Qed.
End Viscosity.

Section Momentum.
  Context {cfg : config} {wm : wallmotion Rnum (cDim cfg)}.
  Notation d := (cDim cfg).
  Notation V := (vec Rnum d).
  Notation part := (particle Rnum d).
  Notation computer := (computer cfg wm).
  Implicit Types (env : environment Rnum cfg) (ps : list part) (p q : part) (i j : nat) (s : computer).

  Lemma total_pointwise rel ps ps' (f f' : part -> V) : pointwise rel ps ps' ->
    (forall i p p', ps !! i = Some p -> rel i p p' -> (pT p' = Newton <-> pT p = Newton)) ->
    (forall i p p', ps !! i = Some p -> rel i p p' -> pT p = Newton -> f' p' = f p) ->
    total ps' f' = total ps f.
  Proof.
    intros H HT Hf. apply coord_ext. intros k Hk. rewrite !coord_total by done. apply (amount_pointwise rel ps ps'); [done|done|].
    intros i p p' Hp Hr HN. by rewrite (Hf i p p' Hp Hr HN).
  Qed.
  Lemma only_fluid_pointwise rel ps ps' : pointwise rel ps ps' -> (forall i p p', ps !! i = Some p -> rel i p p' -> pT p' = pT p \/ pT p' = Disabled) ->
    only_fluid ps -> only_fluid ps'.
  Proof.
    intros [HL H] HT Ho i p' Hp'. assert (i < length ps)%nat as Hi by (rewrite <- HL; by eapply lookup_lt_Some).
    destruct (lookup_lt_is_Some_2 ps i Hi) as [p Hp]. destruct (H i p Hp) as (p1 & Hp1 & Hr). rewrite Hp' in Hp1. injection Hp1 as <-.
    destruct (HT i p p' Hp Hr) as [E|E]; [rewrite E; by eapply Ho|by right].
  Qed.
  Lemma only_fluid_free env ps : only_fluid ps -> free_fluid env ps.
  Proof.
    intros Ho i j p q Hp Hf (_ & p1 & q1 & _ & Hq1 & He & _) Hq. rewrite Hq in Hq1. injection Hq1 as <-.
    destruct (Ho j q Hq) as [?|E]; [by left|]. by destruct He.
  Qed.

  (** The types after each phase. *)
  Lemma densities_types env ps ps' : densities env ps ps' -> pointwise (fun i p p' => pT p' = pT p /\ pU p' = pU p /\ pX p' = pX p) ps ps'.
  Proof.
    intros [HL H]. split; [done|]. intros i p Hp. destruct (H i p Hp) as (p' & Hp' & R1 & R2). exists p'. split; [done|].
    destruct (decide (fluid_or_wall p)) as [E|E]; [by rewrite (R1 E)|by rewrite (R2 E)].
  Qed.
  Lemma pressures_types env eps c ps ps' : pressures env eps c ps ps' -> pointwise (fun i p p' => pT p' = pT p /\ pU p' = pU p /\ pX p' = pX p) ps ps'.
  Proof.
    unfold pressures. destruct (cExplicit cfg).
    - intros [HL H]. split; [done|]. intros i p Hp. destruct (H i p Hp) as (p' & Hp' & ->). by eexists.
    - intros (x & _ & HL & H). split; [done|]. intros i p Hp. destruct (H i p Hp) as (p' & Hp' & R1 & R2). exists p'. split; [done|].
      destruct (decide (fluid_or_wall p)) as [E|E]; [by rewrite (R1 E)|by rewrite (R2 E)].
  Qed.

  Lemma movement_momentum env wall ps ps' : cCentral cfg = false -> free_fluid env ps -> movement env wall ps ps' ->
    total ps' pU = total ps pU +^ (number ps * eDt env : Rnum) *^ eG env.
  Proof.
    intros HC Hw H. apply coord_ext. intros k Hk. rewrite coord_add, coord_scal, !coord_total by done.
    assert (amount ps' (fun _ p => coord (pU p) k) = amount ps (fun i p => coord (pU p) k + (eDt env * coord (friction env ps i p) k + (eDt env * coord (eG env) k) * 1))) as ->.
    { apply (amount_pointwise _ _ _ _ _ H).
      - intros i p p' Hp [R1 R2]. destruct (decide (pT p = Newton)) as [E|E]; [specialize (R1 E); cbv zeta in R1; by subst p'|by rewrite (R2 E)].
      - intros i p p' Hp [R1 _] E. specialize (R1 E). cbv zeta in R1. subst p'. cbn [pU]. unfold gravity_at. rewrite HC.
        rewrite coord_add, coord_scal, coord_add by done. ring. }
    rewrite !amount_plus, !amount_scal. unfold number.
    assert (amount ps (fun i p => coord (friction env ps i p) k) = 0) as ->; [|ring].
    transitivity (pairs env ps (fun _ _ p q => vc env p q * (coord (pU q) k - coord (pU p) k))).
    { apply amount_ext. intros i p _ _. by apply friction_coord. }
    apply pairs_antisym.
    - intros i j p q Hp Hq Hf C Hn. rewrite (vc_free env ps i j p q) by done. ring.
    - intros i j p q Hp Hq. rewrite (vc_sym env q p) by done. ring.
  Qed.

  (** The pressure forces between fluid particles are opposite to each other and act along the line joining them. *)
  Lemma push_coord env ps i p k : cSPP cfg = false -> (k < dimn d)%nat ->
    coord (push env ps i p) k = nsum env ps i (fun j q => if decide (pT q = Dummy) then 0 else coord (push_term env p q (pP q + pP p)) k).
  Proof.
    intros HS Hk. unfold push, surface_term, surface_particle. rewrite HS, vadd_0_r, coord_nvsum by done. apply nsum_ext. intros j q _ _.
    destruct (decide _); [by apply coord_zero|done].
  Qed.
  Lemma push_opposite env p q (x : R) k : (k < dimn d)%nat -> coord (push_term env q p x) k = - coord (push_term env p q x) k.
  Proof. intros Hk. unfold push_term. rewrite !coord_scal, !coord_sub, (edist_sym (pX q)) by done. ring. Qed.
  Lemma acceleration_momentum env ps ps' : cSPP cfg = false -> cGC cfg = false -> free_fluid env ps -> acceleration env ps ps' ->
    total ps' pU = total ps pU.
  Proof.
    intros HS HG Hw H. apply coord_ext. intros k Hk. rewrite !coord_total by done.
    set (c := - (eDt env / eRho env * INR (dimn d) / eN0 env)).
    assert (amount ps' (fun _ p => coord (pU p) k) = amount ps (fun i p => coord (pU p) k + c * coord (push env ps i p) k)) as ->.
    { apply (amount_pointwise _ _ _ _ _ H).
      - intros i p p' Hp [R1 R2]. destruct (decide (pT p = Newton)) as [E|E]; [|by rewrite (R2 E)]. specialize (R1 E). rewrite HG in R1. by subst p'.
      - intros i p p' Hp [R1 _] E. specialize (R1 E). rewrite HG in R1. subst p'. unfold kick. cbn [pU]. rewrite coord_add, coord_scal by done. done. }
    rewrite amount_plus, amount_scal. assert (amount ps (fun i p => coord (push env ps i p) k) = 0) as ->; [|ring].
    transitivity (pairs env ps (fun _ _ p q => if decide (pT q = Dummy) then 0 else coord (push_term env p q (pP q + pP p)) k)).
    { apply amount_ext. intros i p _ _. by apply push_coord. }
    apply pairs_antisym.
    - intros i j p q Hp Hq Hf C Hn. destruct (Hw i j p q Hp Hf C Hq) as [?|E]; [done|]. by rewrite decide_True.
    - intros i j p q Hp Hq. rewrite !decide_False by (rewrite ?Hp, ?Hq; done). rewrite push_opposite, (Rplus_comm (pP p)) by done. done.
  Qed.

  Notation mone := ((-1)%R : nT Rnum).
  Lemma spread_opposite env (dx dx0 : V) k : (k < dimn d)%nat ->
    coord (spread env (mone *^ dx) (mone *^ dx0)) k = - coord (spread env dx dx0) k.
  Proof.
    intros Hk. unfold spread.
    assert (inner (mone *^ dx) (mone *^ dx0) = inner dx dx0) as -> by (rewrite inner_scal_l, inner_scal_r; ring).
    assert (inner (mone *^ dx0) (mone *^ dx0) = inner dx0 dx0) as E by (rewrite inner_scal_l, inner_scal_r; ring).
    assert (len (mone *^ dx0) = len dx0) as -> by (unfold len; by rewrite E). rewrite E.
    set (a := inner dx dx0 / inner dx0 dx0).
    assert (mone *^ dx -^ (a : Rnum) *^ (mone *^ dx0) = mone *^ (dx -^ (a : Rnum) *^ dx0)) as ->.
    { apply coord_ext. intros k' Hk'. rewrite coord_sub, !coord_scal, coord_sub, coord_scal by done. ring. }
    set (v := dx -^ (a : Rnum) *^ dx0).
    assert (inner (mone *^ v) (mone *^ v) = inner v v) as -> by (rewrite inner_scal_l, inner_scal_r; ring).
    rewrite !coord_scal by done. ring.
  Qed.
  Lemma stabilisation_momentum env ps0 ps ps' : only_fluid ps -> stabilisation env ps0 ps ps' -> total ps' pU = total ps pU.
  Proof.
    intros Ho H. apply coord_ext. intros k Hk. rewrite !coord_total by done.
    set (c := - (1 / (2 * eDt env * eN0 env))).
    set (F := fun i j p q => if decide (pT q = Dummy) then vzero
      else if Rlt_dec (edist (pX p) (pX q) ^ 2) ((eL0 env - eMaxDx env) ^ 2) then spread env (pX q -^ pX p) (place ps0 j -^ place ps0 i) else vzero).
    assert (amount ps' (fun _ p => coord (pU p) k) = amount ps (fun i p => coord (pU p) k + c * nsum env ps i (fun j q => coord (F i j p q) k))) as ->.
    { apply (amount_pointwise _ _ _ _ _ H).
      - intros i p p' Hp [R1 R2]. destruct (decide (pT p = Newton)) as [E|E]; [specialize (R1 E); by subst p'|by rewrite (R2 E)].
      - intros i p p' Hp [R1 _] E. specialize (R1 E). subst p'. unfold kick. cbn [pU]. rewrite coord_add, coord_scal, coord_nvsum by done. done. }
    rewrite amount_plus, amount_scal.
    assert (amount ps (fun i p => nsum env ps i (fun j q => coord (F i j p q) k)) = 0) as ->; [|ring].
    apply (pairs_antisym env ps (fun i j p q => coord (F i j p q) k)).
    - intros i j p q Hp Hq Hf C Hn. destruct (only_fluid_free env ps Ho i j p q Hp Hf C Hq) as [?|E]; [done|]. unfold F. rewrite decide_True by done. by apply coord_zero.
    - intros i j p q Hp Hq. unfold F. rewrite !decide_False by (rewrite ?Hp, ?Hq; done). rewrite (edist_sym (pX q)).
      destruct (Rlt_dec _ _); [|rewrite coord_zero by done; ring]. rewrite <- spread_opposite by done. f_equal.
      f_equal; apply coord_ext; intros k' Hk'; rewrite coord_scal, !coord_sub by done; ring.
  Qed.

  (** C68.  Momentum over a whole step, in builds without virtual surface particles, gradient correction and central gravity, for
      fluid without walls: gravity is all that changes it.  ([ps0]: the particles without those that were taken out of use because they
      had left the domain.) *)
  Theorem C68_momentum env0 (dt : R) s s' :
    cSPP cfg = false -> cGC cfg = false -> cCentral cfg = false ->
    square_ground env0 -> 0 < eRe env0 -> eRe env0 <= eNL env0 -> reachable env0 s -> forward_dt (dt : Rnum) s = Done s' ->
    let env := set_next_t (set_dt (dt : Rnum) (cEnv s)) in
    let wall i := wPos wm (wPre wm (cWall s) (eT env) dt) i (eT env) dt in
    displacements_at_most env ((eNL env0 - eRe env0) / 2) wall (cEps s) (cParts s) ->
    only_fluid (cParts s) ->
    exists ps0, removal env (cParts s) ps0 /\
      total (cParts s') pU = total ps0 pU +^ (number ps0 * dt : Rnum) *^ eG (cEnv s).
  Proof.
    intros HS HG HC Hsq HRe HNL Hr Hf env wall Hd Ho.
    destruct (C61_step env0 dt s s' Hsq HRe HNL Hr Hf Hd) as (ps1 & ps2 & ps4 & (ps0 & psm & R & D1 & M & D2) & (ps3 & P & A) & St).
    fold env wall in R, D1, M, D2, P, A, St. exists ps0. split; [done|].
    assert (only_fluid ps0) as O0.
    { eapply (only_fluid_pointwise _ _ _ R); [|done]. intros i p p' Hp [R1 R2].
      destruct (decide (pT p' = pT p)) as [E|E]; [by left|]. destruct (decide (pT p' = Disabled)) as [E'|E']; [by right|]. exfalso.
      assert (~ outside_grid env (pX p)) as Hin by (intros X; rewrite (R1 X) in E'; done). by rewrite (R2 Hin) in E. }
    apply densities_types in D1, D2. apply pressures_types in P.
    assert (only_fluid ps1) as O1 by (eapply (only_fluid_pointwise _ _ _ D1); [|done]; intros i p p' _ [-> _]; by left).
    assert (only_fluid psm) as Om.
    { eapply (only_fluid_pointwise _ _ _ M); [|done]. intros i p p' _ [R1 R2]. left.
      destruct (decide (pT p = Newton)) as [E|E]; [specialize (R1 E); cbv zeta in R1; by subst p'|by rewrite (R2 E)]. }
    assert (only_fluid ps2) as O2 by (eapply (only_fluid_pointwise _ _ _ D2); [|done]; intros i p p' _ [-> _]; by left).
    assert (only_fluid ps3) as O3 by (eapply (only_fluid_pointwise _ _ _ P); [|done]; intros i p p' _ [-> _]; by left).
    assert (only_fluid ps4) as O4.
    { eapply (only_fluid_pointwise _ _ _ A); [|done]. intros i p p' _ [R1 R2]. left.
      destruct (decide (pT p = Newton)) as [E|E]; [|by rewrite (R2 E)]. specialize (R1 E). rewrite HG in R1. by subst p'. }
    assert (forall (a b : list part), pointwise (fun i p p' => pT p' = pT p /\ pU p' = pU p /\ pX p' = pX p) a b -> total b pU = total a pU) as Hsame.
    { intros a b Hab. apply (total_pointwise _ _ _ _ _ Hab); [intros i p p' _ [-> _]; done|intros i p p' _ (_ & -> & _) _; done]. }
    assert (total (cParts s') pU = total ps4 pU) as ->.
    { destruct (cDS cfg); [by apply (stabilisation_momentum env ps2)|by subst]. }
    rewrite (acceleration_momentum env ps3 ps4 HS HG (only_fluid_free env ps3 O3) A), (Hsame _ _ P), (Hsame _ _ D2).
    rewrite (movement_momentum env wall ps1 psm HC (only_fluid_free env ps1 O1) M), (Hsame _ _ D1). cbn [eDt eG env set_next_t set_dt]. do 3 f_equal.
    unfold number. apply (amount_pointwise _ _ _ _ _ D1); [intros i p p' _ [-> _]; done|done].
  Qed.

  (** C68.  In every build and whatever the forces: a particle that is still in use after a step has advanced by its new velocity
      times the time step (a wall, if the time step is not 0). *)
  Theorem C68_advance (dt : R) s s' i p p' :
    forward_dt (dt : Rnum) s = Done s' -> cParts s !! i = Some p -> cParts s' !! i = Some p' ->
    pT p' = Newton \/ dt <> 0 ->
    pX p' = pX p +^ (dt : Rnum) *^ pU p'.
  Proof.
    intros Hf Hp Hp' HT. destruct (decide (pT p' = Newton)) as [HN|HN].
    2:{ destruct HT as [?|Hdt]; [done|]. destruct (step_wall (dt : Rnum) s s' i p p' Hf Hp Hp' HN) as [HX HU]. cbv zeta in HX, HU.
        rewrite HU. apply coord_ext. intros k Hk. rewrite coord_add, coord_scal, coord_div, coord_sub by done. field. done. }
    destruct (forward_Done (dt : Rnum) s s' Hf) as (s1 & s2 & s3 & s4 & s5 & s6 & s7 & Htr).
    destruct (step_particle _ _ _ _ _ _ _ _ _ _ i p Htr Hp) as
      (p1 & Hp1 & Hk & n1 & Hp2 & Hp3 & _ & p4 & Hp4 & HT4 & _ & _ & n2 & Hp5 & Hp6 & _ & p7 & Hp7 & HT7 & _ & p8 & Hp8 & HT8 & _).
    assert (forall t, t ∈ [s2; s3; s4; s5; s6; s7; s'] -> eDt (cEnv t) = dt) as Hdt.
    { intros t Ht. rewrite (trace_env (dt : Rnum) s s1 s2 s3 s4 s5 s6 s7 s' t Htr); [done|]. rewrite !elem_of_cons in *. tauto. }
    destruct Htr as [H1 H2 H3 H4 H5 H6 H7 H8].
    assert (p8 = p') as -> by congruence.
    assert (is_newton (pT p1) = true) as HN1 by (apply is_newton_true; congruence).
    assert (pX p1 = pX p) as Hpx by (by destruct Hk as [->| ->]).
    pose proof (explicit_at s3 s4 i _ H4 Hp3) as Hx. cbv zeta in Hx. simpl in Hx. rewrite HN1 in Hx. destruct Hx as (vis & _ & Hx).
    rewrite Hp4 in Hx. injection Hx as Hx.
    assert (pX p4 = pX p +^ (dt : Rnum) *^ pU p4) as A4.
    { rewrite Hx. cbn. rewrite Hpx, !(Hdt s3) by (rewrite !elem_of_cons; tauto). by rewrite !vscalr_scal. }
    destruct (implicit_at s6 s7 i _ H7 Hp6) as (P & Hi). simpl in Hi. rewrite HT4, HN1 in Hi. destruct Hi as (a & Hi).
    rewrite Hp7 in Hi. injection Hi as Hi.
    assert (pX p7 = pX p +^ (dt : Rnum) *^ pU p7) as A7.
    { rewrite Hi. cbn. rewrite A4, (Hdt s6) by (rewrite !elem_of_cons; tauto).
      apply coord_ext. intros k Hk'. rewrite !coord_add, !coord_scal, !coord_scalr, !coord_add by done. ring. }
    destruct (cDS cfg); [|subst; congruence].
    pose proof (stabilize_at s7 s' i p7 H8 Hp7) as Hst. rewrite HT7, HN1 in Hst. destruct Hst as (b & _ & Hst).
    rewrite Hp' in Hst. injection Hst as ->. cbn. rewrite A7, (Hdt s7) by (rewrite !elem_of_cons; tauto).
    apply coord_ext. intros k Hk'. rewrite !coord_add, !coord_scal, !coord_scalr, !coord_add by done. ring.
  Qed.

  (** The pressure forces between fluid particles exert no torque (hypotheses as for [C35_momentum]). *)
  Theorem C35_no_torque s s' a b :
    midstep s -> cGC cfg = false -> modify_by_gradient s = Some s' -> free_fluid (cEnv s) (cParts s) ->
    (forall i p, cParts s !! i = Some p -> pT p = Newton -> virtual s i p = None \/ pP p = 0) ->
    (a < dimn d)%nat -> (b < dimn d)%nat ->
    amount (cParts s) (fun i p => match cParts s' !! i with
      | Some p' => torque (pX p) (pU p' -^ pU p) a b
      | None => 0 end) = 0.
  Proof.
    intros Hm HG H Hw Hv Ha Hb. set (c := grad_factor (cEnv s)).
    assert (amount (cParts s) (fun i p => match cParts s' !! i with Some p' => torque (pX p) (pU p' -^ pU p) a b | None => 0 end)
      = pairs (cEnv s) (cParts s) (fun _ _ p q => c * (if decide (pT q = Dummy) then 0 else torque (pX p) (push_term (cEnv s) p q (pP q + pP p)) a b))) as ->.
    { apply amount_ext. intros i p Hp Hf. rewrite (C35_gradient_phase s s' i p Hm HG H Hp Hf). cbn [pU]. fold c.
      assert (virtual_push s i p = vzero) as HV.
      { unfold virtual_push, of_virtual. destruct (Hv i p Hp Hf) as [->|E]; [done|]. destruct (virtual s i p); [|done].
        unfold grad_term. rewrite E. apply coord_ext. intros k Hk. rewrite coord_scal, coord_zero by done. unfold Rdiv. ring. }
      rewrite HV. unfold torque. rewrite !coord_sub, !coord_add, !coord_scal, !coord_add, !coord_zero by done.
      unfold pressure_sum. rewrite <- nvsum_close, !coord_nvsum, nsum_scal by done.
      set (A := nsum _ _ _ (fun j q => coord _ a)). set (B := nsum _ _ _ (fun j q => coord _ b)).
      transitivity (c * (coord (pX p) a * B + (- coord (pX p) b) * A)); [ring|]. f_equal. unfold A, B. rewrite <- !nsum_scal, <- nsum_plus.
      apply nsum_ext. intros j q _ _. destruct (decide _).
      - rewrite !coord_zero by done. ring.
      - change (grad_term (cEnv s) (pX p) (pP p) (pX q) (pP q)) with (push_term (cEnv s) p q (pP q + pP p)). ring. }
    apply pairs_antisym.
    - intros i j p q Hp Hq Hf C Hn. destruct (Hw i j p q Hp Hf C Hq) as [?|E]; [done|]. rewrite decide_True by done. ring.
    - intros i j p q Hp Hq. rewrite !decide_False by (rewrite ?Hp, ?Hq; done). unfold torque, push_term.
      rewrite !coord_scal, !coord_sub, (edist_sym (pX q)), (Rplus_comm (pP p)) by done. ring.
  Qed.
End Momentum.

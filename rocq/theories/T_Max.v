(** The pressure equation has exactly one solution, and it obeys a maximum principle (C84). *)
From Coq Require Import Reals Lra.
From Verif Require Export S_Max.
From Verif Require Import P_Real P_Neigh P_Force T_Env T_Ppe T_Solve T_Scheme.
Open Scope R_scope.

(** ** Linear systems *)
Lemma find_below n (P : nat -> Prop) : (forall k, P k \/ ~ P k) -> (exists k, (k < n)%nat /\ P k) \/ forall k, (k < n)%nat -> ~ P k.
Proof.
  intros HP. induction n as [|n [(k & Hk & H)|IH]]; [right; lia|left; exists k; split; [lia|done]|].
  destruct (HP n) as [H|H]; [left; exists n; split; [lia|done]|]. right. intros k Hk. destruct (decide (k = n)) as [->|]; [done|]. apply IH. lia.
Qed.
(** A linear system of [n] equations for [n] unknowns without a solution of the homogeneous one has a solution. *)
Lemma linear_solvable n : forall A : nat -> nat -> R,
  (forall x, (forall i, (i < n)%nat -> sum_n n (fun j => A i j * x j) = 0) -> forall j, (j < n)%nat -> x j = 0) ->
  forall b, exists x, forall i, (i < n)%nat -> sum_n n (fun j => A i j * x j) = b i.
Proof.
  induction n as [|n IH]; intros A HA b; [exists (fun _ => 0); lia|].
  assert (exists k, (k < S n)%nat /\ A k n <> 0) as (k & Hk & Hkn).
  { destruct (find_below (S n) (fun k => A k n <> 0)) as [H|H]; [|done|].
    - intros k. destruct (Req_EM_T (A k n) 0) as [E|E]; [right; tauto|by left].
    - exfalso. assert (forall k, (k < S n)%nat -> A k n = 0) as H0.
      { intros k Hk. destruct (Req_EM_T (A k n) 0) as [?|Hne]; [done|]. by destruct (H k Hk). }
      specialize (HA (fun j => if (j =? n)%nat then 1 else 0)). assert (1 = 0) as Hc; [|lra].
      rewrite <- (HA ltac:(intros i Hi; rewrite sum_n_S, Nat.eqb_refl, H0 by done; rewrite sum_n_zero; [ring|]; intros j Hj; destruct (Nat.eqb_spec j n); [lia|ring]) n ltac:(lia)).
      by rewrite Nat.eqb_refl. }
  set (B := fun i => if (i =? k)%nat then A n else A i).
  set (c := fun i => if (i =? k)%nat then b n else b i).
  set (A' := fun i j => B i j - B i n / A k n * A k j).
  set (b' := fun i => c i - B i n / A k n * b k).
  assert (forall x y, (forall j, (j < n)%nat -> x j = y j) -> forall r : nat -> R, sum_n n (fun j => r j * x j) = sum_n n (fun j => r j * y j)) as Hxy.
  { intros x y H r. apply sum_n_ext. intros j Hj. by rewrite H. }
  assert (forall i x v, sum_n n (fun j => A' i j * x j) = v ->
            forall w, x n = (w - sum_n n (fun j => A k j * x j)) / A k n -> sum_n (S n) (fun j => B i j * x j) = v + B i n / A k n * w) as HB.
  { intros i x v Hv w Hx. rewrite sum_n_S, Hx. rewrite <- Hv. unfold A'.
    rewrite (sum_n_ext n (fun j => (B i j - B i n / A k n * A k j) * x j) (fun j => B i j * x j - B i n / A k n * (A k j * x j))) by (intros; ring).
    rewrite sum_n_sub, sum_n_scal. field. done. }
  assert (forall x w, x n = (w - sum_n n (fun j => A k j * x j)) / A k n -> sum_n (S n) (fun j => A k j * x j) = w) as HK.
  { intros x w Hx. rewrite sum_n_S, Hx. field. done. }
  (* every row of A is row k or a row of B *)
  assert (forall x v, (forall i, (i < n)%nat -> sum_n (S n) (fun j => B i j * x j) = c i + v i) -> sum_n (S n) (fun j => A k j * x j) = b k ->
            (forall i, v i = 0) -> forall i, (i < S n)%nat -> sum_n (S n) (fun j => A i j * x j) = b i) as Hall.
  { intros x v Hi Hbk Hv i Hin. destruct (decide (i = k)) as [->|Hne]; [done|]. destruct (decide (i = n)) as [->|Hne'].
    - specialize (Hi k ltac:(lia)). unfold B, c in Hi. rewrite Nat.eqb_refl, Hv, Rplus_0_r in Hi. done.
    - specialize (Hi i ltac:(lia)). unfold B, c in Hi. destruct (Nat.eqb_spec i k); [done|]. by rewrite Hv, Rplus_0_r in Hi. }
  destruct (IH A' ) with (b := b') as [y Hy].
  - intros x Hx. set (x' := fun j => if (j =? n)%nat then (0 - sum_n n (fun j => A k j * x j)) / A k n else x j).
    assert (forall j, (j < n)%nat -> x' j = x j) as E. { intros j Hj. unfold x'. by destruct (Nat.eqb_spec j n); [lia|]. }
    assert (x' n = (0 - sum_n n (fun j => A k j * x' j)) / A k n) as En. { rewrite (Hxy x' x E). unfold x'. by rewrite Nat.eqb_refl. }
    intros j Hj. rewrite <- (E j Hj). apply (HA x'); [|lia]. intros i Hi.
    assert (forall i, (i < n)%nat -> sum_n (S n) (fun j => B i j * x' j) = 0) as H0.
    { intros i0 Hi0. rewrite (HB i0 x' 0) with (w := 0); [ring| |done]. rewrite (Hxy x' x E). by apply Hx. }
    destruct (decide (i = k)) as [->|Hne]; [by apply HK|]. destruct (decide (i = n)) as [->|Hne'].
    + specialize (H0 k ltac:(lia)). unfold B in H0. by rewrite Nat.eqb_refl in H0.
    + specialize (H0 i ltac:(lia)). unfold B in H0. by destruct (Nat.eqb_spec i k).
  - set (x := fun j => if (j =? n)%nat then (b k - sum_n n (fun j => A k j * y j)) / A k n else y j).
    assert (forall j, (j < n)%nat -> x j = y j) as E. { intros j Hj. unfold x. by destruct (Nat.eqb_spec j n); [lia|]. }
    assert (x n = (b k - sum_n n (fun j => A k j * x j)) / A k n) as En. { rewrite (Hxy x y E). unfold x. by rewrite Nat.eqb_refl. }
    exists x. apply (Hall x (fun _ => 0)); [|by apply HK|done].
    intros i Hi. rewrite (HB i x (b' i)) with (w := b k); [unfold b'; ring| |done]. rewrite (Hxy x y E). by apply Hy.
Qed.
Lemma argmax n (P : nat -> Prop) `{forall i, Decision (P i)} (f : nat -> R) : (exists i, (i < n)%nat /\ P i) ->
  exists m, (m < n)%nat /\ P m /\ forall i, (i < n)%nat -> P i -> f i <= f m.
Proof.
  induction n as [|n IH]; intros (i & Hi & HP); [lia|].
  destruct (find_below n P) as [HE|HN]; [intros k; destruct (decide (P k)); auto|..].
  - destruct HE as (j & Hj & HPj).
    destruct IH as (m & Hm & HPm & HM); [exists j; split; [lia|done]|].
    destruct (decide (P n)) as [Hn|Hn].
    + destruct (Rle_dec (f n) (f m)) as [L|L].
      * exists m. split; [lia|]. split; [done|]. intros k Hk HPk. destruct (decide (k = n)) as [->|]; [done|]. apply HM; [lia|done].
      * exists n. split; [lia|]. split; [done|]. intros k Hk HPk. destruct (decide (k = n)) as [->|]; [lra|]. specialize (HM k ltac:(lia) HPk). lra.
    + exists m. split; [lia|]. split; [done|]. intros k Hk HPk. destruct (decide (k = n)) as [->|]; [done|]. apply HM; [lia|done].
  - assert (i = n) as -> by (destruct (decide (i = n)); [done|]; exfalso; by apply (HN i); [lia|]).
    exists n. split; [lia|]. split; [done|]. intros k Hk HPk. destruct (decide (k = n)) as [->|]; [lra|]. exfalso; by apply (HN k); [lia|].
Qed.

Section Max.
  Context {cfg : config} (env : environment Rnum cfg) (ps : list (particle Rnum (cDim cfg))).
  Notation d := (cDim cfg).
  Notation part := (particle Rnum d).
  Implicit Types (p q : part) (x y c : nat -> R) (i j : nat).
  Notation hp := (has_pressure env).
  Notation lap := (pressure_laplacian env ps).

  Lemma surface_dist i p v : 0 < eRe env -> surface_particle env ps i p = Some v -> 0 < edist (pX p) (pX v) < eRe env.
  Proof.
    intros Hre. unfold surface_particle. destruct (cSPP cfg); [|done]. destruct (Rlt_dec _ _) as [L|]; [|done].
    destruct (Rlt_dec _ _) as [C|]; [|done]. intros [= <-]. set (c := centre env ps i p) in *. set (re := eRe env) in *.
    assert (0 < len c) as Hl by (pose proof (Rinv_0_lt_compat (2 ^ 52) ltac:(lra)); lra). rewrite edist_len. cbn [pX].
    set (w := eN0 env - density env ps i p). assert (0 < w) as Hw by (unfold w; simpl in *; lra).
    replace (pX p -^ (pX p -^ (re / (w + 1) / len c : Rnum) *^ c)) with ((re / (w + 1) / len c : Rnum) *^ c)
      by (apply coord_ext; intros k Hkd; rewrite !coord_sub by done; ring).
    assert (0 < re / (w + 1)) as Hk by (apply Rdiv_lt_0_compat; lra).
    assert (0 < re / (w + 1) / len c) by (by apply Rdiv_lt_0_compat).
    rewrite len_scal, Rabs_right by lra. replace (re / (w + 1) / len c * len c) with (re / (w + 1)) by (field; split; lra).
    split; [done|]. apply (Rmult_lt_reg_r (w + 1)); [lra|]. unfold Rdiv. rewrite Rmult_assoc, Rinv_l by lra. change (re * 1 < re * (w + 1)). assert (0 < re * w) by (by apply Rmult_lt_0_compat). lra.
  Qed.

  Context (HF : solvable_frame env ps).
  Lemma coefficient_pos (r : R) : 0 < r < eRe env -> 0 < laplacian_coefficient env r.
  Proof. intros H. exact (laplacian_pos env r (sf_n0 _ _ HF) (sf_lambda _ _ HF) H). Qed.
  Lemma near_pos i j p q : near_to (eRe env) ps i j -> ps !! i = Some p -> ps !! j = Some q -> enabled p ->
    0 < laplacian_coefficient env (edist (pX p) (pX q)).
  Proof.
    intros (Hij & p' & q' & Hp' & Hq' & He & Hd) Hp Hq Hep. rewrite Hp in Hp'. injection Hp' as <-. rewrite Hq in Hq'. injection Hq' as <-.
    apply coefficient_pos. split; [|done]. pose proof (edist_nonneg (pX p) (pX q)) as H. destruct (Rle_lt_or_eq_dec _ _ H) as [L|L]; [done|].
    exfalso. symmetry in L. apply edist_zero in L. by apply (sf_apart _ _ HF i j p q).
  Qed.

  (** The Laplacian as one sum of terms [a_j (x_j - x_i)]. *)
  Definition term x i p j : R :=
    if decide (near_to (eRe env) ps i j) then
      match ps !! j with
      | Some q => if decide (pT q = Dummy) then 0 else laplacian_coefficient env (edist (pX p) (pX q)) * ((if decide (hp q) then x j else 0) - x i)
      | None => 0
      end
    else 0.
  Lemma lap_terms x i p :
    lap x i p = sum_n (length ps) (term x i p) + surface_term env ps i p 0 (fun v => laplacian_coefficient env (edist (pX p) (pX v)) * (0 - x i)).
  Proof. done. Qed.
  Lemma lap_minus x y i p : lap (fun k => x k - y k) i p = lap x i p - lap y i p.
  Proof.
    rewrite !lap_terms. rewrite (sum_n_ext _ _ (fun j => term x i p j - term y i p j)).
    - rewrite sum_n_sub. unfold surface_term. destruct (surface_particle _ _ _ _); ring.
    - intros j _. unfold term. destruct (decide (near_to _ _ _ _)); [|ring]. destruct (ps !! j); [|ring].
      destruct (decide (pT _ = _)); [ring|]. destruct (decide (hp _)); ring.
  Qed.
  Lemma lap_scal a x i p : lap (fun k => a * x k) i p = a * lap x i p.
  Proof.
    rewrite !lap_terms. rewrite (sum_n_ext _ _ (fun j => a * term x i p j)).
    - rewrite sum_n_scal. unfold surface_term. destruct (surface_particle _ _ _ _); ring.
    - intros j _. unfold term. destruct (decide (near_to _ _ _ _)); [|ring]. destruct (ps !! j); [|ring].
      destruct (decide (pT _ = _)); [ring|]. destruct (decide (hp _)); ring.
  Qed.
  Lemma lap_ext x y i p : ps !! i = Some p -> hp p -> (forall j q, ps !! j = Some q -> hp q -> x j = y j) -> lap x i p = lap y i p.
  Proof.
    intros Hp Hh H. rewrite !lap_terms. rewrite (H i p Hp Hh). f_equal. apply sum_n_ext. intros j _. unfold term. rewrite (H i p Hp Hh).
    destruct (decide (near_to _ _ _ _)); [|done]. destruct (ps !! j) as [q|] eqn:Hq; [|done].
    destruct (decide (pT _ = _)); [done|]. destruct (decide (hp _)) as [Hh'|]; [|done]. by rewrite (H j q).
  Qed.

  Lemma lap_0 i p : lap (fun _ => 0) i p = 0.
  Proof.
    rewrite lap_terms. rewrite sum_n_zero.
    - unfold surface_term. destruct (surface_particle _ _ _ _); ring.
    - intros k _. unfold term. destruct (decide _); [|done]. destruct (ps !! k); [|done]. destruct (decide (pT _ = _)); [done|]. destruct (decide _); ring.
  Qed.

  (** A positive maximum where the Laplacian is not negative is impossible. *)
  Lemma no_maximum x (M : R) : 0 < M -> (forall i p, ps !! i = Some p -> hp p -> x i <= M) ->
    (forall i p, ps !! i = Some p -> hp p -> x i = M -> 0 <= lap x i p) ->
    forall i, reaches_surface env ps i -> x i <> M.
  Proof.
    intros HM Hle Hlap.
    assert (forall i p j, ps !! i = Some p -> hp p -> x i = M -> term x i p j <= 0) as Hterm.
    { intros i p j Hp Hh Hi. unfold term. destruct (decide (near_to _ _ _ _)) as [Hn|]; [|lra]. destruct (ps !! j) as [q|] eqn:Hq; [|lra].
      destruct (decide (pT _ = _)); [lra|]. pose proof (near_pos i j p q Hn Hp Hq (proj1 (proj1 Hh))) as K.
      assert ((if decide (hp q) then x j else 0) <= x i) as L. { destruct (decide (hp q)) as [Hhq|]; [rewrite Hi; by apply (Hle j q)|lra]. }
      set (w := if decide (hp q) then x j else 0) in *. assert (0 <= x i - w) as L' by lra.
      pose proof (Rmult_le_pos _ _ (Rlt_le _ _ K) L'). lra. }
    assert (forall i p, ps !! i = Some p -> hp p -> x i = M ->
      (forall j, (j < length ps)%nat -> term x i p j = 0) /\ surface_particle env ps i p = None) as HZ.
    { intros i p Hp Hh Hi. pose proof (Hlap i p Hp Hh Hi) as H0. rewrite lap_terms in H0.
      assert (surface_term env ps i p 0 (fun v => laplacian_coefficient env (edist (pX p) (pX v)) * (0 - x i)) <= 0 /\
              (surface_particle env ps i p <> None -> surface_term env ps i p 0 (fun v => laplacian_coefficient env (edist (pX p) (pX v)) * (0 - x i)) < 0)) as [S1 S2].
      { unfold surface_term. destruct (surface_particle env ps i p) as [v|] eqn:Hv; [|split; [lra|done]].
        pose proof (coefficient_pos _ (surface_dist i p v (sf_re _ _ HF) Hv)) as K. pose proof (Rmult_lt_0_compat _ _ K HM) as K2. rewrite Hi.
        split; [lra|intros _; lra]. }
      assert (0 <= sum_n (length ps) (fun j => - term x i p j)) as S3 by (apply sum_n_nonneg; intros j _; specialize (Hterm i p j Hp Hh Hi); lra).
      pose proof S3 as S4. rewrite sum_n_opp in S4. split.
      - intros j Hj. pose proof (sum_n_ge _ (fun j => - term x i p j) j ltac:(intros k _; specialize (Hterm i p k Hp Hh Hi); lra) Hj) as S5.
        rewrite sum_n_opp in S5. cbv beta in S5. specialize (Hterm i p j Hp Hh Hi). lra.
      - destruct (surface_particle env ps i p) as [v|] eqn:Hv; [|done]. specialize (S2 ltac:(done)). lra. }
    intros i HR. induction HR as [i p Hp Hh [Hs|(j & q & Hn & Hq & Hfw & Hnh)]|i p j q Hp Hh Hn Hq Hhq _ IH]; intros Hi; destruct (HZ i p Hp Hh Hi) as [HT HS].
    - done.
    - pose proof (near_pos i j p q Hn Hp Hq (proj1 (proj1 Hh))) as K. specialize (HT j ltac:(by eapply lookup_lt_Some)). unfold term in HT.
      rewrite decide_True, Hq, decide_False, decide_False in HT; [|done|apply Hfw|done]. apply Rmult_integral in HT as [?|?]; lra.
    - apply IH. pose proof (near_pos i j p q Hn Hp Hq (proj1 (proj1 Hh))) as K. specialize (HT j ltac:(by eapply lookup_lt_Some)). unfold term in HT.
      rewrite decide_True, Hq, decide_False, decide_True in HT; [|done|apply Hhq|done]. apply Rmult_integral in HT as [?|?]; lra.
  Qed.
  Definition unknown_at i : Prop := match ps !! i with Some p => hp p | None => False end.
  Global Instance unknown_at_dec i : Decision (unknown_at i). Proof. unfold unknown_at. destruct (ps !! i); apply _. Defined.
  Lemma unknown_at_iff i : unknown_at i <-> exists p, ps !! i = Some p /\ hp p.
  Proof. unfold unknown_at. destruct (ps !! i) as [p|]; [|naive_solver]. split; [eauto|]. by intros (? & [= <-] & ?). Qed.
  (** The particle with the largest value. *)
  Lemma largest x i p : ps !! i = Some p -> hp p -> exists m q, ps !! m = Some q /\ hp q /\ x i <= x m /\ forall j r, ps !! j = Some r -> hp r -> x j <= x m.
  Proof.
    intros Hp Hh. destruct (argmax (length ps) unknown_at x) as (m & Hm & Hu & HM).
    { exists i. split; [by eapply lookup_lt_Some|]. apply unknown_at_iff. eauto. }
    apply unknown_at_iff in Hu as (q & Hq & Hhq). exists m, q. split; [done|]. split; [done|].
    assert (forall j r, ps !! j = Some r -> hp r -> x j <= x m) as K. { intros j r Hj Hr. apply HM; [by eapply lookup_lt_Some|]. apply unknown_at_iff. eauto. }
    split; [by apply (K i p)|done].
  Qed.

  (** C84.  Comparison: where the Laplacian of the pressures [y] is nowhere below that of [x], [y] is nowhere above [x]. *)
  Theorem C84_comparison x y :
    (forall i p, ps !! i = Some p -> has_pressure env p -> pressure_laplacian env ps x i p <= pressure_laplacian env ps y i p) ->
    forall i p, ps !! i = Some p -> has_pressure env p -> y i <= x i.
  Proof.
    intros H i p Hp Hh. destruct (Rle_dec (y i) (x i)) as [?|L]; [done|]. exfalso.
    destruct (largest (fun k => y k - x k) i p Hp Hh) as (m & q & Hm & Hhq & Hge & HM).
    refine (no_maximum (fun k => y k - x k) (y m - x m) _ _ _ m _ eq_refl); [lra|intros j r Hj Hr; by apply (HM j r)| |by eapply sf_surface].
    intros j r Hj Hr _. rewrite lap_minus. specialize (H j r Hj Hr). lra.
  Qed.

  (** C84.  The equation has a solution, and only one. *)
  Theorem C84_unique c x y i p :
    exact_pressures env c ps x -> exact_pressures env c ps y -> ps !! i = Some p -> has_pressure env p -> x i = y i.
  Proof.
    intros Hx Hy Hp Hh. assert (forall j q, ps !! j = Some q -> hp q -> lap x j q = lap y j q) as E.
    { intros j q Hj Hq. specialize (Hx j q Hj Hq). specialize (Hy j q Hj Hq). unfold residual in *. lra. }
    apply Rle_antisym; [eapply (C84_comparison y x)|eapply (C84_comparison x y)]; try done; intros j q Hj Hq; rewrite (E j q Hj Hq); lra.
  Qed.
  Lemma solvable_any (f : nat -> R) : exists x, forall i p, ps !! i = Some p -> hp p -> lap x i p = f i.
  Proof.
    (* the linear map: the Laplacian at the unknowns, the identity elsewhere *)
    set (L := fun x i => match ps !! i with Some p => if decide (hp p) then lap x i p else x i | None => 0 end).
    assert (forall x y i, (i < length ps)%nat -> L (fun k => x k + y k) i = L x i + L y i) as Ladd.
    { intros x y i Hi. unfold L. destruct (ps !! i) as [p|]; [|ring]. destruct (decide _); [|done].
      assert (lap (fun k => x k + y k) i p = lap (fun k => x k - (-1) * y k) i p) as ->.
      { unfold pressure_laplacian, nsum, surface_term. f_equal.
        - apply sum_n_ext. intros j _. destruct (decide _); [|done]. destruct (ps !! j); [|done]. destruct (decide (pT _ = _)); [done|]. destruct (decide _); ring.
        - destruct (surface_particle _ _ _ _); ring. }
      rewrite lap_minus, lap_scal. ring. }
    assert (forall a x i, L (fun k => a * x k) i = a * L x i) as Lscal.
    { intros a x i. unfold L. destruct (ps !! i) as [p|]; [|ring]. destruct (decide _); [apply lap_scal|done]. }
    set (e := fun j k : nat => if (k =? j)%nat then 1 else 0 : R).
    assert (forall x y i, (i < length ps)%nat -> (forall j, (j < length ps)%nat -> x j = y j) -> L x i = L y i) as Lext.
    { intros x y i Hi H. unfold L. destruct (ps !! i) as [p|] eqn:Hp; [|done]. destruct (decide _); [|by apply H].
      apply lap_ext; [done|done|]. intros j q Hj _. apply H. by eapply lookup_lt_Some. }
    assert (forall n x i, (i < length ps)%nat -> L (fun k => sum_n n (fun j => x j * e j k)) i = sum_n n (fun j => L (e j) i * x j)) as Lsum.
    { induction n as [|n IH]; intros x i Hi.
      - change (L (fun k => 0) i = 0). transitivity (L (fun k => 0 * e 0%nat k) i); [apply Lext; [done|]; intros; ring|]. rewrite Lscal. ring.
      - rewrite sum_n_S, <- IH by done. transitivity (L (fun k => sum_n n (fun j => x j * e j k) + x n * e n k) i).
        + apply Lext; [done|]. intros j _. by rewrite sum_n_S.
        + rewrite Ladd, Lscal by done. ring. }
    assert (forall x i, (i < length ps)%nat -> sum_n (length ps) (fun j => L (e j) i * x j) = L x i) as Lmat.
    { intros x i Hi. rewrite <- Lsum by done. apply Lext; [done|]. intros j Hj. unfold e.
      rewrite (sum_n_ext _ _ (fun k => if (k =? j)%nat then x k else 0)); [by apply sum_n_delta|].
      intros k _. rewrite (Nat.eqb_sym j k). destruct (Nat.eqb_spec k j); ring. }
    destruct (linear_solvable (length ps) (fun i j => L (e j) i)) with (b := f) as [x Hx].
    - intros x Hx j Hj. assert (forall i p, ps !! i = Some p -> hp p -> lap x i p = 0) as H0.
      { intros i p Hp Hh. pose proof (lookup_lt_Some _ _ _ Hp) as Hi. specialize (Hx i Hi). rewrite Lmat in Hx by done. unfold L in Hx.
        by rewrite Hp, decide_True in Hx. }
      destruct (ps !! j) as [p|] eqn:Hp; [|apply lookup_ge_None in Hp; lia].
      destruct (decide (hp p)) as [Hh|Hh].
      + apply Rle_antisym; [apply (C84_comparison (fun _ => 0) x) with (p := p)|apply (C84_comparison x (fun _ => 0)) with (p := p)]; try done;
          intros i q Hi Hq; rewrite lap_0, (H0 i q Hi Hq); lra.
      + specialize (Hx j Hj). rewrite Lmat in Hx by done. unfold L in Hx. by rewrite Hp, decide_False in Hx.
    - exists x. intros i p Hp Hh. pose proof (lookup_lt_Some _ _ _ Hp) as Hi. specialize (Hx i Hi). rewrite Lmat in Hx by done. unfold L in Hx.
      by rewrite Hp, decide_True in Hx.
  Qed.
  Theorem C84_exists c : exists x, exact_pressures env c ps x.
  Proof.
    destruct (solvable_any (fun i => match ps !! i with Some p => - compression env c ps i p | None => 0 end)) as [x Hx].
    exists x. intros i p Hp Hh. unfold residual. rewrite (Hx i p Hp Hh), Hp. unfold compression. ring.
  Qed.

  (** C84.  Where the fluid is compressed or left alone everywhere, no pressure of the exact solution is negative. *)
  Theorem C84_sign c x : exact_pressures env c ps x ->
    (forall i p, ps !! i = Some p -> has_pressure env p -> 0 <= compression env c ps i p) ->
    forall i p, ps !! i = Some p -> has_pressure env p -> 0 <= x i.
  Proof.
    intros Hx Hc i p Hp Hh. apply (C84_comparison x (fun _ => 0)) with (p := p); try done. intros j q Hj Hq.
    rewrite lap_0.
    specialize (Hx j q Hj Hq). specialize (Hc j q Hj Hq). unfold residual, compression in *. lra.
  Qed.
  (** C84.  Pressure has its source in compression: for every particle under pressure there is one under at least that pressure
      where the fluid is being compressed. *)
  Theorem C84_maximum c x i p : exact_pressures env c ps x -> ps !! i = Some p -> has_pressure env p -> 0 < x i ->
    exists j q, ps !! j = Some q /\ has_pressure env q /\ x i <= x j /\ 0 < compression env c ps j q.
  Proof.
    intros Hx Hp Hh Hpos. destruct (largest x i p Hp Hh) as (m & q & Hm & Hhq & Hge & HM).
    destruct (find_below (length ps) (fun j => match ps !! j with Some r => hp r /\ x j = x m /\ 0 < compression env c ps j r | None => False end)) as [HE|HE].
    - intros j. destruct (ps !! j) as [r|]; [|right; tauto]. destruct (decide (hp r)); [|right; tauto]. destruct (Req_EM_T (x j) (x m)); [|right; tauto].
      destruct (Rlt_dec 0 (compression env c ps j r)); [by left|right; tauto].
    - destruct HE as (j & _ & HE). destruct (ps !! j) as [r|] eqn:Hj; [|done]. destruct HE as (Hr & E & HC). exists j, r.
      split; [done|]. split; [done|]. split; [by rewrite E|done].
    - exfalso. refine (no_maximum x (x m) _ _ _ m _ eq_refl); [lra|intros j r Hj Hr; by apply (HM j r)| |by eapply sf_surface].
      intros j r Hj Hr E. specialize (Hx j r Hj Hr). destruct (Rle_dec 0 (lap x j r)) as [?|L]; [done|]. exfalso. apply (HE j (lookup_lt_Some _ _ _ Hj)). rewrite Hj. split; [done|]. split; [done|]. unfold residual, compression in *. lra.
  Qed.
  Theorem C84_unit_response : exists u, unit_response env ps u /\ forall i p, ps !! i = Some p -> has_pressure env p -> 0 < u i.
  Proof.
    destruct (solvable_any (fun _ => -1)) as [u Hu]. exists u. split; [done|]. intros i p Hp Hh.
    destruct (Rlt_dec 0 (u i)) as [?|L]; [done|]. exfalso.
    assert (0 <= u i) as L0.
    { apply (C84_comparison u (fun _ => 0)) with (p := p); try done. intros j q Hj Hq. rewrite (Hu j q Hj Hq).
      rewrite lap_0. lra. }
    assert (u i = 0) as E by lra. assert (lap u i p = -1) as K by (by apply Hu). rewrite lap_terms in K.
    (* at a zero of a non-negative function the Laplacian is not negative *)
    assert (0 <= sum_n (length ps) (term u i p)) as S1.
    { apply sum_n_nonneg. intros j _. unfold term. destruct (decide (near_to _ _ _ _)) as [Hn|]; [|lra]. destruct (ps !! j) as [q|] eqn:Hq; [|lra].
      destruct (decide (pT _ = _)); [lra|]. apply Rmult_le_pos; [apply Rlt_le; by apply (near_pos i j p q Hn Hp Hq (proj1 (proj1 Hh)))|].
      rewrite E. destruct (decide (hp q)) as [Hhq|]; [|lra]. rewrite Rminus_0_r.
      apply (C84_comparison u (fun _ => 0)) with (p := q); try done. intros k r Hk Hr. rewrite (Hu k r Hk Hr).
      rewrite lap_0. lra. }
    unfold surface_term in K. rewrite E in K. destruct (surface_particle _ _ _ _); lra.
  Qed.
  (** C84.  Two pressure fields differ at most by the largest difference of their residuals times the unit response. *)
  Theorem C84_bound c x y u (e : R) : unit_response env ps u ->
    (forall i p, ps !! i = Some p -> has_pressure env p -> Rabs (residual env c ps x i p - residual env c ps y i p) <= e) ->
    forall i p, ps !! i = Some p -> has_pressure env p -> Rabs (x i - y i) <= e * u i.
  Proof.
    intros Hu He i p Hp Hh.
    assert (forall a b, (forall j q, ps !! j = Some q -> hp q -> Rabs (residual env c ps a j q - residual env c ps b j q) <= e) -> a i - b i <= e * u i) as K.
    { intros a b H. apply (C84_comparison (fun k => e * u k) (fun k => a k - b k)) with (p := p); try done. intros j q Hj Hq.
      rewrite lap_scal, lap_minus, (Hu j q Hj Hq). specialize (H j q Hj Hq). unfold residual in H. apply Rabs_le_inv in H. lra. }
    apply Rabs_le. pose proof (K x y He). assert (y i - x i <= e * u i); [|lra]. apply K. intros j q Hj Hq. rewrite Rabs_minus_sym. by apply He.
  Qed.
End Max.

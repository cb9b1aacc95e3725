(** Units: how the quantities computed in a step scale. *)
From Verif Require Import P_Neigh P_Point P_Sim P_AccR T_Shift S_Scale.
Open Scope R_scope.

Ltac req := match goal with |- @eq _ ?x ?y => change (@eq R x y) end.
(** Equations between quotients whose denominators may vanish: their inverses are left alone, except those of [a], [b], [c]. *)
Ltac scales a b c := req; cbn [nadd nsub nmul ndiv nopp nofZ Rnum]; unfold Rdiv; rewrite ?Rinv_mult, ?Rinv_inv;
  repeat match goal with |- context [/ ?X] => lazymatch X with a => fail | b => fail | c => fail | _ => generalize (/ X); intros ? end end;
  field; repeat split; try assumption; try lra.

(** ** Vectors *)
Section Vec.
  Context {d : dim}.
  Notation V := (vec Rnum d).
  Implicit Types (x y : V) (a b : R).
  Lemma scal_sub a x y : (a : Rnum) *^ x -^ (a : Rnum) *^ y = (a : Rnum) *^ (x -^ y).
  Proof. apply coord_ext. intros k Hk. rewrite coord_sub, !coord_scal, coord_sub by done. ring. Qed.
  Lemma scal_scal a b x : (a : Rnum) *^ ((b : Rnum) *^ x) = (a * b : Rnum) *^ x.
  Proof. apply coord_ext. intros k Hk. rewrite !coord_scal by done. cbn [nmul Rnum]. ring. Qed.
  Lemma dot_scal a b x y : vdot ((a : Rnum) *^ x) ((b : Rnum) *^ y) = a * b * vdot x y.
  Proof. rewrite !vdot_inner, inner_scal_l, inner_scal_r. req. ring. Qed.
  Lemma norm_scal a x : 0 < a -> vnorm ((a : Rnum) *^ x) = a * vnorm x.
  Proof. intros Ha. rewrite !vnorm_len, len_scal, Rabs_pos_eq by lra. done. Qed.
  Lemma dist_scal a x y : 0 < a -> dist ((a : Rnum) *^ x) ((a : Rnum) *^ y) = a * dist x y.
  Proof. intros Ha. rewrite !dist_edist, !edist_len, scal_sub, len_scal, Rabs_pos_eq by lra. done. Qed.
  Lemma scalr_scal a b x : vscalr ((a : Rnum) *^ x) (b : Rnum) = (a * b : Rnum) *^ x.
  Proof. apply coord_ext. intros k Hk. rewrite coord_scalr, !coord_scal by done. cbn [nmul Rnum]. ring. Qed.
  Lemma scalr_vscal a x : vscalr x (a : Rnum) = (a : Rnum) *^ x.
  Proof. apply coord_ext. intros k Hk. rewrite coord_scalr, !coord_scal by done. ring. Qed.
  Lemma div_scal a x : x /^ (a : Rnum) = (/ a : Rnum) *^ x.
  Proof. apply coord_ext. intros k Hk. rewrite coord_div, coord_scal by done. unfold Rdiv. ring. Qed.
End Vec.
Lemma ltb_scal (a x y : R) : 0 < a -> @nltb Rnum (a * x) (a * y) = @nltb Rnum x y.
Proof.
  intros Ha. cbn [nltb Rnum]. destruct (Rlt_dec x y) as [H|H], (Rlt_dec (a * x) (a * y)) as [H'|H']; try done; exfalso.
  - apply H'. by apply Rmult_lt_compat_l.
  - apply H. by apply Rmult_lt_reg_l in H'.
Qed.
Lemma leb_scal (a x y : R) : 0 < a -> @nleb Rnum (a * x) (a * y) = @nleb Rnum x y.
Proof.
  intros Ha. cbn [nleb Rnum]. destruct (Rle_dec x y) as [H|H], (Rle_dec (a * x) (a * y)) as [H'|H']; try done; exfalso.
  - apply H'. by apply Rmult_le_compat_l; [lra|].
  - apply H. by apply Rmult_le_reg_l in H'.
Qed.
Lemma eqb0_scal (a x : R) : 0 < a -> @neqb Rnum (a * x) 0 = @neqb Rnum x 0.
Proof.
  intros Ha. cbn [neqb Rnum]. destruct (Req_EM_T x 0) as [H|H], (Req_EM_T (a * x) 0) as [H'|H']; try done; exfalso.
  - apply H'. rewrite H. ring.
  - apply Rmult_integral in H' as [H'|H']; [lra|done].
Qed.
Lemma weight_scal (a r re : R) : 0 < a -> weight (N := Rnum) (a * r) (a * re) = weight (N := Rnum) r re.
Proof.
  intros Ha. unfold weight. rewrite (ltb_scal a r re Ha).
  replace (@nltb Rnum (nofZ 0) (a * r)) with (@nltb Rnum (nofZ 0) r).
  2:{ rewrite <- (ltb_scal a _ r Ha). f_equal. cbn. ring. }
  destruct (_ && _); [|done]. scales a a a.
Qed.
Lemma sqrt_scal (a x : R) : 0 < a -> R_sqrt.sqrt (a * a * x) = a * R_sqrt.sqrt x.
Proof. intros Ha. rewrite sqrt_mult_alt by nra. by rewrite sqrt_square by lra. Qed.

(** ** The solver *)
Section Solver.
  Context (zero_at : nat -> Prop) (al be : R) (Hbe : 0 < be) (Hal : 0 < al).
  Notation rows := (list (@mrow Rnum)).
  Notation rvec := (list R).
  (** Nothing at the excluded places. *)
  Definition none_there (x : rvec) : Prop := forall i v, zero_at i -> x !! i = Some v -> v = 0.
  Definition srow (row : @mrow Rnum) : @mrow Rnum := map (fun e => (e.1, al * e.2)) row.
  (** Excluded rows read only their own place; the others are scaled. *)
  Definition same_rows (A A' : rows) : Prop :=
    length A' = length A /\ forall i row, A !! i = Some row ->
      (zero_at i -> exists c c', row = ([(i, c)] : @mrow Rnum) /\ A' !! i = Some ([(i, c')] : @mrow Rnum)) /\ (~ zero_at i -> A' !! i = Some (srow row)).
  Context (Hdec : forall i, zero_at i \/ ~ zero_at i).

  Lemma nth_map_scal c (x : rvec) i : nth i (map (Rmult c) x) 0 = c * nth i x 0.
  Proof. revert i. induction x as [|a x IH]; intros [|i]; simpl; try ring. apply IH. Qed.
  Lemma row_prod_scal row (x : rvec) : row_prod (N := Rnum) (srow row) (map (Rmult be) x) = al * be * row_prod (N := Rnum) row x.
  Proof.
    unfold row_prod. cbn [nadd nmul nofZ Rnum]. assert (forall t t', t' = al * be * t ->
      foldl (fun (t0 : R) (e : nat * R) => t0 + e.2 * nth e.1 (map (Rmult be) x) 0) t' (srow row)
      = al * be * foldl (fun (t0 : R) (e : nat * R) => t0 + e.2 * nth e.1 x 0) t row) as HH.
    2:{ apply HH. req. ring. }
    induction row as [|[j v] row IH]; intros t t' Ht; simpl; [done|]. apply IH. rewrite nth_map_scal, Ht. change (nT Rnum) with R in *. ring.
  Qed.
  Lemma lprod_scal A A' (x : rvec) : same_rows A A' -> none_there x ->
    lprod (N := Rnum) A' (map (Rmult be) x) = map (Rmult (al * be)) (lprod (N := Rnum) A x) /\ none_there (lprod (N := Rnum) A x).
  Proof.
    intros [HL HA] Hx. assert (forall i, zero_at i -> nth i x 0 = 0) as Hn.
    { intros i Hi. destruct (x !! i) as [v|] eqn:E; [|by apply nth_overflow, lookup_ge_None].
      rewrite (nth_lookup_Some x i 0 v E). by eapply Hx. }
    assert (forall i c, zero_at i -> row_prod (N := Rnum) [(i, c)] x = 0 /\ row_prod (N := Rnum) [(i, c)] (map (Rmult be) x) = 0) as Hz.
    { intros i c Hi. unfold row_prod. cbn [foldl nadd nmul nofZ Rnum fst snd]. change (nT Rnum) with R in *. rewrite nth_map_scal, (Hn i Hi). split; req; ring. }
    split.
    - unfold lprod. apply list_eq. intros i. rewrite !list_lookup_fmap. destruct (A !! i) as [row|] eqn:E.
      + cbn [fmap option_fmap option_map]. destruct (HA i row E) as [H1 H2]. destruct (Hdec i) as [Hi|Hi].
        * destruct (H1 Hi) as (c & c' & -> & ->). cbn [fmap option_fmap option_map]. f_equal.
          rewrite (proj2 (Hz i c' Hi)), (proj1 (Hz i c Hi)). req. ring.
        * rewrite (H2 Hi). cbn [fmap option_fmap option_map]. f_equal. apply row_prod_scal.
      + apply lookup_ge_None in E. rewrite (proj2 (lookup_ge_None A' i)) by lia. done.
    - intros i v Hi H. unfold lprod in H. rewrite list_lookup_fmap in H. destruct (A !! i) as [row|] eqn:E; [|done].
      destruct (proj1 (HA i row E) Hi) as (c & c' & -> & _). apply Some_inj in H. rewrite <- H. by apply Hz.
  Qed.
  Lemma dot_scale c (x y : rvec) : ldot (N := Rnum) (map (Rmult c) x) (map (Rmult c) y) = c * c * ldot (N := Rnum) x y.
  Proof.
    unfold ldot. cbn [nadd nmul nofZ Rnum]. assert (forall t t', t' = c * c * t ->
      foldl (fun (t : R) (p : R * R) => t + p.1 * p.2) t' (zip (map (Rmult c) x) (map (Rmult c) y))
      = c * c * foldl (fun (t : R) (p : R * R) => t + p.1 * p.2) t (zip x y)) as HH.
    2:{ apply HH. req. ring. }
    revert y. induction x as [|a x IH]; intros [|b y] t t' Ht; simpl; try done. apply IH. rewrite Ht. ring.
  Qed.
  Lemma dot_scale2 c e (x y : rvec) : ldot (N := Rnum) (map (Rmult c) x) (map (Rmult e) y) = c * e * ldot (N := Rnum) x y.
  Proof.
    unfold ldot. cbn [nadd nmul nofZ Rnum]. assert (forall t t', t' = c * e * t ->
      foldl (fun (t : R) (p : R * R) => t + p.1 * p.2) t' (zip (map (Rmult c) x) (map (Rmult e) y))
      = c * e * foldl (fun (t : R) (p : R * R) => t + p.1 * p.2) t (zip x y)) as HH.
    2:{ apply HH. req. ring. }
    revert y. induction x as [|a x IH]; intros [|b y] t t' Ht; simpl; try done. apply IH. rewrite Ht. ring.
  Qed.
  Lemma zip_scal (f : R -> R -> R) c (x y : rvec) : (forall a b, f (c * a) (c * b) = c * f a b) ->
    zip_with f (map (Rmult c) x) (map (Rmult c) y) = map (Rmult c) (zip_with f x y).
  Proof. intros H. revert y. induction x as [|a x IH]; intros [|b y]; simpl; try done. by rewrite H, IH. Qed.
  Lemma none_zip (f : R -> R -> R) (x y : rvec) : f 0 0 = 0 -> none_there x -> none_there y -> none_there (zip_with f x y).
  Proof.
    intros Hf Hx Hy i v Hi H. apply lookup_zip_with_Some in H as (a & b & -> & Ha & Hb). by rewrite (Hx i a), (Hy i b).
  Qed.
  Lemma none_scal c (x : rvec) : none_there x -> none_there (map (Rmult c) x).
  Proof. intros Hx i v Hi H. rewrite list_lookup_fmap in H. destruct (x !! i) as [a|] eqn:E; [|done]. injection H as <-. rewrite (Hx i a) by done. ring. Qed.
  Lemma map_map_scal c e (x : rvec) : map (Rmult c) (map (Rmult e) x) = map (Rmult (c * e)) x.
  Proof. rewrite map_map. apply map_ext. intros a. ring. Qed.

  Lemma cg_loop_scal A A' res fuel (x r p : rvec) (rr : R) : same_rows A A' -> none_there r -> none_there p ->
    cg_loop (N := Rnum) A' (be * be * res) fuel (map (Rmult (be / al)) x) (map (Rmult be) r) (map (Rmult be) p) (be * be * rr)
    = (map (Rmult (be / al)) (cg_loop (N := Rnum) A res fuel x r p rr).1, (cg_loop (N := Rnum) A res fuel x r p rr).2).
  Proof.
    intros HA. revert x r p rr. induction fuel as [|fuel IH]; intros x r p rr Hr Hp; [done|]. cbn [cg_loop].
    destruct (lprod_scal A A' p HA Hp) as [-> HAp]. set (Ap := lprod (N := Rnum) A p) in *.
    assert (ndiv (n := Rnum) (be * be * rr) (ldot (N := Rnum) (map (Rmult be) p) (map (Rmult (al * be)) Ap))
      = / al * (rr / ldot (N := Rnum) p Ap)) as ->.
    { rewrite dot_scale2. generalize (ldot (N := Rnum) p Ap). intros q. scales al be be. }
    change (ndiv (n := Rnum) rr (ldot (N := Rnum) p Ap)) with (rr / ldot (N := Rnum) p Ap). set (alpha := rr / ldot (N := Rnum) p Ap).
    assert (ladd (N := Rnum) (map (Rmult (be / al)) x) (lscal (N := Rnum) (/ al * alpha) (map (Rmult be) p))
      = map (Rmult (be / al)) (ladd (N := Rnum) x (lscal (N := Rnum) alpha p))) as ->.
    { unfold ladd, lscal. cbn [nadd nmul Rnum]. rewrite <- zip_scal by (intros; req; ring). f_equal. rewrite !map_map. apply map_ext. intros a. req. field. lra. }
    assert (lsub (N := Rnum) (map (Rmult be) r) (lscal (N := Rnum) (/ al * alpha) (map (Rmult (al * be)) Ap))
      = map (Rmult be) (lsub (N := Rnum) r (lscal (N := Rnum) alpha Ap))) as ->.
    { unfold lsub, lscal. cbn [nsub nmul Rnum]. rewrite <- zip_scal by (intros; req; ring). f_equal. rewrite !map_map. apply map_ext. intros a. req. field. lra. }
    set (r' := lsub (N := Rnum) r (lscal (N := Rnum) alpha Ap)).
    assert (none_there r') as Hr'. { apply none_zip; [req; cbn; ring|done|]. by apply none_scal. }
    rewrite dot_scale. rewrite ltb_scal by nra. destruct (_ <?. _); [done|].
    assert (ndiv (n := Rnum) (be * be * ldot (N := Rnum) r' r') (be * be * rr) = ldot (N := Rnum) r' r' / rr) as ->.
    { generalize (ldot (N := Rnum) r' r'). intros q. scales be be be. }
    change (ndiv (n := Rnum) (ldot (N := Rnum) r' r') rr) with (ldot (N := Rnum) r' r' / rr). set (bt := ldot (N := Rnum) r' r' / rr).
    assert (ladd (N := Rnum) (map (Rmult be) r') (lscal (N := Rnum) bt (map (Rmult be) p))
      = map (Rmult be) (ladd (N := Rnum) r' (lscal (N := Rnum) bt p))) as ->.
    { unfold ladd, lscal. cbn [nadd nmul Rnum]. rewrite <- zip_scal by (intros; req; ring). f_equal. rewrite !map_map. apply map_ext. intros a. ring. }
    apply IH; [done|]. apply none_zip; [req; cbn; ring|done|]. by apply none_scal.
  Qed.
  Lemma cg_solve_scal A A' (x b : rvec) (eps : R) : same_rows A A' -> none_there x -> none_there b ->
    cg_solve (N := Rnum) A' (map (Rmult (be / al)) x) (map (Rmult be) b) eps
    = (map (Rmult (be / al)) (cg_solve (N := Rnum) A x b eps).1, (cg_solve (N := Rnum) A x b eps).2).
  Proof.
    intros HA Hx Hb. unfold cg_solve.
    assert (lprod (N := Rnum) A' (map (Rmult (be / al)) x) = map (Rmult be) (lprod (N := Rnum) A x)) as ->.
    { replace (map (Rmult (be / al)) x) with (map (Rmult be) (map (Rmult (/ al)) x)) by (rewrite map_map_scal; done).
      destruct (lprod_scal A A' (map (Rmult (/ al)) x) HA) as [-> _]; [by apply none_scal|].
      unfold lprod. rewrite map_map. apply list_eq. intros i. rewrite !list_lookup_fmap. destruct (A !! i) as [row|]; [|done]. cbn [fmap option_fmap option_map]. f_equal.
      assert (row_prod (N := Rnum) row (map (Rmult (/ al)) x) = / al * row_prod (N := Rnum) row x) as HX; [|rewrite HX; req; field; lra].
      unfold row_prod. cbn [nadd nmul nofZ Rnum]. assert (forall t t', t' = / al * t ->
        foldl (fun (t0 : R) (e : nat * R) => t0 + e.2 * nth e.1 (map (Rmult (/ al)) x) 0) t' row
        = / al * foldl (fun (t0 : R) (e : nat * R) => t0 + e.2 * nth e.1 x 0) t row) as HH.
      2:{ apply HH. req. ring. }
      clear. induction row as [|[j v] row IH]; intros t t' Ht; simpl; [done|]. apply IH. rewrite nth_map_scal, Ht. change (nT Rnum) with R in *. ring. }
    assert (lsub (N := Rnum) (map (Rmult be) b) (map (Rmult be) (lprod (N := Rnum) A x)) = map (Rmult be) (lsub (N := Rnum) b (lprod (N := Rnum) A x))) as ->.
    { unfold lsub. apply zip_scal. intros; cbn; ring. }
    set (r := lsub (N := Rnum) b (lprod (N := Rnum) A x)). rewrite dot_scale.
    assert (nmul (n := Rnum) (nmul (n := Rnum) (be * be * ldot (N := Rnum) r r) eps) eps = be * be * (ldot (N := Rnum) r r * eps * eps)) as ->.
    { req. cbn [nmul Rnum]. ring. }
    change (nmul (n := Rnum) (nmul (n := Rnum) (ldot (N := Rnum) r r) eps) eps) with (ldot (N := Rnum) r r * eps * eps).
    assert (none_there r) as Hr. { apply none_zip; [req; cbn; ring|done|]. by apply (lprod_scal A A' x HA). }
    change (nofZ (n := Rnum) 0) with 0. rewrite eqb0_scal by nra. destruct (_ =?. _); [done|]. rewrite map_length. by apply cg_loop_scal.
  Qed.
End Solver.

(** ** Sums over the neighbours *)
Section Units.
  Context {cfg : config} {wm : wallmotion Rnum (cDim cfg)} (u : units) (Hu : proper u).
  Notation d := (cDim cfg).
  Notation V := (vec Rnum d).
  Notation part := (particle Rnum d).
  Notation computer := (computer cfg wm).
  Notation computer' := (M_Computer.computer cfg (wall_in u wm)).
  Notation rescaled := (@rescaled cfg u wm).
  Notation lam := (in_length u).
  Notation tau := (in_time u).
  Notation mu := (in_density u).
  Implicit Types (p q : part) (s : computer).

  Lemma lam_pos : 0 < lam. Proof. apply Hu. Qed.
  Lemma tau_pos : 0 < tau. Proof. apply Hu. Qed.
  Lemma mu_pos : 0 < mu. Proof. apply Hu. Qed.
  Lemma speed_pos : 0 < in_speed u. Proof. destruct Hu as (?&?&?). by apply Rdiv_lt_0_compat. Qed.
  Lemma pressure_pos : 0 < in_pressure u. Proof. pose proof speed_pos. pose proof mu_pos. unfold in_pressure. by repeat (apply Rmult_lt_0_compat; [done|]). Qed.

  Lemma re_at s (s' : computer') j : rescaled s s' -> cParts s' !! j = part_in u <$> cParts s !! j.
  Proof. intros H. by rewrite (re_parts _ _ _ H), list_lookup_fmap. Qed.
  Lemma re_size s (s' : computer') : rescaled s s' -> psize s' = psize s.
  Proof. intros H. unfold psize. by rewrite (re_parts _ _ _ H), map_length. Qed.
  Lemma re_list s (s' : computer') i : rescaled s s' -> neighbor_list s' i = neighbor_list s i.
  Proof. intros H. unfold neighbor_list. by rewrite (re_neighbor _ _ _ H). Qed.
  Lemma spp_in p x : part_in u (spp_particle (cfg := cfg) p x) = spp_particle (cfg := cfg) (part_in u p) ((lam : Rnum) *^ x).
  Proof. unfold part_in, spp_particle. cbn [pX pU pP pN pT]. f_equal. cbn. ring. Qed.

  (** The centre of the neighbours. *)
  Definition pull s i p j : V :=
    match cParts s !! j with
    | Some q => if decide (j = i) then vzero else (wt (edist (pX p) (pX q)) (eRe (cEnv s)) : Rnum) *^ (pX q -^ pX p)
    | None => vzero end.
  Lemma coord_vsum_cons (x : V) l k : (k < dimn d)%nat -> coord (vsum (x :: l)) k = coord x k + coord (vsum l) k.
  Proof. intros Hk. unfold vsum. unfold coord. rewrite !tget_tmk by done. done. Qed.
  Lemma fold_centre {A} s i p (plus : A -> A -> A) f l st st' :
    foldM (acc_step s i (pX p) plus f) st l = Some st' -> st'.2 = st.2 +^ vsum (map (pull s i p) l).
  Proof.
    revert st. induction l as [|j l IH]; intros st H; simpl in H.
    - injection H as <-. apply coord_ext. intros k Hk. rewrite coord_add by done. unfold vsum, coord. rewrite !tget_tmk by done. simpl. ring.
    - destruct (acc_step s i (pX p) plus f st j) as [st1|] eqn:E; [|done]. cbn [mbind option_bind] in H. rewrite (IH st1 H). clear IH H.
      assert (st1.2 = st.2 +^ pull s i p j) as ->.
      { unfold acc_step in E. unfold pull. destruct (Nat.eqb_spec j i) as [->|Hne].
        - injection E as <-. destruct (cParts s !! i); [rewrite decide_True by done|]; by rewrite vadd_0_r.
        - destruct (cParts s !! j) as [q|] eqn:Hq; [|done]. cbn [mbind option_bind] in E. rewrite decide_False by done.
          assert (@nsqrt Rnum (vdot (pX q -^ pX p) (pX q -^ pX p)) = edist (pX p) (pX q)) as HE.
          { rewrite edist_sym. rewrite <- dist_edist. done. }
          destruct (_ <?. _) eqn:HL; injection E as <-; cbn [snd].
          + cbn [nsqrt Rnum] in HE. rewrite HE. rewrite weight_wt. done.
          + assert (wt (edist (pX p) (pX q)) (eRe (cEnv s)) = 0) as ->.
            2:{ apply coord_ext. intros k Hk. rewrite coord_add, coord_scal by done. ring. }
            unfold wt. destruct (Rlt_dec 0 _) as [H0|]; [|done]. destruct (Rlt_dec _ _) as [H1|]; [|done]. exfalso.
            assert (vdot (pX q -^ pX p) (pX q -^ pX p) = edist (pX p) (pX q) * edist (pX p) (pX q)) as HD.
            { rewrite edist_sym, edist_len, len_sqr, vdot_inner. done. }
            cbn [nltb nmul Rnum] in HL. rewrite HD in HL. destruct (Rlt_dec _ _) as [|HL'] in HL; [done|]. apply HL'. change (nT Rnum) with R in *. nra. }
      apply coord_ext. intros k Hk. rewrite !coord_add by done. cbn [map]. rewrite coord_vsum_cons by done. req. ring.
  Qed.
  (** What the sums need to know about the states. *)
  Record seen s (s' : computer') : Prop := {
    sn_parts : cParts s' = map (part_in u) (cParts s); sn_env : cEnv s' = env_in u (cEnv s);
    sn_neighbor : cNeighbor s' = cNeighbor s; sn_nws : cNws s' = cNws s }.
  Lemma re_seen s (s' : computer') : rescaled s s' -> seen s s'.
  Proof. intros H. split; by apply H. Qed.
  Definition decided s i : Prop := cSPP cfg = true -> (/ 2 ^ 52 < lopsided s i <-> / 2 ^ 52 < lam * lopsided s i).

  Lemma fold_in {A B} (phi : A -> B) s (s' : computer') i p (plus : A -> A -> A) plus' f f' l st :
    seen s s' -> (forall a b, plus' (phi a) (phi b) = phi (plus a b)) ->
    (forall j q, j ∈ l -> cParts s !! j = Some q -> f' (Z.of_nat j) (part_in u q) = phi (f (Z.of_nat j) q)) ->
    foldM (acc_step s' i (pX (part_in u p)) plus' f') (phi st.1, (lam : Rnum) *^ st.2) l
    = (fun st => (phi st.1, (lam : Rnum) *^ st.2)) <$> foldM (acc_step s i (pX p) plus f) st l.
  Proof.
    intros H Hplus. revert st. induction l as [|j l IH]; intros st Hf; [done|]. cbn [foldM].
    assert (acc_step s' i (pX (part_in u p)) plus' f' (phi st.1, (lam : Rnum) *^ st.2) j
      = (fun st => (phi st.1, (lam : Rnum) *^ st.2)) <$> acc_step s i (pX p) plus f st j) as ->.
    { unfold acc_step. destruct (j =? i)%nat; [done|]. rewrite (sn_parts _ _ H), list_lookup_fmap.
      destruct (cParts s !! j) as [q|] eqn:Hq; [|done]. cbn [mbind option_bind fmap option_fmap option_map].
      rewrite (Hf j q) by (done || left). rewrite (sn_env _ _ H). cbn [pX part_in eRe env_in]. rewrite scal_sub, dot_scal.
      assert (nmul (n := Rnum) (lam * eRe (cEnv s)) (lam * eRe (cEnv s)) = lam * lam * (eRe (cEnv s) * eRe (cEnv s))) as -> by (req; cbn; ring).
      rewrite ltb_scal by (pose proof lam_pos; nra). cbn [nmul Rnum]. destruct (_ <?. _); [|done]. cbn [fmap option_fmap option_map fst snd]. f_equal. f_equal.
      - by rewrite Hplus.
      - cbn [nsqrt Rnum]. rewrite sqrt_scal by apply lam_pos. rewrite weight_scal by apply lam_pos.
        apply coord_ext. intros k Hk. rewrite !coord_add, !coord_scal, !coord_add, !coord_scal by done. req. cbn [nadd nmul Rnum]. ring. }
    destruct (acc_step s i (pX p) plus f st j) as [st1|]; [|done]. cbn [mbind option_bind fmap option_fmap option_map].
    apply IH. intros j' q' Hj'. apply Hf. by right.
  Qed.
  Lemma acc_in {A B} (phi : A -> B) s (s' : computer') i p (zero : A) zero' plus plus' f f' l :
    seen s s' -> cParts s !! i = Some p -> neighbor_list s i = Some l ->
    phi zero = zero' -> (forall a b, plus' (phi a) (phi b) = phi (plus a b)) ->
    (forall j q, j ∈ l -> cParts s !! j = Some q -> f' (Z.of_nat j) (part_in u q) = phi (f (Z.of_nat j) q)) ->
    (cSPP cfg = true -> forall q, pT q = Newton -> f' (-1)%Z (part_in u q) = phi (f (-1)%Z q)) ->
    decided s i \/ (cSPP cfg = true -> forall a q, pT q = Newton -> plus a (f (-1)%Z q) = a) ->
    acc s' i zero' plus' f' = phi <$> acc s i zero plus f.
  Proof.
    intros H Hp Hl Hz Hplus Hf Hspp Hd. unfold acc. assert (neighbor_list s' i = Some l) as ->.
    { rewrite <- Hl. unfold neighbor_list. by rewrite (sn_neighbor _ _ H). }
    rewrite (sn_parts _ _ H), list_lookup_fmap, Hp, Hl. cbn [mbind option_bind fmap option_fmap option_map].
    pose proof (fold_in phi s s' i p plus plus' f f' l (zero, vzero) H Hplus Hf) as HF. cbn [fst snd] in HF.
    rewrite Hz in HF. replace ((lam : Rnum) *^ (vzero : V)) with (vzero : V) in HF.
    2:{ apply coord_ext. intros k Hk. rewrite coord_scal, coord_zero by done. req. ring. }
    rewrite HF. clear HF. destruct (foldM (acc_step s i (pX p) plus f) (zero, vzero) l) as [st|] eqn:E; [|done].
    apply fold_centre in E. cbn [snd] in E. rewrite vadd_0_l in E. cbn [mbind option_bind fmap option_fmap option_map].
    destruct (cSPP cfg) eqn:HS; [|done]. unfold acc_spp. rewrite (sn_nws _ _ H), (sn_env _ _ H).
    destruct (cNws s !! i) as [n|]; [|done]. cbn [mbind option_bind eRe eN0 env_in fst snd pX part_in].
    destruct (_ <?. _); [|done].
    assert ((lam : Rnum) *^ st.2 /^ eN0 (cEnv s) = (lam : Rnum) *^ (st.2 /^ eN0 (cEnv s))) as ->.
    { apply coord_ext. intros k Hk. rewrite coord_div, !coord_scal, coord_div by done. unfold Rdiv. req. ring. }
    set (g := st.2 /^ eN0 (cEnv s)). rewrite dot_scal. cbn [nsqrt Rnum]. rewrite sqrt_scal by apply lam_pos.
    assert (R_sqrt.sqrt (vdot g g) = len g) as -> by (rewrite vdot_inner; done).
    assert (len g = lopsided s i) as HG.
    { unfold lopsided. rewrite Hp, Hl. unfold g. rewrite div_scal, len_scal, E, Rabs_inv. unfold pull. unfold Rdiv. req. ring. }
    assert (forall x, plus' (phi st.1) (f' (-1)%Z (spp_particle (cfg := cfg) (part_in u p) ((lam : Rnum) *^ x)))
      = phi (plus st.1 (f (-1)%Z (spp_particle (cfg := cfg) p x)))) as HX.
    { intros x. rewrite <- spp_in, Hspp, Hplus by done. done. }
    assert (forall a b : R, (@nltb Rnum a b = true <-> a < b)) as Hb.
    { intros a b. cbn [nltb Rnum]. destruct (Rlt_dec a b); split; try done. }
    assert (@neps Rnum = / 2 ^ 52) as HEps by (unfold neps; cbn [ndiv nofZ Rnum]; rewrite pow_IZR; unfold Rdiv; rewrite Rmult_1_l; do 2 f_equal).
    assert (forall w : R, (lam : Rnum) *^ pX p -^ (ndiv (n := Rnum) (ndiv (n := Rnum) (lam * eRe (cEnv s)) w) (lam * len g) : Rnum) *^ ((lam : Rnum) *^ g)
      = (lam : Rnum) *^ (pX p -^ (ndiv (n := Rnum) (ndiv (n := Rnum) (eRe (cEnv s)) w) (len g) : Rnum) *^ g)) as Hxs.
    { intros w. apply coord_ext. intros k Hk. rewrite !coord_sub, !coord_scal, coord_sub, !coord_scal by done. generalize (len g), (coord g k), (coord (pX p) k), (eRe (cEnv s)).
      pose proof lam_pos as HL. revert HL. generalize lam. intros lm HL r c x re. change (nT Rnum) with R in *. scales lm lm lm. }
    rewrite Hxs, HX. destruct Hd as [Hd|Hd].
    - specialize (Hd HS). rewrite <- HG in Hd. rewrite HEps.
      destruct (@nltb Rnum (/ 2 ^ 52) (len g)) eqn:E1, (@nltb Rnum (/ 2 ^ 52) (lam * len g)) eqn:E2; try done.
      + apply Hb in E1. apply Hd in E1. apply Hb in E1. change (nT Rnum) with R in *. congruence.
      + apply Hb in E2. apply Hd in E2. apply Hb in E2. change (nT Rnum) with R in *. congruence.
    - rewrite (Hd eq_refl) by done. by destruct (_ <?. _), (_ <?. _).
  Qed.
  (** ** Phases *)
  Notation wf := P_Search.wf.
  Lemma wf_in s (s' : computer') : rescaled s s' -> wf s -> wf s'.
  Proof.
    intros H W. pose proof (re_size _ _ H) as HS. split.
    - rewrite (re_grid _ _ _ H). destruct (wf_grid _ W). by split.
    - rewrite (re_neighbor _ _ _ H), HS. apply W.
    - intros i row. rewrite (re_neighbor _ _ _ H). unfold row_len. rewrite (re_grid _ _ _ H). apply W.
    - intros i row. rewrite (re_neighbor _ _ _ H), (re_list _ _ _ H), HS. apply W.
    - rewrite (re_du _ _ _ H), HS. apply W.
    - rewrite (re_ecs _ _ _ H), map_length, HS. apply W.
    - rewrite (re_orig _ _ _ H), HS. apply W.
    - rewrite (re_nws _ _ _ H), HS. apply W.
    - rewrite (re_x _ _ _ H), (re_A _ _ _ H). apply W.
    - rewrite (re_b _ _ _ H), (re_A _ _ _ H). apply W.
  Qed.
  Lemma list_at s i p : wf s -> cParts s !! i = Some p -> exists l, neighbor_list s i = Some l.
  Proof. intros W Hp. destruct (wf_neighbors s i W) as (l & Hl & _); [by eapply lookup_lt_Some|]. eauto. Qed.
  Lemma parts_in s (t : computer) (t' : computer') : psize t = psize s -> psize t' = psize s ->
    (forall i p, cParts s !! i = Some p -> exists q, cParts t !! i = Some q /\ cParts t' !! i = Some (part_in u q)) ->
    cParts t' = map (part_in u) (cParts t).
  Proof.
    unfold psize. intros H1 H2 H. apply list_eq. intros i. rewrite list_lookup_fmap. destruct (cParts s !! i) as [p|] eqn:E.
    - destruct (H i p E) as (q & -> & ->). done.
    - apply lookup_ge_None in E. rewrite (proj2 (lookup_ge_None (cParts t) i)), (proj2 (lookup_ge_None (cParts t') i)) by lia. done.
  Qed.

  Lemma dens_acc_in s (s' : computer') i p : rescaled s s' -> wf s -> cParts s !! i = Some p ->
    acc (with_nws s' (<[i := eN0 (cEnv s')]> (cNws s'))) i (nofZ 0) nadd (dens_func cfg (pX (part_in u p)) (eRe (cEnv s')))
    = acc (with_nws s (<[i := eN0 (cEnv s)]> (cNws s))) i (nofZ 0) nadd (dens_func cfg (pX p) (eRe (cEnv s))).
  Proof.
    intros H W Hp. destruct (list_at s i p W Hp) as [l Hl].
    rewrite (acc_in (fun x : nT Rnum => x) (with_nws s (<[i := eN0 (cEnv s)]> (cNws s))) _ i p (nofZ 0) (nofZ 0) nadd nadd
      (dens_func cfg (pX p) (eRe (cEnv s))) _ l); try done.
    - by destruct (acc _ _ _ _ _).
    - split; cbn [cParts cEnv cNeighbor cNws with_nws]; try by apply H. rewrite (re_nws _ _ _ H), (re_env _ _ _ H). done.
    - intros j q _ _. unfold dens_func. destruct (_ && _); [done|]. rewrite (re_env _ _ _ H). cbn [pX part_in eRe env_in].
      rewrite dist_scal, weight_scal by apply lam_pos. done.
    - intros HS q _. unfold dens_func. by rewrite HS.
    - right. intros HS a q _. unfold dens_func. rewrite HS. cbn. req. ring.
  Qed.
  Lemma dens_in s (s' : computer') (t : computer) (t' : computer') : rescaled s s' -> wf s -> compute_densities s = Some t -> compute_densities s' = Some t' -> rescaled t t'.
  Proof.
    intros H W E E'. pose proof (dens_pr _ _ E) as P. pose proof (dens_pr _ _ E') as P'.
    assert (psize t' = psize s) as HS' by (by rewrite (pr_size _ _ P'), (re_size _ _ H)).
    assert (cParts t' = map (part_in u) (cParts t) /\ cNws t' = cNws t) as [HP HN].
    { assert (forall i p, cParts s !! i = Some p -> (exists q, cParts t !! i = Some q /\ cParts t' !! i = Some (part_in u q)) /\ cNws t' !! i = cNws t !! i) as HH.
      { intros i p Hp. pose proof (dens_at s t i p E Hp) as D.
        assert (cParts s' !! i = Some (part_in u p)) as Hp' by (by rewrite (re_at _ _ _ H), Hp).
        pose proof (dens_at s' t' i _ E' Hp') as D'. cbn [pT part_in] in D'. destruct (is_active (pT p)).
        - destruct D as (n & D1 & D2 & D3). destruct D' as (n' & D1' & D2' & D3'). rewrite (dens_acc_in s s' i p H W Hp), D1 in D1'. injection D1' as <-.
          rewrite D2, D2', D3, D3'. split; [|done]. eexists. split; [done|]. by rewrite (re_env _ _ _ H).
        - destruct D as [-> ->], D' as [-> ->]. rewrite (re_env _ _ _ H). eauto. }
      split; [eapply (parts_in s); [by apply (pr_size _ _ P)|done|by intros; eapply HH]|].
      apply list_eq. intros i. destruct (cParts s !! i) as [p|] eqn:Hp; [by eapply HH|]. apply lookup_ge_None in Hp.
      rewrite !(proj2 (lookup_ge_None _ i)); [done|rewrite (pr_nws _ _ P), (wf_nws _ W); done|
        rewrite (pr_nws _ _ P'), (wf_nws _ (wf_in _ _ H W)), (re_size _ _ H); done]. }
    rewrite (dens_rest _ _ E), (dens_rest _ _ E'). split; cbn; try by apply H; done. all: done.
  Qed.
  Definition cut s : Prop := cSPP cfg = true -> clear_cut u s.
  Lemma cut_at s i p : cut s -> cParts s !! i = Some p -> is_active (pT p) = true -> decided s i.
  Proof.
    intros HC Hp HT HS. apply is_active_true in HT. apply (HC HS i p Hp); destruct HT; congruence.
  Qed.
  (** Quantities that scale. *)
  Lemma real_acc_in (c : R) s (s' : computer') i p (f f' : Z -> part -> nT Rnum) : seen s s' -> wf s -> cParts s !! i = Some p -> decided s i ->
    (forall j q, f' j (part_in u q) = c * f j q) -> acc s' i (nofZ 0) nadd f' = (Rmult c : nT Rnum -> nT Rnum) <$> acc s i (nofZ 0) nadd f.
  Proof.
    intros H W Hp Hd Hf. destruct (list_at s i p W Hp) as [l Hl].
    apply (acc_in (Rmult c : nT Rnum -> nT Rnum) s s' i p (nofZ 0) (nofZ 0) nadd nadd f f' l); try done.
    - req. cbn. ring.
    - intros a b. req. cbn. ring.
    - by left.
  Qed.
  Lemma vec_acc_in (c : R) s (s' : computer') i p f f' : seen s s' -> wf s -> cParts s !! i = Some p -> decided s i ->
    (forall j q, f' j (part_in u q) = (c : Rnum) *^ f j q) -> acc s' i vzero vadd f' = (fun v : V => (c : Rnum) *^ v) <$> acc s i vzero vadd f.
  Proof.
    intros H W Hp Hd Hf. destruct (list_at s i p W Hp) as [l Hl].
    apply (acc_in (fun v : V => (c : Rnum) *^ v) s s' i p vzero vzero vadd vadd f f' l); try done.
    - apply coord_ext. intros k Hk. rewrite coord_scal, coord_zero by done. ring.
    - intros a b. apply coord_ext. intros k Hk. rewrite coord_add, !coord_scal, coord_add by done. ring.
    - by left.
  Qed.
  Ltac units := pose proof lam_pos as H_l; pose proof tau_pos as H_t; pose proof mu_pos as H_m; unfold in_pressure, in_acceleration, in_viscosity, in_speed in *;
    revert H_l H_t H_m; generalize lam, tau, mu; intros lm tm mm H_l H_t H_m; change (nT Rnum) with R in *; scales lm tm mm.
  Lemma speed_in s (s' : computer') i p : rescaled s s' -> wf s -> cParts s !! i = Some p -> decided s i ->
    density_speed s' i = (fun x : R => x / tau) <$> density_speed s i.
  Proof.
    intros H W Hp Hd. unfold density_speed. rewrite (re_at _ _ _ H), Hp. cbn [mbind option_bind fmap option_fmap option_map].
    rewrite (re_env _ _ _ H), (re_nws _ _ _ H). cbn [eN0 eRe eDt env_in pN part_in]. destruct (cHS cfg).
    - assert (acc s' i (nofZ 0) nadd (speed_func cfg (pX (part_in u p)) (pU (part_in u p))) =
        (Rmult (/ (lam * tau)) : nT Rnum -> nT Rnum) <$> acc s i (nofZ 0) nadd (speed_func cfg (pX p) (pU p))) as ->.
      { eapply real_acc_in; [by apply re_seen|done|done|done|]. intros j q. unfold speed_func. cbn [pX pU part_in].
        rewrite !scal_sub, dot_scal, norm_scal by apply lam_pos. generalize (vnorm (pX q -^ pX p)), (vdot (pX q -^ pX p) (pU q -^ pU p)). intros r w. units. }
      assert (forall o : option R, (a ← Rmult (/ (lam * tau)) <$> o; Some (nmul (n := Rnum) (nopp (n := Rnum) (lam * eRe (cEnv s))) a))
        = (fun x : R => x / tau) <$> (a ← o; Some (nmul (n := Rnum) (nopp (n := Rnum) (eRe (cEnv s))) a))) as HH.
      { intros [a|]; [|done]. simpl. f_equal. units. }
      destruct (cSPP cfg).
      + destruct (cNws s !! i) as [n|]; [|done]. cbn [mbind option_bind]. destruct (_ <?. _); [|apply HH]. cbn. f_equal. unfold Rdiv. req. ring.
      + apply HH.
    - cbn [fmap option_fmap option_map]. f_equal. units.
  Qed.
  Lemma ecs_in s (s' : computer') (t : computer) (t' : computer') : rescaled s s' -> wf s -> cut s ->
    compute_ecs s = Some t -> compute_ecs s' = Some t' -> rescaled t t'.
  Proof.
    intros H W HC E E'. pose proof (ecs_pr _ _ E) as P. pose proof (ecs_pr _ _ E') as P'.
    assert (cEcs t' = map (fun e : R => e / tau) (cEcs t)) as HE.
    { apply list_eq. intros i. rewrite list_lookup_fmap. destruct (cParts s !! i) as [p|] eqn:Hp.
      - pose proof (ecs_at s t i p E Hp) as D. assert (cParts s' !! i = Some (part_in u p)) as Hp' by (by rewrite (re_at _ _ _ H), Hp).
        pose proof (ecs_at s' t' i _ E' Hp') as D'. cbn [pT part_in] in D'. destruct (is_active (pT p)) eqn:HT.
        + destruct D as (v & D1 & D2), D' as (v' & D1' & D2'). rewrite (speed_in s s' i p H W Hp), D1 in D1' by (by eapply cut_at).
          cbn [fmap option_fmap option_map] in D1'. injection D1' as <-. rewrite D2'. change (nT Rnum) with R in D2 |- *. rewrite D2, (re_env _ _ _ H). cbn [fmap option_fmap option_map eN0 env_in pN part_in]. f_equal.
          assert (@nabs Rnum (v / tau) = @nabs Rnum v / tau) as ->.
          { cbn [nabs Rnum]. unfold Rdiv. rewrite Rabs_mult. f_equal. apply Rabs_pos_eq. pose proof (Rinv_0_lt_compat _ tau_pos). lra. }
          generalize (@nabs Rnum v). intros av. cbn [nabs Rnum]. units.
        + rewrite D'. change (nT Rnum) with R in D |- *. rewrite D, (re_ecs _ _ _ H), list_lookup_fmap. done.
      - apply lookup_ge_None in Hp.
        assert (length (cEcs t) <= i)%nat as L1 by (rewrite (pr_ecs _ _ P), (P_Search.wf_ecs _ W); done).
        assert (length (cEcs t') <= i)%nat as L2 by (rewrite (pr_ecs _ _ P'), (P_Search.wf_ecs _ (wf_in _ _ H W)), (re_size _ _ H); done).
        apply lookup_ge_None in L1, L2. refine (eq_trans L2 _). symmetry. exact (f_equal (fmap _) L1). }
    rewrite (ecs_rest _ _ E), (ecs_rest _ _ E'). split; cbn; try by apply H; done. all: done.
  Qed.

  Lemma gravity_in (e : environment Rnum cfg) (x : V) : gravity (env_in u e) ((lam : Rnum) *^ x) = (in_acceleration u : Rnum) *^ gravity e x.
  Proof.
    unfold gravity. destruct (cCentral cfg); [|done]. cbn [eL0 eG env_in]. rewrite norm_scal by apply lam_pos.
    assert (nmul (n := Rnum) (lam * eL0 e) (nofZ 1 /. nofZ 100) = lam * nmul (n := Rnum) (eL0 e) (nofZ 1 /. nofZ 100)) as -> by (req; cbn; ring).
    rewrite ltb_scal by apply lam_pos. change (tget d (eG e) (axis_z d)) with (coord (eG e) (axis_z d)).
    change (tget d ((in_acceleration u : Rnum) *^ eG e) (axis_z d)) with (coord ((in_acceleration u : Rnum) *^ eG e) (axis_z d)).
    assert (axis_z d < dimn d)%nat as Hz by (destruct cfg as [[]]; cbn; lia). rewrite coord_scal by done.
    generalize (coord (eG e) (axis_z d)). intros gz. destruct (_ <?. _); apply coord_ext; intros k Hk; rewrite !coord_scal.
    all: try done. 1: rewrite coord_zero by done; req; ring.
    rewrite !coord_div, coord_scal by done. generalize (vnorm x), (coord x k). intros r c. units.
  Qed.
  Lemma vis_in (e : environment Rnum cfg) p j q :
    vis_func (env_in u e) (pX (part_in u p)) (pU (part_in u p)) j (part_in u q) = (in_acceleration u : Rnum) *^ vis_func e (pX p) (pU p) j q.
  Proof.
    unfold vis_func. cbn [pT pX pU part_in eRe eNu eN0 eLambda env_in]. destruct (is_dummy (pT q)).
    { apply coord_ext. intros k Hk. rewrite coord_scal, coord_zero by done. req. ring. }
    rewrite dist_scal by apply lam_pos. rewrite scal_sub. destruct (cHL cfg); [|rewrite weight_scal by apply lam_pos].
    - apply coord_ext. intros k Hk. rewrite !coord_scal by done. generalize (coord (pU q -^ pU p) k), (dist (pX p) (pX q)). intros w r. units.
    - apply coord_ext. intros k Hk. rewrite !coord_scal by done.
      generalize (coord (pU q -^ pU p) k), (weight (dist (pX p) (pX q)) (eRe e)). intros w r. units.
  Qed.
  Lemma explicit_in s (s' : computer') (t : computer) (t' : computer') : rescaled s s' -> wf s -> cut s ->
    compute_explicit s = Some t -> compute_explicit s' = Some t' -> rescaled t t'.
  Proof.
    intros H W HC E E'. pose proof (explicit_pr _ _ E) as P. pose proof (explicit_pr _ _ E') as P'.
    assert (cParts t' = map (part_in u) (cParts t)) as HP.
    { apply (parts_in s); [apply (pr_size _ _ P)|by rewrite (pr_size _ _ P'), (re_size _ _ H)|]. intros i p Hp.
      pose proof (explicit_at s t i p E Hp) as D. assert (cParts s' !! i = Some (part_in u p)) as Hp' by (by rewrite (re_at _ _ _ H), Hp).
      pose proof (explicit_at s' t' i _ E' Hp') as D'. cbn [pT part_in] in D'. cbv zeta in D, D'. destruct (is_newton (pT p)) eqn:HT.
      - assert (is_active (pT p) = true) as HA by (by destruct (pT p)).
        destruct D as (v & D1 & D2), D' as (v' & D1' & D2').
        rewrite (vec_acc_in (in_acceleration u) s s' i p (vis_func (cEnv s) (pX p) (pU p))) in D1'; [|by apply re_seen|done|done|by eapply cut_at|].
        2:{ intros j q. rewrite (re_env _ _ _ H). apply vis_in. }
        rewrite D1 in D1'. cbn [fmap option_fmap option_map] in D1'. injection D1' as <-. rewrite D2, D2', (re_env _ _ _ H). eexists. split; [done|]. f_equal.
        unfold set_U, set_X, part_in. cbn [pX pU pP pN pT eDt env_in]. rewrite gravity_in. generalize (gravity (cEnv s) (pX p)). intros g.
        f_equal; apply coord_ext; intros k Hk; repeat rewrite ?coord_add, ?coord_scal, ?coord_scalr by done; units.
      - rewrite D, D', (re_env _ _ _ H), (re_wall _ _ _ H). eexists. split; [done|]. f_equal. cbn [eDt eT env_in wPos wPre wall_in].
        assert (forall x : R, tau * x / tau = x) as Ht by (intros x; pose proof tau_pos; field; lra). rewrite !Ht.
        generalize (wPos wm (wPre wm (cWall s) (eT (cEnv s)) (eDt (cEnv s))) i (eT (cEnv s)) (eDt (cEnv s))). intros x.
        unfold set_U, set_X, part_in. cbn [pX pU pP pN pT]. f_equal. rewrite scal_sub. apply coord_ext. intros k Hk. rewrite coord_div, !coord_scal, coord_div by done. units. }
    rewrite (explicit_rest _ _ E), (explicit_rest _ _ E'). split; cbn; try by apply H; done.
    - done.
    - rewrite (re_env _ _ _ H), (re_wall _ _ _ H). cbn [eT eDt env_in].
      assert (forall x : R, tau * x / tau = x) as Ht by (intros x; pose proof tau_pos; field; lra). by rewrite !Ht.
    - rewrite (pr_du _ _ P), (pr_du _ _ P'). apply H.
  Qed.

  (** The saved positions that count. *)
  Definition orig_in s (s' : computer') : Prop :=
    forall j q, cParts s !! j = Some q -> is_active (pT q) = true -> cOrigX s' !! j = (fun x : V => (lam : Rnum) *^ x) <$> cOrigX s !! j.
  Lemma savex_in s (s' : computer') (t : computer) (t' : computer') : rescaled s s' ->
    save_x s = Some t -> save_x s' = Some t' -> rescaled t t' /\ orig_in t t'.
  Proof.
    intros H E E'. pose proof (savex_pr _ _ E) as P. pose proof (savex_pr _ _ E') as P'. split.
    - rewrite (savex_rest _ _ E), (savex_rest _ _ E'). split; cbn; try by apply H; done. rewrite (pr_origx _ _ P), (pr_origx _ _ P'). apply H.
    - intros j q Hq HT. rewrite (savex_rest _ _ E) in Hq. cbn in Hq. rewrite (savex_at _ _ _ _ E Hq HT).
      rewrite (savex_at _ _ j (part_in u q) E'); [done|by rewrite (re_at _ _ _ H), Hq|done].
  Qed.
  (** ** The pressure equation *)
  Notation inv2 := (/ (lam * lam)).
  Notation rhs_unit := (mu / (tau * tau)).
  Definition out_of_ppe s i : Prop := exists p, cParts s !! i = Some p /\ ppe_excluded (cEnv s) p = true.
  Lemma out_dec s i : out_of_ppe s i \/ ~ out_of_ppe s i.
  Proof.
    unfold out_of_ppe. destruct (cParts s !! i) as [p|]; [|right; by intros (? & ? & _)].
    destruct (ppe_excluded (cEnv s) p) eqn:E; [left; eauto|right]. intros (p' & [= <-] & H). congruence.
  Qed.
  Lemma row_set_srow al j (v : R) (row : @mrow Rnum) : row_set (N := Rnum) j (al * v) (srow al row) = srow al (row_set (N := Rnum) j v row).
  Proof.
    induction row as [|[k w] row IH]; [done|]. cbn [srow map row_set fst snd]. destruct (j <? k)%nat; [done|]. destruct (j =? k)%nat; [done|].
    cbn [map fst snd]. f_equal. exact IH.
  Qed.
  Lemma row_fold_srow al (es row : @mrow Rnum) :
    foldl (fun (row : @mrow Rnum) e => row_set (N := Rnum) e.1 e.2 row) (srow al row) (srow al es)
    = srow al (foldl (fun (row : @mrow Rnum) e => row_set (N := Rnum) e.1 e.2 row) row es).
  Proof.
    revert row. induction es as [|[j v] es IH]; intros row; [done|]. cbn [srow map foldl fst snd].
    change (map (fun e : nat * R => (e.1, al * e.2)) es) with (srow al es). rewrite row_set_srow. apply IH.
  Qed.
  Lemma coef_in (e : environment Rnum cfg) (r : R) : ppe_coef (env_in u e) (lam * r) = inv2 * ppe_coef e (r : Rnum).
  Proof.
    unfold ppe_coef. cbn [eRe eN0 eLambda env_in]. destruct (cHL cfg); [|rewrite weight_scal by apply lam_pos; generalize (weight (N := Rnum) r (eRe e)); intros w]; units.
  Qed.
  Lemma entries_in s (s' : computer') i p es : rescaled s s' -> wf s -> cut s -> cParts s !! i = Some p -> ppe_excluded (cEnv s) p = false ->
    row_entries s i p = Some es -> row_entries s' i (part_in u p) = Some (srow inv2 es).
  Proof.
    intros H W HC Hp Hx. unfold row_entries. rewrite (re_env _ _ _ H).
    change (ppe_excluded (env_in u (cEnv s)) (part_in u p)) with (ppe_excluded (cEnv s) p). rewrite Hx.
    destruct (list_at s i p W Hp) as [l Hl].
    assert (is_active (pT p) = true) as HA. { unfold ppe_excluded in Hx. by destruct (is_active (pT p)). }
    assert (forall j q, ppe_func (env_in u (cEnv s)) (pX (part_in u p)) j (part_in u q)
      = (srow inv2 (ppe_func (cEnv s) (pX p) j q).1, inv2 * (ppe_func (cEnv s) (pX p) j q).2)) as HF.
    { intros j q. unfold ppe_func. cbn [pT pX pN part_in eN0 eSurf env_in]. destruct (is_dummy (pT q)); [cbn; f_equal; req; ring|].
      rewrite dist_scal, coef_in by apply lam_pos. cbn [fst snd]. f_equal; [|cbn; req; ring]. by destruct (if cSPP cfg then _ else _). }
    rewrite (acc_in (fun a : @mrow Rnum * nT Rnum => (srow inv2 a.1, inv2 * a.2) : @mrow Rnum * nT Rnum) s s' i p ppe_zero ppe_zero ppe_plus ppe_plus
      (ppe_func (cEnv s) (pX p)) (ppe_func (env_in u (cEnv s)) (pX (part_in u p))) l); try done.
    - destruct (acc s i ppe_zero ppe_plus _) as [[es0 c]|]; [|done]. cbn [mbind option_bind fmap option_fmap option_map fst snd].
      intros [= <-]. f_equal. unfold srow. by rewrite map_app.
    - by apply re_seen.
    - unfold ppe_zero. cbn [fst snd]. f_equal. req. cbn. ring.
    - intros [a1 a2] [b1 b2]. unfold ppe_plus. cbn [fst snd]. f_equal; [unfold srow; by rewrite map_app|req; cbn; ring].
    - left. by eapply cut_at.
  Qed.
  Lemma rhs_in s (s' : computer') i p v : rescaled s s' -> wf s -> cut s -> cParts s !! i = Some p ->
    rhs_value s i p = Some v -> rhs_value s' i (part_in u p) = Some (rhs_unit * v.1, in_pressure u * v.2).
  Proof.
    intros H W HC Hp. unfold rhs_value. rewrite (re_env _ _ _ H), (re_ecs _ _ _ H).
    change (ppe_excluded (env_in u (cEnv s)) (part_in u p)) with (ppe_excluded (cEnv s) p).
    destruct (ppe_excluded (cEnv s) p) eqn:Hx. { intros [= <-]. cbn. f_equal. f_equal; req; ring. }
    assert (is_active (pT p) = true) as HA. { unfold ppe_excluded in Hx. by destruct (is_active (pT p)). }
    rewrite (speed_in s s' i p H W Hp) by (by eapply cut_at). destruct (density_speed s i) as [sp|]; [|done].
    cbn [mbind option_bind fmap option_fmap option_map eRho eN0 eDt env_in pP part_in]. destruct (cECS cfg).
    - assert (@lookup nat (nT Rnum) (list (nT Rnum)) _ i (map (fun e : R => e / tau) (cEcs s)) = (fun e : nT Rnum => e / tau : nT Rnum) <$> cEcs s !! i) as -> by apply list_lookup_fmap.
      destruct (cEcs s !! i) as [e|]; [|done]. cbn [mbind option_bind fmap option_fmap option_map].
      intros HV. apply Some_inj in HV. rewrite <- HV. cbn [fst snd]. f_equal. f_equal. units.
    - intros HV. apply Some_inj in HV. rewrite <- HV. cbn [fst snd]. f_equal. f_equal. units.
  Qed.
  Record system_in s (t : computer) (t' : computer') : Prop := {
    sy_x : cXv t' = map (Rmult (in_pressure u)) (cXv t); sy_b : cBv t' = map (Rmult rhs_unit) (cBv t);
    sy_A : same_rows (out_of_ppe s) inv2 (cA t) (cA t');
    sy_x0 : none_there (out_of_ppe s) (cXv t); sy_b0 : none_there (out_of_ppe s) (cBv t) }.
  Lemma set_ppe_in s (s' : computer') (t : computer) (t' : computer') : rescaled s s' -> wf s -> cut s ->
    set_ppe s = Some t -> set_ppe s' = Some t' -> rescaled t t' /\ system_in s t t'.
  Proof.
    intros H W HC E E'. pose proof (wf_in _ _ H W) as W'. pose proof (re_size _ _ H) as HS.
    destruct (set_ppe_defined s W) as (t0 & Et0 & LA). rewrite E in Et0. injection Et0 as <-.
    destruct (set_ppe_defined s' W') as (t0 & Et0 & LA'). rewrite E' in Et0. injection Et0 as <-.
    pose proof (wf_phase _ _ (set_ppe_pr _ _ E) W) as Wt. pose proof (wf_phase _ _ (set_ppe_pr _ _ E') W') as Wt'.
    pose proof (wf_ax _ Wt) as LX. pose proof (wf_ab _ Wt) as LB. pose proof (wf_ax _ Wt') as LX'. pose proof (wf_ab _ Wt') as LB'.
    pose proof (eq_trans LA' (eq_trans HS (eq_sym LA))) as LAA. pose proof (eq_trans LX' (eq_trans LAA (eq_sym LX))) as LXX.
    pose proof (eq_trans LB' (eq_trans LAA (eq_sym LB))) as LBB. pose proof (eq_trans LX LA) as LX1. pose proof (eq_trans LB LA) as LB1.
    split.
    - rewrite (set_ppe_rest _ _ E), (set_ppe_rest _ _ E'). split; cbn; try by apply H; done. all: assumption.
    - assert (forall i p, cParts s !! i = Some p -> exists v es, rhs_value s i p = Some v /\ row_entries s i p = Some es /\
        cBv t !! i = Some v.1 /\ cXv t !! i = Some v.2 /\ cA t !! i = Some (foldl (fun row e => row_set e.1 e.2 row) [] es) /\
        cBv t' !! i = Some (rhs_unit * v.1) /\ cXv t' !! i = Some (in_pressure u * v.2) /\
        cA t' !! i = Some (if ppe_excluded (cEnv s) p then ([(i, 1 : nT Rnum)] : @mrow Rnum) else srow inv2 (foldl (fun row e => row_set e.1 e.2 row) [] es) : @mrow Rnum)) as HH.
      { intros i p Hp. assert (cParts s' !! i = Some (part_in u p)) as Hp' by (by rewrite (re_at _ _ _ H), Hp).
        destruct (set_ppe_at s t i p E Hp) as [(v & V1 & V2 & V3) (es & R1 & R2)].
        destruct (set_ppe_at s' t' i _ E' Hp') as [(v' & V1' & V2' & V3') (es' & R1' & R2')].
        rewrite (rhs_in s s' i p v H W HC Hp V1) in V1'. injection V1' as <-.
        exists v, es. split_and!; try done. refine (eq_trans R2' _). f_equal. destruct (ppe_excluded (cEnv s) p) eqn:Hx.
        - unfold row_entries in R1'. rewrite (re_env _ _ _ H) in R1'.
          change (ppe_excluded (env_in u (cEnv s)) (part_in u p)) with (ppe_excluded (cEnv s) p) in R1'. rewrite Hx in R1'. injection R1' as <-. done.
        - rewrite (entries_in s s' i p es H W HC Hp Hx R1) in R1'. injection R1' as <-. apply (row_fold_srow inv2 es []). }
      assert (forall i, cParts s !! i = None -> (psize s <= i)%nat) as HN by (intros i Hi; by apply lookup_ge_None in Hi).
      split.
      + apply list_eq. intros i. rewrite list_lookup_fmap. destruct (cParts s !! i) as [p|] eqn:Hp.
        * destruct (HH i p Hp) as (v & es & _ & _ & HX1 & HX2 & _ & _ & HX3 & _). refine (eq_trans HX3 _). symmetry. exact (f_equal (fmap (Rmult (in_pressure u))) HX2).
        * specialize (HN i Hp). assert (length (cXv t) <= i)%nat as L1 by (rewrite LX1; exact HN). assert (length (cXv t') <= i)%nat as L2 by (rewrite LXX, LX1; exact HN).
          apply lookup_ge_None in L1, L2. refine (eq_trans L2 _). symmetry. exact (f_equal (fmap (Rmult (in_pressure u))) L1).
      + apply list_eq. intros i. rewrite list_lookup_fmap. destruct (cParts s !! i) as [p|] eqn:Hp.
        * destruct (HH i p Hp) as (v & es & _ & _ & HX1 & HX2 & _ & HX3 & _). refine (eq_trans HX3 _). symmetry. exact (f_equal (fmap (Rmult rhs_unit)) HX1).
        * specialize (HN i Hp). assert (length (cBv t) <= i)%nat as L1 by (rewrite LB1; exact HN). assert (length (cBv t') <= i)%nat as L2 by (rewrite LBB, LB1; exact HN).
          apply lookup_ge_None in L1, L2. refine (eq_trans L2 _). symmetry. exact (f_equal (fmap (Rmult rhs_unit)) L1).
      + split; [exact LAA|]. intros i row Hrow. destruct (cParts s !! i) as [p|] eqn:Hp.
        2:{ specialize (HN i Hp). apply lookup_lt_Some in Hrow. pose proof (Nat.lt_le_trans _ _ _ Hrow (Nat.eq_le_incl _ _ LA)). lia. }
        destruct (HH i p Hp) as (v & es & _ & R1 & _ & _ & HA & _ & _ & HA'). rewrite HA in Hrow. injection Hrow as <-. split.
        * intros (p' & Hp' & Hx). rewrite Hp in Hp'. injection Hp' as <-. rewrite Hx in HA'. unfold row_entries in R1. rewrite Hx in R1. injection R1 as <-.
          exists 1, 1. split; [done|exact HA'].
        * intros Hx. destruct (ppe_excluded (cEnv s) p) eqn:E1; [destruct Hx; by exists p|exact HA'].
      + intros i v (p & Hp & Hx) Hv. destruct (HH i p Hp) as (w & es & R1 & _ & _ & HX & _). unfold rhs_value in R1. rewrite Hx in R1. injection R1 as <-.
        cbn [fst snd] in HX. change (nT Rnum) with R in HX. rewrite HX in Hv. injection Hv as <-. done.
      + intros i v (p & Hp & Hx) Hv. destruct (HH i p Hp) as (w & es & R1 & _ & HX & _). unfold rhs_value in R1. rewrite Hx in R1. injection R1 as <-.
        cbn [fst snd] in HX. change (nT Rnum) with R in HX. rewrite HX in Hv. injection Hv as <-. done.
  Qed.
  Lemma pressure_unit : in_pressure u = rhs_unit / inv2.
  Proof. units. Qed.
  Lemma solve_in s (t : computer) (t' : computer') : rescaled t t' -> system_in s t t' ->
    same_kind (fun v v' : _ => rescaled v v' /\ cXv v' = map (Rmult (in_pressure u)) (cXv v)) (fun e v v' => e = CgNotConverged /\ rescaled v v')
      (solve_ppe t) (solve_ppe t').
  Proof.
    intros H [S1 S2 S3 S4 S5]. unfold solve_ppe. rewrite S1, S2, (re_eps _ _ _ H), pressure_unit.
    assert (0 < rhs_unit) as Hr. { pose proof mu_pos. pose proof tau_pos. apply Rdiv_lt_0_compat; nra. }
    assert (0 < inv2) as Hi. { pose proof lam_pos. apply Rinv_0_lt_compat. nra. }
    rewrite (cg_solve_scal (out_of_ppe s) inv2 rhs_unit Hr Hi (out_dec s) (cA t) (cA t') (cXv t) (cBv t) (cEps t) S3 S4 S5). cbn [fst snd].
    assert (rescaled (with_ppe t (cA t) (cg_solve (cA t) (cXv t) (cBv t) (cEps t)).1 (cBv t))
      (with_ppe t' (cA t') (map (Rmult (rhs_unit / inv2)) (cg_solve (N := Rnum) (cA t) (cXv t) (cBv t) (cEps t)).1) (map (Rmult rhs_unit) (cBv t)))) as HR.
    { split; cbn; try by apply H; done. - by rewrite map_length. - by rewrite map_length. }
    destruct (cg_solve _ _ _ _).2; [|split; [done|split; [done|]]]; done.
  Qed.
  (** ** Pressures *)
  Lemma assign_in s (s' : computer') (t : computer) (t' : computer') : rescaled s s' -> cXv s' = map (Rmult (in_pressure u)) (cXv s) ->
    run_loop (assign_loop cfg wm) (psize s) s = Some t -> run_loop (assign_loop cfg (wall_in u wm)) (psize s') s' = Some t' -> rescaled t t'.
  Proof.
    intros H HX E E'. pose proof (assign_pr _ _ _ E) as P. pose proof (assign_pr _ _ _ E') as P'.
    assert (cParts t' = map (part_in u) (cParts t)) as HP.
    { apply (parts_in s); [apply (pr_size _ _ P)|by rewrite (pr_size _ _ P'), (re_size _ _ H)|]. intros i p Hp.
      pose proof (assign_at s t i p E Hp) as D. assert (cParts s' !! i = Some (part_in u p)) as Hp' by (by rewrite (re_at _ _ _ H), Hp).
      pose proof (assign_at s' t' i _ E' Hp') as D'. cbn [pT part_in] in D'. destruct (is_active (pT p)).
      - destruct D as (x & D1 & ->), D' as (x' & D1' & ->). eexists. split; [done|]. f_equal. unfold set_P, part_in. cbn [pX pU pP pN pT]. f_equal.
        assert (x' = in_pressure u * x) as ->.
        { rewrite HX in D1'. pose proof (f_equal (fmap (Rmult (in_pressure u))) D1) as D2. cbn [fmap option_fmap option_map] in D2. apply Some_inj.
          refine (eq_trans (eq_sym D1') _). refine (eq_trans _ D2). apply (list_lookup_fmap (Rmult (in_pressure u)) (cXv s) i). }
        unfold clamp. rewrite (re_env _ _ _ H). cbn [pN part_in eN0 eSurf env_in].
        assert (@nltb Rnum (in_pressure u * x) (nofZ 0) = @nltb Rnum x (nofZ 0)) as ->.
        { rewrite <- (ltb_scal (in_pressure u) x _ pressure_pos). f_equal. cbn. ring. }
        destruct (_ || _); [|done]. cbn. req. ring.
      - rewrite D, D'. eauto. }
    rewrite (assign_rest _ _ _ E), (assign_rest _ _ _ E'). split; cbn; try by apply H; done. done.
  Qed.
  Lemma explicitp_in s (s' : computer') (t : computer) (t' : computer') : rescaled s s' ->
    run_loop (explicit_loop cfg wm) (psize s) s = Some t -> run_loop (explicit_loop cfg (wall_in u wm)) (psize s') s' = Some t' -> rescaled t t'.
  Proof.
    intros H E E'. pose proof (explicitp_pr _ _ _ E) as P. pose proof (explicitp_pr _ _ _ E') as P'.
    assert (cParts t' = map (part_in u) (cParts t)) as HP.
    { apply (parts_in s); [apply (pr_size _ _ P)|by rewrite (pr_size _ _ P'), (re_size _ _ H)|]. intros i p Hp.
      assert (cParts s' !! i = Some (part_in u p)) as Hp' by (by rewrite (re_at _ _ _ H), Hp).
      rewrite (explicitp_at s t i p E Hp), (explicitp_at s' t' i _ E' Hp'). eexists. split; [done|]. f_equal. unfold set_P, part_in. cbn [pX pU pP pN pT]. f_equal.
      rewrite (re_env _ _ _ H). unfold explicit_pressure. cbn [eRho eN0 eC env_in].
      assert (nmul (n := Rnum) (ndiv (n := Rnum) (mu * eRho (cEnv s)) (eN0 (cEnv s))) (pN p) = mu * nmul (n := Rnum) (ndiv (n := Rnum) (eRho (cEnv s)) (eN0 (cEnv s))) (pN p)) as ->.
      { units. }
      rewrite leb_scal by apply mu_pos. destruct (_ <=?. _); [cbn; req; ring|].
      generalize (nmul (n := Rnum) (ndiv (n := Rnum) (eRho (cEnv s)) (eN0 (cEnv s))) (pN p)). intros rho. units. }
    rewrite (explicitp_rest _ _ _ E), (explicitp_rest _ _ _ E'). split; cbn; try by apply H; done. done.
  Qed.

  (** ** Velocity changes *)
  Lemma kicked_in (dt : R) (a : V) p : kicked (tau * dt : Rnum) ((in_speed u : Rnum) *^ a) (part_in u p) = part_in u (kicked (dt : Rnum) a p).
  Proof.
    unfold kicked, set_U, set_X, part_in. cbn [pX pU pP pN pT]. f_equal; apply coord_ext; intros k Hk; repeat rewrite ?coord_add, ?coord_scal, ?coord_scalr by done; units.
  Qed.
  Lemma mprod_scal (m : mat Rnum d) (c : R) (v : V) : mprod m ((c : Rnum) *^ v) = (c : Rnum) *^ mprod m v.
  Proof.
    apply coord_ext. intros k Hk. rewrite coord_scal by done. unfold mprod, coord. rewrite !tget_tmk by done. cbn [nadd nmul nofZ Rnum].
    assert (forall l (t t' : R), t' = c * t -> (forall j, j ∈ l -> (j < dimn d)%nat) ->
      foldl (fun (t : R) j => t + mget m k j * tget d ((c : Rnum) *^ v) j) t' l = c * foldl (fun (t : R) j => t + mget m k j * tget d v j) t l) as HH.
    { induction l as [|j l IH]; intros t t' Ht Hl; [done|]. cbn [foldl]. apply IH; [|intros; apply Hl; by right].
      change (tget d ((c : Rnum) *^ v) j) with (coord ((c : Rnum) *^ v) j). rewrite coord_scal by (apply Hl; left). rewrite Ht. unfold coord. change (nT Rnum) with R in *. ring. }
    apply HH; [cbn; ring|]. intros j Hj%elem_of_seq. lia.
  Qed.
  Lemma grad_value_in s (s' : computer') i p a : rescaled s s' -> wf s -> cut s -> cParts s !! i = Some p -> pT p = Newton ->
    grad_value s i p = Some a -> grad_value s' i (part_in u p) = Some ((in_speed u : Rnum) *^ a).
  Proof.
    intros H W HC Hp HT. assert (decided s i) as Hd by (eapply cut_at; [done|done|by rewrite HT]). destruct (list_at s i p W Hp) as [l Hl].
    unfold grad_value. rewrite (re_env _ _ _ H). cbn [eRe eDt eRho eN0 env_in]. destruct (cGC cfg).
    - assert (acc s' i mzero madd (gc_matrix_func (pX (part_in u p)) (lam * eRe (cEnv s) : Rnum)) = acc s i mzero madd (gc_matrix_func (pX p) (eRe (cEnv s)))) as ->.
      { assert (forall j q, gc_matrix_func (pX (part_in u p)) (lam * eRe (cEnv s) : Rnum) j (part_in u q) = gc_matrix_func (pX p) (eRe (cEnv s)) j q) as Hg.
        { intros j q. unfold gc_matrix_func. cbn [pX part_in]. rewrite scal_sub, dist_scal, weight_scal by apply lam_pos. rewrite dot_scal.
          generalize (weight (dist (pX q) (pX p)) (eRe (cEnv s))), (vdot (pX q -^ pX p) (pX q -^ pX p)), (pX q -^ pX p). intros w r2 v.
          unfold mscal, mouter, mmk, mget. apply tup_ext. intros a1 Ha1. rewrite !tget_tmk by done. apply tup_ext. intros b1 Hb1. repeat rewrite ?tget_tmk by done.
          change (tget d ((lam : Rnum) *^ v) a1) with (coord ((lam : Rnum) *^ v) a1). change (tget d ((lam : Rnum) *^ v) b1) with (coord ((lam : Rnum) *^ v) b1).
          rewrite !coord_scal by done. unfold coord. units. }
        rewrite (acc_in (fun m : mat Rnum d => m) s s' i p mzero mzero madd madd (gc_matrix_func (pX p) (eRe (cEnv s))) _ l); try done.
        - by destruct (acc _ _ _ _ _).
        - by apply re_seen.
        - by left. }
      destruct (acc s i mzero madd _) as [m|]; [|done]. cbn [mbind option_bind].
      rewrite (vec_acc_in (in_pressure u / lam) s s' i p (gc_func cfg (pP p) (pX p) (eRe (cEnv s)) (minvert m (nofZ (Z.of_nat (dimn d)) /. eN0 (cEnv s)))));
        [|by apply re_seen|done|done|done|].
      2:{ intros j q. unfold gc_func. cbn [pX pT pP part_in]. destruct (is_dummy (pT q)). { apply coord_ext. intros k Hk. rewrite coord_scal, coord_zero by done. req. ring. }
          rewrite scal_sub, dist_scal, weight_scal by apply lam_pos. rewrite dot_scal, mprod_scal.
          generalize (weight (dist (pX q) (pX p)) (eRe (cEnv s))), (vdot (pX q -^ pX p) (pX q -^ pX p)), (mprod (minvert m (nofZ (Z.of_nat (dimn d)) /. eN0 (cEnv s))) (pX q -^ pX p)).
          intros w r2 v. apply coord_ext. intros k Hk. rewrite !coord_scal by done. destruct (cMidpoint cfg); units. }
      destruct (acc s i vzero vadd _) as [v|]; [|done]. cbn [mbind option_bind fmap option_fmap option_map]. intros [= <-]. f_equal.
      apply coord_ext. intros k Hk. rewrite !coord_scal by done. cbn [pN part_in]. units.
    - rewrite (vec_acc_in (in_pressure u / lam) s s' i p (grad_func (pP p) (pX p) (eRe (cEnv s)))); [|by apply re_seen|done|done|done|].
      2:{ intros j q. unfold grad_func. cbn [pX pT pP part_in]. destruct (is_dummy (pT q)). { apply coord_ext. intros k Hk. rewrite coord_scal, coord_zero by done. req. ring. }
          rewrite scal_sub, dot_scal. cbn [nsqrt Rnum]. rewrite sqrt_scal, weight_scal by apply lam_pos.
          generalize (weight (N := Rnum) (R_sqrt.sqrt (vdot (pX q -^ pX p) (pX q -^ pX p))) (eRe (cEnv s))), (vdot (pX q -^ pX p) (pX q -^ pX p)), (pX q -^ pX p).
          intros w r2 v. apply coord_ext. intros k Hk. rewrite !coord_scal by done. units. }
      destruct (acc s i vzero vadd _) as [v|]; [|done]. cbn [mbind option_bind fmap option_fmap option_map]. intros [= <-]. f_equal.
      apply coord_ext. intros k Hk. rewrite !coord_scal by done. units.
  Qed.
  Lemma gradient_in s (s' : computer') (t : computer) (t' : computer') : rescaled s s' -> wf s -> cut s ->
    modify_by_gradient s = Some t -> modify_by_gradient s' = Some t' -> rescaled t t'.
  Proof.
    intros H W HC E E'. pose proof (gradient_pr _ _ E) as P. pose proof (gradient_pr _ _ E') as P'.
    assert (cParts t' = map (part_in u) (cParts t)) as HP.
    { apply (parts_in s); [apply (pr_size _ _ P)|by rewrite (pr_size _ _ P'), (re_size _ _ H)|]. intros i p Hp.
      pose proof (gradient_at s t i p E Hp) as D. assert (cParts s' !! i = Some (part_in u p)) as Hp' by (by rewrite (re_at _ _ _ H), Hp).
      pose proof (gradient_at s' t' i _ E' Hp') as D'. cbn [pT part_in] in D'. destruct (is_newton (pT p)) eqn:HT.
      - apply is_newton_true in HT. destruct D as (a & D1 & ->), D' as (a' & D1' & ->). rewrite (grad_value_in s s' i p a H W HC Hp HT D1) in D1'. injection D1' as <-.
        eexists. split; [done|]. f_equal. rewrite (re_env _ _ _ H). cbn [eDt env_in]. apply kicked_in.
      - rewrite D, D'. eauto. }
    rewrite (gradient_rest _ _ E), (gradient_rest _ _ E'). split; cbn; try by apply H; done.
    - done.
    - rewrite (pr_du _ _ P), (pr_du _ _ P'). apply H.
  Qed.
  (** ** Stabilisation *)
  Lemma ds_term_in (d2 : R) (dx dx0 : V) :
    ds_term (lam * lam * d2 : Rnum) ((lam : Rnum) *^ dx) ((lam : Rnum) *^ dx0) = (lam : Rnum) *^ ds_term (d2 : Rnum) dx dx0.
  Proof.
    unfold ds_term. rewrite norm_scal by apply lam_pos.
    assert ((lam : Rnum) *^ dx0 /^ (lam * vnorm dx0 : Rnum) = dx0 /^ vnorm dx0) as ->.
    { apply coord_ext. intros k Hk. rewrite !coord_div, coord_scal by done. generalize (vnorm dx0), (coord dx0 k). intros r c. units. }
    generalize (dx0 /^ vnorm dx0). intros e.
    assert (forall a b : V, vdot ((lam : Rnum) *^ a) b = lam * vdot a b) as Hl by (intros a b; rewrite !vdot_inner, inner_scal_l; done).
    rewrite Hl. set (rp := vdot dx e).
    assert ((lam : Rnum) *^ dx -^ (lam * rp : Rnum) *^ e = (lam : Rnum) *^ (dx -^ rp *^ e)) as ->.
    { apply coord_ext. intros k Hk. rewrite coord_sub, !coord_scal, coord_sub, !coord_scal by done. req. ring. }
    rewrite dot_scal. generalize (vdot (dx -^ rp *^ e) (dx -^ rp *^ e)). intros r2.
    assert (@nsub Rnum (lam * lam * d2) (lam * lam * r2) = lam * lam * (d2 - r2)) as -> by (req; cbn; ring).
    cbn [nsqrt Rnum]. rewrite sqrt_scal by apply lam_pos. cbn [nsub Rnum]. generalize (R_sqrt.sqrt (d2 - r2)). intros q.
    apply coord_ext. intros k Hk. rewrite !coord_scal by done. req. ring.
  Qed.
  Lemma ds_value_in s (s' : computer') i p a : rescaled s s' -> orig_in s s' -> wf s -> lists_enabled s -> cParts s !! i = Some p -> pT p = Newton ->
    ds_value s i p = Some a -> ds_value s' i (part_in u p) = Some ((in_speed u : Rnum) *^ a).
  Proof.
    intros H HO W HL Hp HT. destruct (list_at s i p W Hp) as [l Hl]. unfold ds_value. rewrite (re_env _ _ _ H). cbn [eL0 eMaxDx eDt eN0 env_in].
    rewrite (HO i p Hp) by (by rewrite HT). destruct (cOrigX s !! i) as [x0|]; [|done]. cbn [mbind option_bind fmap option_fmap option_map].
    assert (forall x : V, (lam : Rnum) *^ (vzero : V) = vzero) as HZ.
    { intros x. apply coord_ext. intros k Hk. rewrite coord_scal, coord_zero by done. req. ring. }
    set (d2 := (eL0 (cEnv s) -. eMaxDx (cEnv s)) ×. (eL0 (cEnv s) -. eMaxDx (cEnv s))).
    assert (nmul (n := Rnum) (nsub (n := Rnum) (lam * eL0 (cEnv s)) (lam * eMaxDx (cEnv s))) (nsub (n := Rnum) (lam * eL0 (cEnv s)) (lam * eMaxDx (cEnv s))) = lam * lam * d2) as ->.
    { unfold d2. req. cbn. ring. }
    rewrite (acc_in (fmap (fun v : V => (lam : Rnum) *^ v)) s s' i p (Some vzero) (Some vzero) (ds_plus cfg) (ds_plus cfg) (ds_func s x0 (pX p) d2) _ l); try done.
    - destruct (acc s i _ _ _) as [[v|]|]; try done. cbn [mbind option_bind fmap option_fmap option_map]. intros [= <-]. f_equal.
      apply coord_ext. intros k Hk. rewrite !coord_scal by done. units.
    - by apply re_seen.
    - cbn. f_equal. by apply HZ.
    - intros [a1|] [b1|]; try done. cbn. f_equal. apply coord_ext. intros k Hk. rewrite coord_add, !coord_scal, coord_add by done. req. ring.
    - intros j q Hj Hq. unfold ds_func. cbn [pT pX part_in]. destruct (is_dummy (pT q)) eqn:HD; [cbn; f_equal; by rewrite HZ|].
      destruct (negb false && _); [|cbn; f_equal; by rewrite HZ]. rewrite scal_sub, dot_scal, ltb_scal by (pose proof lam_pos; nra).
      destruct (_ <?. _); [|cbn; f_equal; by rewrite HZ]. rewrite Nat2Z.id. rewrite (HO j q Hq).
      + destruct (cOrigX s !! j) as [xx0|]; [|done]. cbn [mbind option_bind fmap option_fmap option_map]. f_equal. rewrite scal_sub. apply ds_term_in.
      + destruct (HL i p l j Hp HT Hl Hj) as (q' & Hq' & Hen). assert (q' = q) as -> by congruence. destruct (pT q); done.
    - intros HS q HTq. unfold ds_func. cbn [pT part_in]. rewrite HTq, HS. cbn. f_equal. by rewrite HZ.
    - right. intros HS a1 q HTq. unfold ds_func. rewrite HTq, HS. cbn. destruct a1 as [v|]; [|done]. cbn. f_equal. apply vadd_0_r.
  Qed.
  Lemma stabilize_in s (s' : computer') (t : computer) (t' : computer') : rescaled s s' -> orig_in s s' -> wf s -> lists_enabled s ->
    stabilize s = Some t -> stabilize s' = Some t' -> rescaled t t'.
  Proof.
    intros H HO W HL E E'. pose proof (stabilize_pr _ _ E) as P. pose proof (stabilize_pr _ _ E') as P'.
    assert (cParts t' = map (part_in u) (cParts t)) as HP.
    { apply (parts_in s); [apply (pr_size _ _ P)|by rewrite (pr_size _ _ P'), (re_size _ _ H)|]. intros i p Hp.
      pose proof (stabilize_at s t i p E Hp) as D. assert (cParts s' !! i = Some (part_in u p)) as Hp' by (by rewrite (re_at _ _ _ H), Hp).
      pose proof (stabilize_at s' t' i _ E' Hp') as D'. cbn [pT part_in] in D'. destruct (is_newton (pT p)) eqn:HT.
      - apply is_newton_true in HT. destruct D as (a & D1 & ->), D' as (a' & D1' & ->). rewrite (ds_value_in s s' i p a H HO W HL Hp HT D1) in D1'. injection D1' as <-.
        eexists. split; [done|]. f_equal. rewrite (re_env _ _ _ H). cbn [eDt env_in]. apply kicked_in.
      - rewrite D, D'. eauto. }
    rewrite (stabilize_rest _ _ E), (stabilize_rest _ _ E'). split; cbn; try by apply H; done.
    - done.
    - rewrite (pr_du _ _ P), (pr_du _ _ P'). apply H.
  Qed.

  (** ** Search *)
  Section Grid.
    Context (G : grid Rnum d).
    Lemma in_block x : block_of d (grid_in u G) ((lam : Rnum) *^ x) = block_of d G x.
    Proof.
      unfold block_of. assert (forall k, k ∈ seq 0 (dimn d) -> block_axis d (grid_in u G) ((lam : Rnum) *^ x) k = block_axis d G x k) as H.
      { intros k Hk%elem_of_seq. unfold block_axis, floor_div. cbn [g_origin g_len grid_in].
        change (tget d ?y k) with (coord y k). rewrite !coord_scal by lia. f_equal. generalize (coord x k), (coord (g_origin d G) k), (g_len d G). intros a b c. units. }
      by apply mapM_ext_in.
    Qed.
    Lemma in_scan nb fuel v i : scan d (grid_in u G) nb fuel v i = scan d G nb fuel v i.
    Proof.
      revert v i. induction fuel as [|fuel IH]; intros v i; [done|]. simpl.
      destruct (_ && _); [|done]. destruct (nb !! _) as [nx|]; [|done]. cbn [mbind option_bind g_shape grid_in].
      destruct (in_range _ nx); [|apply IH]. unfold particle_count. cbn [g_data grid_in].
      destruct (c_cnt <$> _); [|done]. apply IH.
    Qed.
    Lemma in_increment it : increment d (grid_in u G) it = increment d G it.
    Proof. unfold increment, particle_count. cbn [g_data grid_in]. by rewrite !in_scan. Qed.
    Lemma in_collect fuel it : collect d (grid_in u G) fuel it = collect d G fuel it.
    Proof.
      revert it. induction fuel as [|fuel IH]; intros it; [done|]. simpl. rewrite in_increment.
      change (deref d (grid_in u G) it) with (deref d G it). destruct (_ =? _)%nat; [done|].
      destruct (deref d G it); [|done]. simpl. destruct (increment d G it) as [it'|]; [|done]. simpl. by rewrite IH.
    Qed.
    Lemma in_around x : around d (grid_in u G) ((lam : Rnum) *^ x) = around d G x.
    Proof.
      unfold around, cbegin. rewrite in_block. destruct (block_of d G x) as [bl|]; [|done]. cbn [mbind option_bind].
      change (particle_count d (grid_in u G)) with (particle_count d G). change (iter_fuel d (grid_in u G)) with (iter_fuel d G).
      destruct (_ !! _) as [b0|]; [|done]. cbn [mbind option_bind].
      destruct (particle_count d G b0) as [n|]; [|done]. cbn [mbind option_bind]. rewrite in_increment.
      destruct (if (n =? 0)%nat then _ else _) as [it|]; [|done]. cbn [mbind option_bind]. apply in_collect.
    Qed.
    Lemma in_clear : clear d (grid_in u G) = grid_in u <$> clear d G.
    Proof. unfold clear. cbn [g_data g_shape grid_in]. by destruct (foldM _ _ _). Qed.
    Lemma in_store x i : store d (grid_in u G) ((lam : Rnum) *^ x) i =
      match store d G x i with
      | Stored _ g' => Stored d (grid_in u g') | Rejected _ => Rejected d
      | Overflow _ g' => Overflow d (grid_in u g') | StoreUndef _ => StoreUndef d end.
    Proof.
      unfold store. rewrite in_block. destruct (block_of d G x) as [bl|]; [|done]. cbn [g_data g_shape g_cap grid_in].
      destruct (in_range _ bl); [|done]. destruct (g_data d G !! bl); [|done]. destruct (_ <=? _)%nat; [done|]. by destruct (_ <? _)%nat.
    Qed.
  End Grid.
  Lemma re_with_grid s (s' : computer') G : rescaled s s' -> rescaled (with_grid s G) (with_grid s' (grid_in u G)).
  Proof. intros H. split; cbn; try by apply H; done. done. Qed.
  Lemma near_in s (s' : computer') i p js : rescaled s s' -> near s' i (part_in u p) js = near s i p js.
  Proof.
    intros H. induction js as [|j js IH]; [done|]. cbn [near]. rewrite IH. destruct (j =? i)%nat; [done|].
    rewrite (re_at _ _ _ H). destruct (cParts s !! j) as [q|]; [|done]. cbn [mbind option_bind fmap option_fmap option_map].
    destruct (near s i p js); [|done]. rewrite (re_env _ _ _ H). cbn [mbind option_bind pT pX part_in eNL env_in].
    by rewrite dist_scal, ltb_scal by apply lam_pos.
  Qed.
  Lemma store_one_in s (s' : computer') i : rescaled s s' ->
    same_kind rescaled (fun e t t' => e = TooManyParticles /\ rescaled t t') (store_one s i) (store_one s' i).
  Proof.
    intros H. unfold store_one. rewrite (re_at _ _ _ H). destruct (cParts s !! i) as [p|]; [|done].
    cbn [fmap option_fmap option_map pT pX part_in]. destruct (is_disabled (pT p)); [done|].
    rewrite (re_grid _ _ _ H), in_store. destruct (store d (cGrid s) (pX p) i) as [G| |G|].
    - by apply re_with_grid.
    - split; cbn; try by apply H; done. rewrite (re_parts _ _ _ H). symmetry. exact (list_fmap_insert (part_in u) (cParts s) i (disable p)).
    - split; [done|]. split; [done|]. by apply re_with_grid.
    - done.
  Qed.
  Lemma store_all_in l s (s' : computer') : rescaled s s' ->
    same_kind rescaled (fun e t t' => e = TooManyParticles /\ rescaled t t') (store_all l s) (store_all l s').
  Proof.
    revert s s'. induction l as [|i l IH]; intros s s' H; [done|]. cbn [store_all].
    eapply same_kind_bind; [by apply store_one_in|]. intros t t' Ht. by apply IH.
  Qed.
  Lemma neighbor_loop_in n s (s' : computer') : rescaled s s' ->
    opt_rel rescaled (run_loop (neighbor_loop cfg wm) n s) (run_loop (neighbor_loop cfg (wall_in u wm)) n s').
  Proof.
    intros H. apply run_loop_sim_eq; [| |done]; clear H s s'.
    - intros i s s' _ H. cbn [l_compute neighbor_loop]. rewrite (re_at _ _ _ H).
      destruct (cParts s !! i) as [p|]; [|done]. cbn [mbind option_bind fmap option_fmap option_map].
      cbn [pT part_in]. destruct (is_disabled (pT p)); [done|].
      rewrite (re_grid _ _ _ H). cbn [pX part_in]. rewrite in_around.
      destruct (around d (cGrid s) (pX p)) as [js|]; [|done]. cbn [mbind option_bind].
      change (mkParticle _ _ _ _ _) with (part_in u p). rewrite (near_in _ _ _ _ _ H).
      by rewrite (re_neighbor _ _ _ H).
    - intros i v s s' H. cbn [l_write neighbor_loop]. destruct v; [|done].
      rewrite (re_neighbor _ _ _ H). split; cbn; try by apply H; done. done.
  Qed.
  Lemma search_in s (s' : computer') : rescaled s s' ->
    same_kind rescaled (fun e t t' => e = TooManyParticles /\ rescaled t t') (search_neighbor s) (search_neighbor s').
  Proof.
    intros H. unfold search_neighbor. rewrite (re_grid _ _ _ H), in_clear, (re_size _ _ H).
    destruct (clear d (cGrid s)) as [G|]; [|done]. cbn [fmap option_fmap option_map].
    eapply same_kind_bind; [by apply store_all_in, re_with_grid|].
    intros t t' Ht. rewrite (re_size _ _ Ht). by apply same_kind_opt, neighbor_loop_in.
  Qed.
End Units.

(** Property theorems: the gauges of zhouetal1999.py (C82). *)
From Coq Require Import String Ascii.
From Verif Require Import S_Terms.
From Verif Require Import S_Frame S_Outcome S_Bench S_Mirror P_Real P_Lattice T_Csv T_Env T_Life T_Main T_Rest T_Bench M_Post S_Post T_Post S_Gauge.
From stdpp Require Import list.
Open Scope R_scope.

Lemma level_spec (l : list Rnum) : let h : R := foldl (fun m y : Rnum => if m <?. y then y else m) (nofZ 0) l in
  0 <= h /\ (h = 0 \/ In h l) /\ forall x, In x l -> x <= h.
Proof.
  pose proof (py_max_spec ((0 : Rnum) :: l)) as H. cbn [py_max] in H. cbn zeta. change (nofZ (n := Rnum) 0) with (0 : Rnum).
  destruct H as [H1 H2]. split; [apply H2; by left|]. split; [destruct H1 as [H1|H1]; [by left; symmetry|by right]|]. intros x Hx. apply H2. by right.
Qed.
Lemma get_type {N : num} {d : dim} (print_num : N -> text) (p : particle N d) :
  py_get (zip (columns d) (fields print_num p)) (lit "Type") = Some (print_int (Z_of_ptype (pT p))).
Proof. by destruct d. Qed.

Section Gauge.
  Context {cfg : config} (HD : cDim cfg = D2) (print_num : Rnum -> text) (py_float : text -> option Rnum) (shown : R -> R).
  Notation part := (particle Rnum (cDim cfg)).
  Definition row_of (p : part) : Rnum * Rnum * Rnum * Rnum * Z :=
    (shown (coord (pX p) 0) : Rnum, shown (coord (pX p) 1) : Rnum, shown (pP p) : Rnum, shown (pN p) : Rnum, Z_of_ptype (pT p)).
  Lemma gauge_rows (ps : list part) :
    (forall p v, p ∈ ps -> value_of p v -> plain (print_num v) /\ py_float (print_num v) = Some (shown v)) ->
    mapM (fun row =>
        x ← py_get row (lit "x") ≫= py_float; z ← py_get row (lit "z") ≫= py_float; p ← py_get row (lit "p") ≫= py_float;
        n ← py_get row (lit "n") ≫= py_float; ty ← py_get row (lit "Type") ≫= py_int; Some (x, z, p, n, ty)) (py_dicts (write_csv print_num ps))
    = Some (map row_of ps).
  Proof.
    intros Hv. rewrite dicts_write by (intros p v Hp Hpv; by apply (Hv p v)).
    induction ps as [|p ps IH]; [done|]. change (map ?f (p :: ps)) with (f p :: map f ps). cbn [mapM].
    destruct (get_plane print_num p HD) as (-> & -> & -> & ->). rewrite get_type.
    assert (p ∈ p :: ps) as Hin by left.
    destruct (Hv p (tget _ (pX p) 0) Hin) as [_ E0]. { right; right. exists 0%nat. split; [rewrite HD; cbn; lia|by left]. }
    destruct (Hv p (tget _ (pX p) 1) Hin) as [_ E1]. { right; right. exists 1%nat. split; [rewrite HD; cbn; lia|by left]. }
    destruct (Hv p (pP p) Hin) as [_ EP]; [by left|]. destruct (Hv p (pN p) Hin) as [_ EN]; [right; by left|].
    cbn [mbind option_bind]. rewrite E0. cbn [mbind option_bind]. rewrite E1. cbn [mbind option_bind]. rewrite EP. cbn [mbind option_bind]. rewrite EN. cbn [mbind option_bind].
    rewrite py_int_print. cbn [mbind option_bind].
    rewrite IH; [done|]. intros q v Hq. apply Hv. by right.
  Qed.

  Lemma level_rows X l_0 min_n (ps : list part) :
    level_at shown X l_0 (fun p => min_n < shown (pN p)) ps (py_level (N := Rnum) (map row_of ps) X l_0 min_n).
  Proof.
    unfold py_level. set (L := map _ (filter _ _)).
    assert (forall h, In h L <-> exists p, p ∈ ps /\ min_n < shown (pN p) /\ at_gauge shown X l_0 p /\ h = shown (coord (pX p) 1)) as HL.
    { intros h. unfold L. rewrite in_map_iff. split.
      - intros (r & <- & Hin%elem_of_list_In). apply elem_of_list_filter in Hin as [Hc Hin]. apply elem_of_list_fmap in Hin as (p & -> & Hp).
        cbn in Hc. unfold at_gauge. exists p. destruct (Rlt_dec _ _); [|done]. destruct (Rlt_dec min_n _); [|done]. done.
      - intros (p & Hp & Hn & Hg & ->). exists (row_of p). split; [done|]. apply elem_of_list_In, elem_of_list_filter. split; [|by apply elem_of_list_fmap; eauto].
        cbn. unfold at_gauge in Hg. destruct (Rlt_dec _ _) as [|C]; [|by exfalso; apply C]. by destruct (Rlt_dec min_n _). }
    destruct (level_spec L) as (H0 & H1 & H2). split; [exact H0|]. split.
    - destruct H1 as [H1|H1]; [by left|]. right. by apply HL.
    - intros p Hp Hn Hg. apply H2, HL. eauto.
  Qed.
  Definition sensor_rows (Z_P2 D : Rnum) (ps : list part) : list Rnum :=
    map (fun '(x, z, p, n, ty) => p) (filter (fun '(x, z, p, n, ty) => (x <?. nofZ 0) && Z.eqb ty 1 && (nabs (z -. Z_P2) <?. D /. nofZ 2)) (map row_of ps)).
  Lemma foldl_Rplus (l : list R) : forall a, foldl Rplus a l = a + rsum l.
  Proof. induction l as [|x l IH]; intros a; cbn; [lra|]. rewrite IH. unfold rsum. lra. Qed.
  Lemma sensor_sum (Z_P2 D : R) (ps : list part) : Forall (fun p => int_type (pT p)) ps ->
    sensed shown Z_P2 D ps (length (sensor_rows Z_P2 D ps)) (rsum (sensor_rows Z_P2 D ps)).
  Proof.
    induction 1 as [|p ps Hty _ IH]; [constructor|]. unfold sensor_rows. change (map row_of (p :: ps)) with (row_of p :: map row_of ps).
    assert (at_sensor shown Z_P2 D p <-> ((shown (coord (pX p) 0) : Rnum) <?. nofZ 0) && Z.eqb (Z_of_ptype (pT p)) 1
        && (nabs ((shown (coord (pX p) 1) : Rnum) -. (Z_P2 : Rnum)) <?. (D : Rnum) /. nofZ 2) = true) as HA.
    { unfold at_sensor. destruct Hty as (z & _ & Hz). pose proof Hz as Ez%type_is_iff.
      assert (pT p = Wall <-> Z_of_ptype (pT p) = 1%Z) as ->.
      { split; [by intros ->|]. destruct Hz as [[-> ->]|[[-> ->]|[[-> ->]|[[-> ->]|[Hz ->]]]]]; cbn; intros; [done|done|done|done|lia]. }
      rewrite !andb_true_iff, Z.eqb_eq. cbn. destruct (Rlt_dec (shown (coord (pX p) 0)) 0), (Rlt_dec _ (D / 2)); intuition congruence. }
    destruct (_ && _ && _) eqn:E in HA.
    - rewrite filter_cons_True by (cbn; cbn in E; rewrite E; done). cbn [map length rsum foldr]. constructor; [by apply HA|]. exact IH.
    - rewrite filter_cons_False by (cbn; cbn in E; rewrite E; intros []). apply sensed_out; [|exact IH]. intros C%HA. done.
  Qed.
  (** C82.  What the script reports for a table written by the program, in a scene whose reference density is [n0]: the levels of the particles whose
      density is above a tenth of it, and the mean pressure at the sensor; it fails only if there is no wall particle at the sensor. *)
  Theorem C82_gauges (X_H1 X_H2 Z_P2 D l_0 r_e n0 : R) (ps : list part) :
    py_n0 (N := Rnum) r_e = Some (n0 : Rnum) ->
    (forall p v, p ∈ ps -> value_of p v -> plain (print_num v) /\ py_float (print_num v) = Some (shown v)) ->
    Forall (fun p => int_type (pT p)) ps ->
    match py_gauges py_float X_H1 X_H2 Z_P2 D l_0 r_e (write_csv print_num ps) with
    | Some (h1, h2, p2) =>
        level_at shown X_H1 l_0 (fun p => n0 / 10 < shown (pN p)) ps h1 /\ level_at shown X_H2 l_0 (fun p => n0 / 10 < shown (pN p)) ps h2 /\
        exists k v, sensed shown Z_P2 D ps (S k) v /\ p2 = v / INR (S k)
    | None => sensed shown Z_P2 D ps 0 0
    end.
  Proof.
    intros H0 Hv Hty. unfold py_gauges. rewrite H0. cbn [mbind option_bind]. rewrite (gauge_rows ps Hv). cbn [mbind option_bind].
    pose proof (sensor_sum Z_P2 D ps Hty) as HS. unfold sensor_rows in HS. destruct (map _ (filter _ _)) as [|x l]; [exact HS|].
    assert ((n0 : Rnum) ×. (nofZ 1 /. nofZ 10) = (n0 / 10)%R) as -> by (cbn; lra).
    split; [apply level_rows|]. split; [apply level_rows|]. exists (length l), (rsum (x :: l)). split; [exact HS|].
    rewrite INR_IZR_INZ. cbn [length]. cbn. rewrite Rplus_0_l. rewrite foldl_Rplus. done.
  Qed.
End Gauge.

Section Levels.
  Context {cfg : config} (HD : cDim cfg = D2) (HS : cSPP cfg = true) (print_num : Rnum -> text) (py_float : text -> option Rnum) (shown : R -> R).
  Context (maxDt courant g rho nu surf : Rnum) (ratio : R) (c : Rnum) (l_0 : R) (minX maxX : vec Rnum (cDim cfg)) (env : environment Rnum cfg).
  Context (Henv : new_env (N := Rnum) cfg maxDt courant g rho nu surf ratio c l_0 minX maxX = Some env) (Hl : 0 < l_0) (Hr : 1 < ratio).
  Context (Hsh : forall v, Rabs (shown v - v) <= / 10 ^ 5 * Rabs v).
  Notation part := (particle Rnum (cDim cfg)).
  Lemma levels_fluid cond (particles : list part) (s s' : computer cfg (fixed_walls cfg (map pX particles))) n X h :
    initial cond env particles s -> stepped s (S n) s' ->
    (forall p, p ∈ particles -> at_gauge shown X l_0 p -> shown (coord (pX p) 1) <= 0) ->
    level_at shown X l_0 (fun p => eN0 env / 10 < shown (pN p)) (cParts s') h -> level_at shown X l_0 (fun p => pT p = Newton) (cParts s') h.
  Proof.
    intros Hi Hn Hcol (H0 & H1 & H2). destruct (initial_reachable _ _ _ _ Hi) as [Hre Hp].
    assert (square_ground env) as Hsq by (by left).
    split; [exact H0|]. split.
    - destruct H1 as [|(p & Hin & Hd & Hg & Ez)]; [by left|]. destruct (decide (pT p = Newton)) as [Ht|Ht]; [right; by exists p|]. left.
      pose proof Hin as Hin'. apply elem_of_list_lookup in Hin' as [i Hp'].
      pose proof (stepped_types _ _ _ Hn) as F. rewrite Hp in F. destruct (Forall2_lookup_r _ _ _ _ _ F Hp') as (p0 & Hp0 & _).
      assert (pX p = pX p0) as EX. { eapply C26_position; [exact Hi|exact Hn|exact Hp0|exact Hp'|exact Ht|right; lia]. }
      assert (shown (coord (pX p0) 1) <= 0) as Hle. { apply Hcol; [by eapply elem_of_list_lookup_2|]. unfold at_gauge in *. by rewrite <- EX. }
      rewrite <- EX in Hle. lra.
    - intros p Hin Ht Hg. apply H2; [done| |done].
      inversion Hn as [|n' s1 s2 Hn1 Hf]; subst. unfold forward in Hf. destruct (determine_dt s1) as [dt|]; [|discriminate Hf].
      assert (eN0 env <= pN p) as HN. { eapply C81_no_deficit; [exact Hsq|exact HS|eapply stepped_reachable; [exact Hre|exact Hn1]|exact Hf|exact Hin| |]; rewrite Ht; discriminate. }
      assert (0 < eN0 env) as HP.
      { apply (C13_positive_iff _ _ _ _ _ _ _ _ _ _ _ _ Henv Hl).
        assert (eRe env = ratio * l_0 /\ eL0 env = l_0) as [-> ->].
        { pose proof Henv as E. revert E. unfold new_env. destruct (nceil _); [|done]. destruct (_ || _)%bool; [done|]. intros [= <-]. done. }
        nra. }
      specialize (Hsh (pN p)). rewrite (Rabs_pos_eq (pN p)) in Hsh by lra. apply Raux.Rabs_le_inv in Hsh. lra.
  Qed.
  (** C82.  In a build with virtual surface particles, on any file but the first, the script reports at each gauge where at first nothing was above the
      floor the height of the highest fluid particle there, however isolated: its threshold for the density leaves out no splash.  Walls, and
      particles that have left the domain, do not disturb it. *)
  Theorem C82_levels cond (particles : list part) (s s' : computer cfg (fixed_walls cfg (map pX particles))) n (X_H1 X_H2 Z_P2 D : R) :
    initial cond env particles s -> stepped s (S n) s' -> Forall (fun p => int_type (pT p)) particles ->
    (forall X p, X = X_H1 \/ X = X_H2 -> p ∈ particles -> at_gauge shown X l_0 p -> shown (coord (pX p) 1) <= 0) ->
    (forall p v, p ∈ cParts s' -> value_of p v -> plain (print_num v) /\ py_float (print_num v) = Some (shown v)) ->
    match py_gauges py_float X_H1 X_H2 Z_P2 D l_0 ratio (write_csv print_num (cParts s')) with
    | Some (h1, h2, p2) =>
        level_at shown X_H1 l_0 (fun p => pT p = Newton) (cParts s') h1 /\ level_at shown X_H2 l_0 (fun p => pT p = Newton) (cParts s') h2 /\
        exists k v, sensed shown Z_P2 D (cParts s') (S k) v /\ p2 = v / INR (S k)
    | None => sensed shown Z_P2 D (cParts s') 0 0
    end.
  Proof.
    intros Hi Hn Hty Hcol Hv. destruct (initial_reachable _ _ _ _ Hi) as [Hre Hp].
    assert (Forall (fun p => int_type (pT p)) (cParts s')) as Hty'.
    { pose proof (stepped_types _ _ _ Hn) as F. rewrite Hp in F. apply Forall_lookup. intros i p' Hp'.
      destruct (Forall2_lookup_r _ _ _ _ _ F Hp') as (p0 & Hp0 & [-> | ->]); [by eapply (Forall_lookup_1 _ _ _ _ Hty)|].
      exists 3%Z. split; [lia|]. unfold type_is. tauto. }
    pose proof (C82_gauges HD print_num py_float shown X_H1 X_H2 Z_P2 D l_0 ratio (eN0 env) (cParts s')
      (C81_reference_density cfg _ _ _ _ _ _ _ _ _ _ _ _ HD Henv Hl) Hv Hty') as HG.
    destruct (py_gauges _ _ _ _ _ _ _ _) as [[[h1 h2] p2]|]; [|exact HG]. destruct HG as (G1 & G2 & G3).
    split; [|split; [|exact G3]]; eapply levels_fluid; eauto.
  Qed.
End Levels.

(** C82, for the scene of its generator: tank of width W, water of width w at its right end, gauges on the dry floor left of it. *)
Theorem C82_zhou hs hl ecs gc ds mid central (print_num : Rnum -> text) (py_float : text -> option Rnum) (shown : R -> R) maxDt courant g rho nu surf ratio c (l_0 H W h w : R) sc env cond n
    (X_H1 X_H2 Z_P2 D : R) :
  let cfg := plane false hs hl ecs gc ds true mid central in
  zhou_et_al (N := Rnum) l_0 H W h w = Some sc -> 0 < l_0 -> 0 < w <= W -> 0 < H -> 1 < ratio ->
  new_env (N := Rnum) cfg maxDt courant g rho nu surf ratio c l_0 (scMin sc) (scMax sc) = Some env ->
  (forall X, X = X_H1 \/ X = X_H2 -> l_0 / 2 <= X /\ X + l_0 / 2 <= (1 - / 10 ^ 5) * (W - w - l_0)) ->
  (forall v, Rabs (shown v - v) <= / 10 ^ 5 * Rabs v) ->
  forall s s' : computer cfg (fixed_walls cfg (map pX (scParts sc))), initial cond env (scParts sc) s -> stepped s (S n) s' ->
  (forall p v, p ∈ cParts s' -> value_of p v -> plain (print_num v) /\ py_float (print_num v) = Some (shown v)) ->
  match py_gauges py_float X_H1 X_H2 Z_P2 D l_0 ratio (write_csv print_num (cParts s')) with
  | Some (h1, h2, p2) =>
      level_at shown X_H1 l_0 (fun p => pT p = Newton) (cParts s') h1 /\ level_at shown X_H2 l_0 (fun p => pT p = Newton) (cParts s') h2 /\
      exists k v, sensed shown Z_P2 D (cParts s') (S k) v /\ p2 = v / INR (S k)
  | None => sensed shown Z_P2 D (cParts s') 0 0
  end.
Proof.
  intros cfg Hsc Hl Hw HH Hr Henv HX Hsh s s' Hi Hn Hv.
  assert (0 <= W / l_0 /\ 0 < H / l_0 /\ w / l_0 <= W / l_0) as (Q1 & Q2 & Q3).
  { assert (0 < / l_0) by (by apply Rinv_0_lt_compat). unfold Rdiv. repeat split; nra. }
  set (nW := Zceil (W / l_0)). set (nw := Zceil (w / l_0)). set (nH := Zceil (H / l_0)). set (nh := Zceil (h / l_0)).
  assert (1 <= nH)%Z as HH1 by (apply Zceil_pos; lra). assert (nw <= nW)%Z as Hnw by (by apply Zceil_le).
  assert (0 <= nW)%Z as HW0. { apply le_IZR. pose proof (Zceil_ub (W / l_0)). fold nW in H0. lra. }
  assert (laid_out (N := Rnum) l_0 (scParts sc) (dam_shape (nW - nw) nw nh nW nH)) as (sites & HF & Hone & Hshape).
  { assert (forall x z, nceil (x : Rnum) = Some z -> z = Zceil x) as HC.
    { intros x z. cbn. unfold to_index. destruct (_ && _)%bool; [|done]. by intros [= <-]. }
    pose proof Hsc as E. unfold zhou_et_al, py_ceil in E.
    destruct (nceil ((H : Rnum) /. l_0)) as [z1|] eqn:E1; [|discriminate E]. destruct (nceil ((W : Rnum) /. l_0)) as [z2|] eqn:E2; [|discriminate E].
    destruct (nceil ((h : Rnum) /. l_0)) as [z3|] eqn:E3; [|discriminate E]. destruct (nceil ((w : Rnum) /. l_0)) as [z4|] eqn:E4; [|discriminate E].
    clear E. pose proof (HC _ _ E1). pose proof (HC _ _ E2). pose proof (HC _ _ E3). pose proof (HC _ _ E4). subst.
    exact (C73_zhou (N := Rnum) l_0 H W h w _ _ _ _ sc Hsc E1 E2 E3 E4 HW0 Hnw HH1). }
  assert (W - w - l_0 <= IZR (nW - nw) * l_0) as Hleft.
  { rewrite minus_IZR. pose proof (Zceil_ub (W / l_0)) as B1. pose proof (Zceil_lb (w / l_0)) as B2. fold nW in B1. fold nw in B2.
    replace (W - w - l_0) with ((W / l_0 - (w / l_0 + 1)) * l_0) by (field; lra). apply Rmult_le_compat_r; lra. }
  eapply (C82_levels (cfg := cfg) eq_refl eq_refl print_num py_float shown); [exact Henv|done|done|exact Hsh|exact Hi|exact Hn| | |exact Hv].
  - apply Forall_lookup. intros i p Hp. destruct (Forall2_lookup_r _ _ _ _ _ HF Hp) as ([[t a] b] & Hs & (Et & _)). cbn in Et.
    destruct (proj2 Hone t a b) as [-> |[-> | ->]]; [by eapply elem_of_list_lookup_2|..]; refine (eq_ind_r int_type _ Et);
      [exists 0%Z|exists 1%Z|exists 2%Z]; (split; [lia|]); unfold type_is; tauto.
  - intros X p HX' Hin Hg. destruct (HX X HX') as [X1 X2]. apply elem_of_list_lookup in Hin as [i Hp].
    destruct (Forall2_lookup_r _ _ _ _ _ HF Hp) as ([[t a] b] & Hs & (Et & Ex & _)). cbn in Et, Ex.
    unfold at_gauge in Hg. change (Rabs (shown (fst (pX p : Rnum * Rnum)) - X) < l_0 / 2) in Hg. change (shown (snd (pX p : Rnum * Rnum)) <= 0).
    change ((pX p : Rnum * Rnum) = (IZR a * l_0, IZR b * l_0)) in Ex. rewrite Ex in Hg |- *. cbn [fst snd] in Hg |- *. apply Raux.Rabs_lt_inv in Hg.
    pose proof (Hsh (IZR a * l_0)) as SX. pose proof (Hsh (IZR b * l_0)) as SZ. cbn in SX, SZ.
    assert (forall k, (k <= -1)%Z -> shown (IZR k * l_0) <= 0) as Hneg.
    { intros k Hk. apply IZR_le in Hk. pose proof (Hsh (IZR k * l_0)) as S. rewrite (Rabs_left (IZR k * l_0)) in S by nra. apply Raux.Rabs_le_inv in S. nra. }
    assert (forall k, (nW - nw <= k)%Z -> X + l_0 / 2 <= shown (IZR k * l_0)) as Hpos.
    { intros k Hk. apply IZR_le in Hk. assert (0 <= IZR (nW - nw)) by (apply IZR_le; lia). pose proof (Hsh (IZR k * l_0)) as S. rewrite (Rabs_pos_eq (IZR k * l_0)) in S by nra. apply Raux.Rabs_le_inv in S.
      assert (IZR (nW - nw) * l_0 <= IZR k * l_0) by (by apply Rmult_le_compat_r; [lra|]). lra. }
    destruct (Z_le_gt_dec b (-1)) as [Hb|Hb]; [by apply Hneg|]. exfalso.
    destruct (proj1 (Hshape t a b)) as [[_ Hs']|[[_ [Hs'|Hs']]|[_ Hs']]]; [by eapply elem_of_list_lookup_2|..];
      unfold water, inner_wall, rim, behind_wall in Hs'.
    all: assert (a <= -1 \/ nW - nw <= a)%Z as [Ha|Ha] by (assert (0 <= nw)%Z by (apply le_IZR; pose proof (Zceil_ub (w / l_0)) as B; fold nw in B; assert (0 < w / l_0) by (apply Rdiv_lt_0_compat; lra); lra); lia).
    all: try (apply Hneg in Ha; lra). all: apply Hpos in Ha; lra.
Qed.

(** Lemmas: lattice scenes after their first movement: the fluid has moved down a little, everything else is in place. *)
From Verif Require Import S_Terms.
From Verif Require Import S_Frame S_Bench P_Real P_Lattice T_Env P_Bench.
Open Scope R_scope.

(** ** A sum over things that sit at different places of a list *)
Lemma sum_by_place {A} `{EqDecision A} (O : list A) (B : A -> R) (o : nat -> A) n :
  forall (near : nat -> Prop) `{forall j, Decision (near j)} (f : nat -> R), NoDup O ->
  (forall j, (j < n)%nat -> near j -> o j ∈ O /\ f j <= B (o j)) ->
  (forall j k, (j < n)%nat -> (k < n)%nat -> near j -> near k -> o j = o k -> j = k) ->
  (forall x, x ∈ O -> 0 <= B x \/ exists j, (j < n)%nat /\ near j /\ o j = x) ->
  sum_n n (fun j => if decide (near j) then f j else 0) <= rsum (map B O).
Proof.
  induction O as [|x O IH]; intros near Hdec f Hnd Hf Hinj HB.
  { rewrite sum_n_zero; [cbn; lra|]. intros j Hj. destruct (decide (near j)) as [Hn|]; [|done]. destruct (Hf j Hj Hn) as [H _]. by apply elem_of_nil in H. }
  apply list.NoDup_cons in Hnd as [Hx Hnd]. change (rsum (map B (x :: O))) with (B x + rsum (map B O)).
  assert (HI : sum_n n (fun j => if decide (near j /\ o j <> x) then f j else 0) <= rsum (map B O)).
  { apply (IH (fun j => near j /\ o j <> x)).
    - done.
    - intros j Hj [Hn Hne]. destruct (Hf j Hj Hn) as [H1 H2]. apply elem_of_cons in H1 as [H1|H1]; done.
    - intros j k Hj Hk [Hn _] [Hn' _]. by apply Hinj.
    - intros y Hy. destruct (HB y) as [?|(j & Hj & Hn & E)]; [by right|by left|right].
      exists j. split; [done|]. split; [|done]. split; [done|]. intros E1. apply Hx. congruence. }
  destruct (decide (Exists (fun j => near j /\ o j = x) (seq 0 n))) as [E|E].
  - apply Exists_exists in E as (j0 & Hj0 & Hn0 & E0). apply elem_of_seq in Hj0.
    assert (sum_n n (fun j => if decide (near j) then f j else 0)
      = sum_n n (fun j => (if (j =? j0)%nat then f j else 0) + (if decide (near j /\ o j <> x) then f j else 0))) as ->.
    { apply sum_n_ext. intros j Hj. destruct (Nat.eqb_spec j j0) as [->|Hne].
      - destruct (decide (near j0)); [|done]. destruct (decide (near j0 /\ o j0 <> x)) as [[_ ?]|_]; [done|lra].
      - destruct (decide (near j)) as [Hn|Hn]; destruct (decide (near j /\ o j <> x)) as [Hd|Hd]; try lra; [|tauto].
        exfalso. apply Hd. split; [done|]. intros E. apply Hne. apply Hinj; [done|lia|done|done|congruence]. }
    rewrite sum_n_plus, sum_n_delta by lia. destruct (Hf j0 ltac:(lia) Hn0) as [_ Hb]. rewrite E0 in Hb. lra.
  - assert (sum_n n (fun j => if decide (near j) then f j else 0) = sum_n n (fun j => if decide (near j /\ o j <> x) then f j else 0)) as ->.
    { apply sum_n_ext. intros j Hj. destruct (decide (near j)) as [Hn|Hn]; destruct (decide (near j /\ o j <> x)) as [Hd|Hd]; try lra; [|tauto].
      exfalso. apply Hd. split; [done|]. intros E'. apply E. apply Exists_exists. exists j. rewrite elem_of_seq. split; [lia|done]. }
    destruct (HB x) as [?|(j & Hj & Hn & E')]; [by left|lra|]. exfalso. apply E. apply Exists_exists. exists j. rewrite elem_of_seq. split; [lia|done].
Qed.

(** ** Distances and weights in the plane *)
Lemma edist_plane (x y : vec Rnum D2) : edist x y = R_sqrt.sqrt ((coord x 0 - coord y 0) ^ 2 + (coord x 1 - coord y 1) ^ 2).
Proof. unfold edist, sum_n. cbn [dimn seq map rsum foldr]. f_equal. lra. Qed.
Lemma wt_le (r m r_e : R) : 0 < m -> m <= r -> 0 < r_e -> wt r r_e <= Rmax 0 (r_e / m - 1).
Proof.
  intros Hm Hr Hre. unfold wt. destruct (Rlt_dec 0 r); [|apply Rmax_l]. destruct (Rlt_dec r r_e); [|apply Rmax_l].
  eapply Rle_trans; [|apply Rmax_r]. assert (r_e / r <= r_e / m); [|lra].
  apply Rmult_le_compat_l; [lra|]. by apply Rinv_le_contravar.
Qed.
(** With [r = l * sqrt q], [q >= m^2]. *)
Lemma wt_plane_le (l q m W : R) : 0 < l -> 0 < m -> m ^ 2 <= q -> 24/10 / m - 1 <= W -> 0 <= W -> wt (R_sqrt.sqrt (l ^ 2 * q)) (24/10 * l) <= W.
Proof.
  intros Hl Hm Hq HW HW0. eapply Rle_trans; [apply (wt_le _ (l * m))|].
  - by apply Rmult_lt_0_compat.
  - rewrite <- (sqrt_pow2 (l * m)); [|nra]. apply sqrt_le_1_alt. rewrite Rpow_mult_distr. apply Rmult_le_compat_l; [nra|done].
  - nra.
  - apply Rmax_lub; [done|]. replace (24/10 * l / (l * m)) with (24/10 / m); [done|]. field. lra.
Qed.

(** Offsets at which an uncovered particle can have neighbours; caps for the weight, and for the weight times the height
    difference (in lattice widths). *)
Definition below_cells : list (Z * Z) :=
  [(-1, 0); (1, 0); (-2, 0); (2, 0); (0, -1); (-1, -1); (1, -1); (-2, -1); (2, -1); (0, -2); (-1, -2); (1, -2)]%Z.
Definition wcap (o : Z * Z) : R :=
  match o with
  | (1, 0)%Z | (-1, 0)%Z => 14/10 | (2, 0)%Z | (-2, 0)%Z => 2/10
  | (0, -1)%Z => 2 | (1, -1)%Z | (-1, -1)%Z => 88/100 | (2, -1)%Z | (-2, -1)%Z => 12/100
  | (0, -2)%Z => 34/100 | (1, -2)%Z | (-1, -2)%Z => 18/100 | _ => 0
  end.
Definition zcap (o : Z * Z) : R :=
  match o with (1, 0)%Z | (-1, 0)%Z => 28/100 | (2, 0)%Z | (-2, 0)%Z => 4/100 | (0, -1)%Z => -(12/10) | _ => 0 end.
Lemma wcap_sum : rsum (map wcap below_cells) < 8.
Proof. unfold below_cells, wcap, zcap. cbn [map rsum foldr]. lra. Qed.
Lemma zcap_sum : rsum (map zcap below_cells) = -(56/100).
Proof. unfold below_cells, wcap, zcap. cbn [map rsum foldr]. lra. Qed.
Lemma below_cells_NoDup : NoDup below_cells.
Proof. unfold below_cells. repeat (apply list.NoDup_cons; split; [rewrite ?elem_of_cons, ?elem_of_nil; intros H; destruct_or?; discriminate|]). by apply list.NoDup_nil. Qed.
Lemma in_below (x z : Z) : (-2 <= x <= 2)%Z -> (-2 <= z <= 0)%Z -> (x, z) <> (0, 0)%Z -> (Z.abs x, z) <> (2, -2)%Z -> (x, z) ∈ below_cells.
Proof.
  intros Hx Hz H0 H2. unfold below_cells.
  assert (x = -2 \/ x = -1 \/ x = 0 \/ x = 1 \/ x = 2)%Z as Hxx by lia. assert (z = -2 \/ z = -1 \/ z = 0)%Z as Hzz by lia.
  destruct Hxx as [->|[->|[->|[->| ->]]]]; destruct Hzz as [->|[->| ->]]; try done; rewrite !elem_of_cons; tauto.
Qed.

Lemma caps (l : R) (x z : Z) (e : R) : 0 < l -> -(2/10) <= e <= 2/10 -> IZR x ^ 2 + (IZR z + e) ^ 2 < 576/100 ->
  (-2 <= x <= 2)%Z -> (-2 <= z <= 0)%Z -> (x, z) <> (0, 0)%Z ->
  let w := wt (R_sqrt.sqrt (l ^ 2 * (IZR x ^ 2 + (IZR z + e) ^ 2))) (24/10 * l) in
  (x, z) ∈ below_cells /\ w <= wcap (x, z) /\ w * (IZR z + e) <= zcap (x, z).
Proof.
  intros Hl He Hq Hx Hz H0 w. assert (0 <= w) as Hw by apply wt_nonneg.
  split.
  { apply in_below; try done. intros [= E1 E2]. subst z. assert (x = 2 \/ x = -2)%Z as [-> | ->] by lia; nra. }
  assert (x = -2 \/ x = -1 \/ x = 0 \/ x = 1 \/ x = 2)%Z as Hxx by lia. assert (z = -2 \/ z = -1 \/ z = 0)%Z as Hzz by lia.
  assert (forall m W, 0 < m -> m ^ 2 <= IZR x ^ 2 + (IZR z + e) ^ 2 -> 24/10 / m - 1 <= W -> 0 <= W -> w <= W) as HW.
  { intros m W H1 H2 H3 H4. by apply (wt_plane_le l _ m). }
  assert (x = 0%Z -> z = (-1)%Z -> w * (IZR z + e) <= -(12/10)) as HX.
  { intros -> ->. unfold w. set (r := 1 - e). replace (IZR 0 ^ 2 + (-1 + e) ^ 2) with (r ^ 2) by (unfold r; lra).
    replace (l ^ 2 * r ^ 2) with ((l * r) ^ 2) by lra. assert (8/10 <= r <= 12/10) as Hr by (unfold r; lra).
    rewrite sqrt_pow2 by nra. unfold wt. destruct (Rlt_dec 0 (l * r)); [|exfalso; nra]. destruct (Rlt_dec (l * r) (24/10 * l)); [|exfalso; nra].
    replace (24/10 * l / (l * r)) with (24/10 / r) by (field; lra). replace (-1 + e) with (- r) by (unfold r; lra).
    replace ((24/10 / r - 1) * - r) with (r - 24/10) by (field; lra). lra. }
  destruct Hzz as [->|[->| ->]]; destruct Hxx as [->|[->|[->|[->| ->]]]]; cbn [wcap zcap]; try done.
  all: try (exfalso; nra).
  all: split; [|try (by apply HX); try nra].
  - apply (HW (205/100)); lra || nra.
  - apply (HW (18/10)); lra || nra.
  - apply (HW (205/100)); lra || nra.
  - apply (HW (215/100)); lra || nra.
  - apply (HW (128/100)); lra || nra.
  - apply (HW (8/10)); lra || nra.
  - apply (HW (128/100)); lra || nra.
  - apply (HW (215/100)); lra || nra.
  - apply (HW 2); lra || nra.
  - assert (w <= 2/10) by (apply (HW 2); lra || nra). nra.
  - apply (HW 1); lra || nra.
  - assert (w <= 14/10) by (apply (HW 1); lra || nra). nra.
  - apply (HW 1); lra || nra.
  - assert (w <= 14/10) by (apply (HW 1); lra || nra). nra.
  - apply (HW 2); lra || nra.
  - assert (w <= 2/10) by (apply (HW 2); lra || nra). nra.
Qed.

Section Settled.
  Context (hs hl ecs gc ds mid : bool).
  Notation cfg := (bench_config hs hl ecs gc ds mid).
  Notation part := (particle Rnum D2).
  Context (env : environment Rnum cfg) (l sg : R) (sites : list site) (ps : list part).
  Definition shift (t : ptype) : R := if decide (t = Newton) then sg else 0.
  (** The particles of the scene; the fluid is [sg] lattice widths too low. *)
  Definition settled : Prop :=
    length ps = length sites /\
    forall i t a b, sites !! i = Some (t, a, b) ->
      exists p, ps !! i = Some p /\ pT p = t /\ coord (pX p) 0 = l * IZR a /\ coord (pX p) 1 = l * (IZR b - shift t).

  Context (Hl : 0 < l) (HRe : eRe env = 24/10 * l) (HN : 8 <= eN0 env <= 10) (Hsg : 0 <= sg <= 2/10) (Hone : one_each sites) (Hset : settled).

  Lemma shift_bound t : 0 <= shift t <= 2/10.
  Proof. unfold shift. destruct (decide _); lra. Qed.
  Lemma at_site i p : ps !! i = Some p -> exists a b, sites !! i = Some (pT p, a, b) /\ coord (pX p) 0 = l * IZR a /\ coord (pX p) 1 = l * (IZR b - shift (pT p)).
  Proof.
    intros Hp. destruct Hset as [Hlen Hs]. destruct (sites !! i) as [[[t a] b]|] eqn:E.
    - destruct (Hs i t a b E) as (p' & Hp' & Ht & H1 & H2). replace p' with p in * by congruence. subst t. eauto.
    - apply lookup_ge_None in E. apply lookup_lt_Some in Hp. exfalso. rewrite Hlen in Hp. exact (Nat.lt_irrefl _ (Nat.lt_le_trans _ _ _ Hp E)).
  Qed.
  Lemma same_cell i j t a b t' : sites !! i = Some (t, a, b) -> sites !! j = Some (t', a, b) -> i = j.
  Proof.
    intros Hi Hj. destruct Hone as [Hnd _].
    eapply (NoDup_lookup _ i j (a, b)); [exact Hnd|by apply (list_lookup_fmap_Some _ sites i (a, b)); exists (t, a, b)|
      by apply (list_lookup_fmap_Some _ sites j (a, b)); exists (t', a, b)].
  Qed.
  (** Squared distances, in lattice widths. *)
  Lemma gap_plane (p q : part) a b a' b' :
    coord (pX p) 0 = l * IZR a -> coord (pX p) 1 = l * (IZR b - shift (pT p)) ->
    coord (pX q) 0 = l * IZR a' -> coord (pX q) 1 = l * (IZR b' - shift (pT q)) ->
    exists e, -(2/10) <= e <= 2/10 /\ coord (pX q) 1 - coord (pX p) 1 = l * (IZR (b' - b) + e) /\
      edist (pX p) (pX q) = R_sqrt.sqrt (l ^ 2 * (IZR (a' - a) ^ 2 + (IZR (b' - b) + e) ^ 2)).
  Proof.
    intros E1 E2 E3 E4. exists (shift (pT p) - shift (pT q)). pose proof (shift_bound (pT p)). pose proof (shift_bound (pT q)).
    split; [lra|]. rewrite E2, E4. split; [rewrite minus_IZR; lra|].
    rewrite edist_plane, E1, E2, E3, E4, !minus_IZR. f_equal. lra.
  Qed.
  Lemma near_plane (x z : Z) (e : R) : -(2/10) <= e <= 2/10 -> R_sqrt.sqrt (l ^ 2 * (IZR x ^ 2 + (IZR z + e) ^ 2)) < 24/10 * l ->
    IZR x ^ 2 + (IZR z + e) ^ 2 < 576/100 /\ (-2 <= x <= 2)%Z /\ (-2 <= z <= 2)%Z.
  Proof.
    intros He H. assert (IZR x ^ 2 + (IZR z + e) ^ 2 < 576/100) as Hq.
    { assert (l ^ 2 * (IZR x ^ 2 + (IZR z + e) ^ 2) < (24/10 * l) ^ 2); [|nra].
      rewrite <- (sqrt_pow2 (24/10 * l)) in H; [|lra]. by apply sqrt_lt_0_alt in H. }
    split; [done|]. pose proof (pow2_ge_0 (IZR x)). pose proof (pow2_ge_0 (IZR z + e)).
    split; split; apply Z.nlt_ge; intros Hc%(Zlt_le_succ); apply IZR_le in Hc; rewrite ?succ_IZR in Hc; nra.
  Qed.
  Lemma near_cells i j p q a b : near_to (cfg := cfg) (24/10 * l) ps i j -> ps !! i = Some p -> ps !! j = Some q -> sites !! i = Some (pT p, a, b) ->
    exists a' b' e, sites !! j = Some (pT q, a', b') /\ -(2/10) <= e <= 2/10 /\ coord (pX q) 1 - coord (pX p) 1 = l * (IZR (b' - b) + e) /\
      edist (pX p) (pX q) = R_sqrt.sqrt (l ^ 2 * (IZR (a' - a) ^ 2 + (IZR (b' - b) + e) ^ 2)) /\
      IZR (a' - a) ^ 2 + (IZR (b' - b) + e) ^ 2 < 576/100 /\ (-2 <= a' - a <= 2)%Z /\ (-2 <= b' - b <= 2)%Z /\ (a' - a, b' - b)%Z <> (0, 0)%Z.
  Proof.
    intros (Hne & p1 & q1 & Hp1 & Hq1 & _ & Hd) Hp Hq Hsi.
    assert (p1 = p) as -> by exact (Some_inj _ _ (eq_trans (eq_sym Hp1) Hp)). assert (q1 = q) as -> by exact (Some_inj _ _ (eq_trans (eq_sym Hq1) Hq)).
    destruct (at_site i p Hp) as (a0 & b0 & Hs0 & E1 & E2). rewrite Hsi in Hs0. injection Hs0 as <- <-.
    destruct (at_site j q Hq) as (a' & b' & Hsj & E3 & E4).
    destruct (gap_plane p q a b a' b' E1 E2 E3 E4) as (e & He & Hz & HD). exists a', b', e.
    change (@edist D2 (pX p) (pX q) < 24/10 * l) in Hd. rewrite HD in Hd. destruct (near_plane _ _ e He Hd) as (Hq2 & Hx & Hy). repeat split; try done; try lra; try lia.
    intros [= H1 H2]. apply Hne. apply (same_cell i j (pT p) a b (pT q)); [done|]. rewrite Hsj. f_equal. f_equal; [f_equal|]; lia.
  Qed.

  Notation near := (near_to (cfg := cfg) (eRe env) ps).
  Lemma uncovered_near i j p q a b : uncovered sites a b -> near i j -> ps !! i = Some p -> ps !! j = Some q -> sites !! i = Some (pT p, a, b) ->
    exists a' b' e, sites !! j = Some (pT q, a', b') /\ coord (pX q) 1 - coord (pX p) 1 = l * (IZR (b' - b) + e) /\
      let w := wt (edist (pX p) (pX q)) (24/10 * l) in
      (a' - a, b' - b)%Z ∈ below_cells /\ w <= wcap (a' - a, b' - b)%Z /\ w * (IZR (b' - b) + e) <= zcap (a' - a, b' - b)%Z.
  Proof.
    intros [Hun _] Hn Hp Hq Hsi. rewrite HRe in Hn. destruct (near_cells i j p q a b Hn Hp Hq Hsi) as (a' & b' & e & Hsj & He & Hz & HD & Hlt & Hx & Hy & Hne).
    exists a', b', e. split; [done|]. split; [done|]. cbv zeta. rewrite HD.
    apply caps; try done. split; [lia|]. apply Z.nlt_ge. intros Hc.
    specialize (Hun (pT q) a' b'). unfold holds in Hun. specialize (Hun (elem_of_list_lookup_2 _ _ _ Hsj)). lia.
  Qed.
  Definition offset (a b : Z) (j : nat) : Z * Z := match sites !! j with Some (t, a', b') => (a' - a, b' - b)%Z | None => (0, 0)%Z end.
  Lemma offset_inj i p a b : ps !! i = Some p -> forall j k, near i j -> near i k -> offset a b j = offset a b k -> j = k.
  Proof.
    intros Hp j k (_ & _ & q & _ & Hq & _) (_ & _ & q' & _ & Hq' & _) E.
    destruct (at_site j q Hq) as (a1 & b1 & H1 & _). destruct (at_site k q' Hq') as (a2 & b2 & H2 & _).
    unfold offset in E. rewrite H1, H2 in E. injection E as E1 E2.
    apply (same_cell j k (pT q) a1 b1 (pT q')); [done|]. rewrite H2. f_equal. f_equal; [f_equal|]; lia.
  Qed.
  Lemma uncovered_density i p a b : uncovered sites a b -> ps !! i = Some p -> sites !! i = Some (pT p, a, b) -> density env ps i p < 8.
  Proof.
    intros Hun Hp Hsi. eapply Rle_lt_trans; [|apply wcap_sum]. unfold density, nsum.
    apply (sum_by_place below_cells wcap (offset a b) (length ps) (near i)
      (fun j => match ps !! j with Some q => wt (edist (pX p) (pX q)) (eRe env) | None => 0 end)).
    - apply below_cells_NoDup.
    - intros j _ Hn. pose proof Hn as (_ & _ & q & _ & Hq & _).
      destruct (uncovered_near i j p q a b Hun Hn Hp Hq Hsi) as (a' & b' & e & Hsj & _ & Hin & Hw & _).
      unfold offset. rewrite Hsj. split; [done|]. assert (ps !! j = Some (q : part)) as Hq' by exact Hq. cbv beta. change (cDim cfg) with D2. rewrite Hq', HRe. exact Hw.
    - intros j k _ _. by apply (offset_inj i p).
    - intros x Hx. left. unfold below_cells in Hx. repeat (apply elem_of_cons in Hx as [->|Hx]; [cbn [wcap]; lra|]). by apply elem_of_nil in Hx.
  Qed.
  Lemma uncovered_centre i p a b : uncovered sites a b -> ps !! i = Some p -> sites !! i = Some (pT p, a, b) -> enabled p ->
    coord (centre env ps i p) 1 <= -(56/1000) * l.
  Proof.
    intros Hun Hp Hsi Hen. unfold centre, nvsum. rewrite coord_vsum_n by (cbn; lia). destruct HN as [HN1 HN2].
    set (f := fun j => match ps !! j with Some q => l / eN0 env * (wt (edist (pX p) (pX q)) (24/10 * l) * ((coord (pX q) 1 - coord (pX p) 1) / l)) | None => 0 end).
    rewrite (sum_n_ext _ _ (fun j => if decide (near i j) then f j else 0)).
    2:{ intros j Hj. unfold f. destruct (decide (near i j)) as [Hn|]; [|apply coord_zero; cbn; lia].
        pose proof Hn as (_ & _ & q & _ & Hq & _). assert (ps !! j = Some (q : part)) as Hq' by exact Hq. change (cDim cfg) with D2. rewrite !Hq'. rewrite coord_scal, coord_sub, HRe by (cbn; lia).
        change (cDim cfg) with D2. field. lra. }
    rewrite (sum_n_ext _ _ (fun j => l / eN0 env * (if decide (near i j) then match ps !! j with Some q => wt (edist (pX p) (pX q)) (24/10 * l) * ((coord (pX q) 1 - coord (pX p) 1) / l) | None => 0 end else 0))).
    2:{ intros j Hj. unfold f. destruct (decide (near i j)); [destruct (ps !! j)|]; lra. }
    rewrite sum_n_scal.
    assert (sum_n (length ps) (fun j => if decide (near i j) then match ps !! j with Some q => wt (edist (pX p) (pX q)) (24/10 * l) * ((coord (pX q) 1 - coord (pX p) 1) / l) | None => 0 end else 0) <= -(56/100)) as HS.
    { rewrite <- zcap_sum.
      apply (sum_by_place below_cells zcap (offset a b) (length ps) (near i)
        (fun j => match ps !! j with Some q => wt (edist (pX p) (pX q)) (24/10 * l) * ((coord (pX q) 1 - coord (pX p) 1) / l) | None => 0 end)).
      - apply below_cells_NoDup.
      - intros j _ Hn. pose proof Hn as (_ & _ & q & _ & Hq & _).
        destruct (uncovered_near i j p q a b Hun Hn Hp Hq Hsi) as (a' & b' & e & Hsj & Hz & Hin & _ & Hw).
        unfold offset. rewrite Hsj. split; [done|]. assert (ps !! j = Some (q : part)) as Hq' by exact Hq. cbv beta. change (cDim cfg) with D2. rewrite Hq', Hz.
        replace (l * (IZR (b' - b) + e) / l) with (IZR (b' - b) + e) by (field; lra). exact Hw.
      - intros j k _ _. by apply (offset_inj i p).
      - intros x Hx. destruct (decide (x = (0, -1)%Z)) as [->|Hne].
        + right. destruct Hun as [_ [t Ht]]. apply elem_of_list_lookup in Ht as [j Hj]. exists j.
          destruct Hset as [Hlen Hs]. destruct (Hs j t a (b - 1)%Z Hj) as (q & Hq & Ht & Eq1 & Eq2).
          assert (j < length ps)%nat as Hlt by (by eapply lookup_lt_Some). split; [exact Hlt|].
          destruct (at_site i p Hp) as (a0 & b0 & Hs0 & E1 & E2). rewrite Hsi in Hs0. injection Hs0 as <- <-.
          split; [|unfold offset; assert (sites !! j = Some ((t, a, (b - 1)%Z) : site)) as -> by exact Hj; f_equal; lia].
          split; [intros <-; rewrite Hsi in Hj; injection Hj as _ Hj; lia|]. exists p, q. split; [done|]. split; [done|].
          split.
          { destruct Hone as [_ Hd]. change (@pT Rnum D2 q <> Disabled). rewrite Ht. assert (holds sites t a (b - 1)%Z) as Hh by (by eapply elem_of_list_lookup_2). destruct (Hd t a (b - 1)%Z Hh) as [->|[-> | ->]]; done. }
          subst t. destruct (gap_plane p q a b a (b - 1) E1 E2 Eq1 Eq2) as (e & He & _ & HD).
          rewrite HRe. eapply Rle_lt_trans; [right; exact HD|]. rewrite <- (sqrt_pow2 (24/10 * l)) by lra. apply sqrt_lt_1_alt.
          replace (a - a)%Z with 0%Z by lia. replace (b - 1 - b)%Z with (-1)%Z by lia. split; [nra|].
          rewrite Rpow_mult_distr. assert ((-1 + e) ^ 2 < 4) by nra. assert (0 < l ^ 2) by nra. nra.
        + left. unfold below_cells in Hx. repeat (apply elem_of_cons in Hx as [->|Hx]; [first [done|cbn [zcap]; lra]|]). by apply elem_of_nil in Hx. }
    assert (/ 10 <= / eN0 env) by (apply Rinv_le_contravar; lra).
    assert (0 < l / eN0 env) by (apply Rdiv_lt_0_compat; lra).
    assert (/10 * l <= l / eN0 env) by (unfold Rdiv; rewrite Rmult_comm; apply Rmult_le_compat_l; lra).
    eapply Rle_trans; [apply Rmult_le_compat_l; [lra|exact HS]|]. lra.
  Qed.
  Context (Hfine : / 10 ^ 12 <= l).
  Lemma uncovered_surface i p a b : uncovered sites a b -> ps !! i = Some p -> sites !! i = Some (pT p, a, b) -> enabled p ->
    surface_particle env ps i p <> None.
  Proof.
    intros Hun Hp Hsi Hen. pose proof (uncovered_density i p a b Hun Hp Hsi) as H1. pose proof (uncovered_centre i p a b Hun Hp Hsi Hen) as H2.
    unfold surface_particle. cbn [cSPP bench_config]. destruct (Rlt_dec _ _) as [_|Hn]; [|lra].
    destruct (Rlt_dec _ _) as [_|Hn2]; [done|]. exfalso. apply Hn2.
    pose proof (coord_le_len (centre env ps i p) 1 ltac:(cbn; lia)) as H3. rewrite Rabs_left in H3 by nra. lra.
  Qed.

  (** ** What the step needs *)
  Lemma settled_apart : frame_apart (cfg := cfg) ps.
  Proof.
    intros i j p q Hne Hp Hq _ _ E. destruct (at_site i p Hp) as (a & b & Hs & E1 & E2). destruct (at_site j q Hq) as (a' & b' & Hs' & E3 & E4).
    assert (l * IZR a = l * IZR a') as Ea.
    { rewrite <- E1, <- E3. exact (f_equal (fun x : vec Rnum D2 => coord x 0) E). }
    assert (l * (IZR b - shift (pT p)) = l * (IZR b' - shift (pT q))) as Eb.
    { exact (eq_trans (eq_sym E2) (eq_trans (f_equal (fun x : vec Rnum D2 => coord x 1) E) E4)). }
    apply Rmult_eq_reg_l in Ea; [|lra]. apply eq_IZR in Ea as ->. apply Rmult_eq_reg_l in Eb; [|lra].
    pose proof (shift_bound (pT p)). pose proof (shift_bound (pT q)).
    assert (b = b') as ->.
    { assert (-1 < b - b' < 1)%Z; [|lia]. split; apply lt_IZR; rewrite minus_IZR; lra. }
    apply Hne. by apply (same_cell i j (pT p) a' b' (pT q)).
  Qed.
  Lemma cell_of_type t a b : holds sites t a b -> exists i p, sites !! i = Some (t, a, b) /\ ps !! i = Some p /\ pT p = t.
  Proof.
    intros H. apply elem_of_list_lookup in H as [i Hi]. destruct Hset as [_ Hs]. destruct (Hs i t a b Hi) as (p & Hp & Ht & _). eauto.
  Qed.
  Lemma settled_reaches : (forall a b, solid_or_fluid sites a b -> open_above sites a b) ->
    forall i p, ps !! i = Some p -> has_pressure env p -> reaches_surface env ps i.
  Proof.
    intros Ht i p Hp Hu.
    assert (forall q : part, pT q = Newton \/ pT q = Wall -> has_pressure env q) as Hhp.
    { intros q Hq. split; [|by left]. unfold fluid_or_wall, enabled. change (cDim cfg) with D2. destruct Hq as [-> | ->]; done. }
    assert (forall a b, open_above sites a b -> forall i p, ps !! i = Some p -> sites !! i = Some (pT p, a, b) -> reaches_surface env ps i) as HO.
    { clear i p Hp Hu. intros a b HO. induction HO as [a b Hsf Hun|a b a' b' Hsf Hnb HO IH]; intros i p Hp Hsi.
      - assert (pT p = Newton \/ pT p = Wall) as Hty.
        { destruct Hsf as [H|H]; apply elem_of_list_lookup in H as [j Hj]; assert (i = j) as -> by (by eapply same_cell); rewrite Hsi in Hj; injection Hj; tauto. }
        apply (rs_here env ps i p); [done|by apply Hhp|]. left. eapply uncovered_surface; try done. unfold enabled. change (cDim cfg) with D2. destruct Hty as [-> | ->]; done.
      - assert (pT p = Newton \/ pT p = Wall) as Hty.
        { destruct Hsf as [H|H]; apply elem_of_list_lookup in H as [j Hj]; assert (i = j) as -> by (by eapply same_cell); rewrite Hsi in Hj; injection Hj; tauto. }
        assert (solid_or_fluid sites a' b') as Hsf' by (by destruct HO).
        assert (exists j q, ps !! j = Some q /\ sites !! j = Some (pT q, a', b') /\ (pT q = Newton \/ pT q = Wall)) as (j & q & Hq & Hsj & Htq).
        { destruct Hsf' as [H|H]; apply cell_of_type in H as (j & q & Hsj & Hq & Htq); exists j, q; rewrite Htq; auto. }
        apply (rs_next env ps i p j q); [done|by apply Hhp| |done|by apply Hhp|by apply (IH j q)].
        split; [intros <-; rewrite Hsi in Hsj; injection Hsj as _ <- <-; lia|]. exists p, q. split; [done|]. split; [done|].
        split; [unfold enabled; change (cDim cfg) with D2; destruct Htq as [-> | ->]; done|].
        destruct (at_site i p Hp) as (a0 & b0 & Hs0 & E1 & E2). rewrite Hsi in Hs0. injection Hs0 as <- <-.
        destruct (at_site j q Hq) as (a1 & b1 & Hs1 & E3 & E4). rewrite Hsj in Hs1. injection Hs1 as <- <-.
        destruct (gap_plane p q a b a' b' E1 E2 E3 E4) as (e & He & _ & HD).
        rewrite HRe. eapply Rle_lt_trans; [right; exact HD|]. rewrite <- (sqrt_pow2 (24/10 * l)) by lra. apply sqrt_lt_1_alt.
        assert (0 < l ^ 2) by nra. pose proof (pow2_ge_0 (IZR (a' - a))). pose proof (pow2_ge_0 (IZR (b' - b) + e)).
        split; [apply Rmult_le_pos; lra|]. rewrite Rpow_mult_distr.
        assert (IZR (a' - a) ^ 2 + (IZR (b' - b) + e) ^ 2 < 4); [|nra].
        assert ((a' - a = 0 /\ (b' - b = 1 \/ b' - b = -1)) \/ (b' - b = 0 /\ (a' - a = 1 \/ a' - a = -1)))%Z as [[-> [-> | ->]]|[-> [-> | ->]]] by lia; nra. }
    destruct (at_site i p Hp) as (a & b & Hsi & _). apply (HO a b) with (p := p); [|done|done]. apply Ht.
    destruct Hu as [[Hen Hnd] _]. unfold solid_or_fluid, holds. apply elem_of_list_lookup_2 in Hsi.
    unfold enabled in Hen. change (cDim cfg) with D2 in *. destruct Hone as [_ Hty]. destruct (Hty _ _ _ Hsi) as [E|[E|E]]; [left|right|done]; by rewrite <- E.
  Qed.
End Settled.

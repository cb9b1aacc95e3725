(** Lemmas: a rectangular block of fluid on a lattice after its first movement towards the origin. *)
From Verif Require Import S_Terms.
From Verif Require Import S_Frame S_Bench S_Mirror P_Real P_Lattice T_Env P_Bench P_Surf.
Open Scope R_scope.

(** ** Moving two points by a little *)
Lemma nudge_pair (s t P : R) : 0 <= s -> 0 <= t -> P ^ 2 <= s ^ 2 * t ^ 2 -> - (s * t) <= P <= s * t.
Proof.
  intros Hs Ht H. assert (0 <= s * t) by nra. split; apply Rnot_lt_le; intros Hc; nra.
Qed.
Lemma nudge (ox oy dx dy t : R) : 0 <= t -> dx ^ 2 + dy ^ 2 <= t ^ 2 ->
  exists s, 0 <= s /\ s ^ 2 = ox ^ 2 + oy ^ 2 /\ (s - t) * Rabs (s - t) <= (ox + dx) ^ 2 + (oy + dy) ^ 2 <= (s + t) ^ 2.
Proof.
  intros Ht Hd. exists (R_sqrt.sqrt (ox ^ 2 + oy ^ 2)).
  assert (0 <= ox ^ 2 + oy ^ 2) as H0 by nra. pose proof (pow2_sqrt _ H0) as Hs. set (s := R_sqrt.sqrt _) in *. assert (0 <= s) as Hs0 by apply sqrt_pos.
  assert (0 <= dx ^ 2 + dy ^ 2) as H1 by nra. pose proof (pow2_sqrt _ H1) as Hu. set (u := R_sqrt.sqrt (dx ^ 2 + dy ^ 2)) in *. assert (0 <= u) as Hu0 by apply sqrt_pos.
  assert (u <= t) as Hut by (apply Rnot_lt_le; intros Hc; nra).
  destruct (nudge_pair s u (ox * dx + oy * dy) Hs0 Hu0) as [P1 P2]. { rewrite Hs, Hu. pose proof (pow2_ge_0 (ox * dy - oy * dx)). nra. }
  split; [done|]. split; [done|].
  replace ((ox + dx) ^ 2 + (oy + dy) ^ 2) with (s ^ 2 + 2 * (ox * dx + oy * dy) + u ^ 2) by (rewrite Hs, Hu; ring).
  split; [|nra]. destruct (Rle_dec 0 (s - t)) as [Hc|Hc].
  - rewrite Rabs_right by lra. assert ((s - t) * (s - t) <= (s - u) * (s - u)) by nra. nra.
  - assert (0 <= (s - u) ^ 2) by apply pow2_ge_0. apply Rle_trans with 0; [|nra]. pose proof (Rabs_pos (s - t)). nra.
Qed.
Lemma nudge_apart (ox oy dx dy t m : R) : 0 <= t -> dx ^ 2 + dy ^ 2 <= t ^ 2 -> 0 <= m -> (m + t) ^ 2 <= ox ^ 2 + oy ^ 2 -> m ^ 2 <= (ox + dx) ^ 2 + (oy + dy) ^ 2.
Proof.
  intros Ht Hd Hm Ho. destruct (nudge ox oy dx dy t Ht Hd) as (s & Hs & E & H & _). assert (m + t <= s) by (apply Rnot_lt_le; intros Hc; nra).
  rewrite Rabs_right in H by lra. nra.
Qed.
Lemma nudge_close (ox oy dx dy t m : R) : 0 <= t -> dx ^ 2 + dy ^ 2 <= t ^ 2 -> 0 <= m -> ox ^ 2 + oy ^ 2 <= m ^ 2 -> (ox + dx) ^ 2 + (oy + dy) ^ 2 <= (m + t) ^ 2.
Proof.
  intros Ht Hd Hm Ho. destruct (nudge ox oy dx dy t Ht Hd) as (s & Hs & E & _ & H). assert (s <= m) by (apply Rnot_lt_le; intros Hc; nra). nra.
Qed.

(** ** The pull towards the origin *)
Definition far (a b : Z) : R := R_sqrt.sqrt (IZR a ^ 2 + IZR b ^ 2).
Definition pull (sg : R) (k a b : Z) : R := if decide (a = 0%Z /\ b = 0%Z) then 0 else sg * IZR k / far a b.
Lemma far_pos a b : ~ (a = 0%Z /\ b = 0%Z) -> 1 <= far a b /\ far a b ^ 2 = IZR a ^ 2 + IZR b ^ 2.
Proof.
  intros H. assert (1 <= IZR a ^ 2 + IZR b ^ 2) as H1.
  { rewrite !pow_IZR, <- plus_IZR. apply IZR_le. cbn [Z.of_nat Z.pow]. nia. }
  split; [|apply pow2_sqrt; lra]. unfold far. rewrite <- sqrt_1 at 1. by apply sqrt_le_1_alt.
Qed.
Section Pull.
  Context (sg : R) (Hsg : 0 <= sg <= 2/10).
  Lemma pull_size a b : pull sg a a b ^ 2 + pull sg b a b ^ 2 <= (2/10) ^ 2.
  Proof.
    unfold pull. destruct (decide _) as [_|Hn]; [nra|]. destruct (far_pos a b Hn) as [H1 H2].
    replace ((sg * IZR a / far a b) ^ 2 + (sg * IZR b / far a b) ^ 2) with (sg ^ 2 * ((IZR a ^ 2 + IZR b ^ 2) / far a b ^ 2)) by (field; lra).
    rewrite <- H2. replace (far a b ^ 2 / far a b ^ 2) with 1 by (field; lra). nra.
  Qed.
  Lemma pull_part a b : -(2/10) <= pull sg a a b <= 2/10.
  Proof. pose proof (pull_size a b). pose proof (pow2_ge_0 (pull sg b a b)). split; apply Rnot_lt_le; intros Hc; nra. Qed.
  Lemma pull_nonneg a b : (0 <= a)%Z -> 0 <= pull sg a a b.
  Proof.
    intros Ha. unfold pull. destruct (decide _) as [_|Hn]; [lra|]. destruct (far_pos a b Hn) as [H1 _]. apply IZR_le in Ha.
    unfold Rdiv. apply Rmult_le_pos; [nra|]. left. apply Rinv_0_lt_compat. lra.
  Qed.
  (** In the same column the pull along the row is stronger the nearer one is. *)
  Lemma pull_column a b b' : (1 <= a)%Z -> (Z.abs b' <= Z.abs b)%Z -> pull sg a a b <= pull sg a a b'.
  Proof.
    intros Ha Hb. unfold pull. destruct (decide (a = 0%Z /\ b = 0%Z)) as [[? _]|H1]; [lia|]. destruct (decide (a = 0%Z /\ b' = 0%Z)) as [[? _]|H2]; [lia|].
    destruct (far_pos _ _ H1) as [F1 _]. destruct (far_pos _ _ H2) as [F2 _].
    assert (far a b' <= far a b) as F.
    { apply sqrt_le_1_alt. apply Rplus_le_compat_l. rewrite !pow_IZR. apply IZR_le. cbn [Z.of_nat Z.pow]. nia. }
    apply IZR_le in Ha. apply Rmult_le_compat_l; [nra|]. apply Rinv_le_contravar; lra.
  Qed.
  (** The difference of two pulls. *)
  Lemma pull_gap a b a' b' : (pull sg a a b - pull sg a' a' b') ^ 2 + (pull sg b a b - pull sg b' a' b') ^ 2 <= (4/10) ^ 2.
  Proof.
    pose proof (pull_size a b) as H1. pose proof (pull_size a' b') as H2.
    pose proof (nudge_close (pull sg a a b) (pull sg b a b) (- pull sg a' a' b') (- pull sg b' a' b') (2/10) (2/10) ltac:(lra) ltac:(lra) ltac:(lra) H1) as H.
    unfold Rminus. lra.
  Qed.
End Pull.

(** ** The corner *)
Definition corner_cells : list (Z * Z) := [(-1, 0); (0, -1); (-1, -1); (-2, 0); (0, -2); (-2, -1); (-1, -2)]%Z.
Definition ccap (o : Z * Z) : R :=
  match o with
  | (-1, 0)%Z | (0, -1)%Z => 3 | (-1, -1)%Z => 138/100 | (-2, 0)%Z | (0, -2)%Z => 1/2 | (-2, -1)%Z | (-1, -2)%Z => 32/100 | _ => 0
  end.
Definition xcap (o : Z * Z) : R := match o with (-1, 0)%Z => -(56/100) | _ => 0 end.
Lemma ccap_sum : rsum (map ccap corner_cells) < 95/10.
Proof. unfold corner_cells, ccap. cbn [map rsum foldr]. lra. Qed.
Lemma xcap_sum : rsum (map xcap corner_cells) = -(56/100).
Proof. unfold corner_cells, xcap. cbn [map rsum foldr]. lra. Qed.
Lemma corner_cells_NoDup : NoDup corner_cells.
Proof. unfold corner_cells. repeat (apply list.NoDup_cons; split; [rewrite ?elem_of_cons, ?elem_of_nil; intros H; destruct_or?; discriminate|]). by apply list.NoDup_nil. Qed.

Lemma corner_caps (l : R) (x z : Z) (dx dz : R) : 0 < l -> dx ^ 2 + dz ^ 2 <= (4/10) ^ 2 -> (IZR x + dx) ^ 2 + (IZR z + dz) ^ 2 < 576/100 ->
  (x <= 0)%Z -> (z <= 0)%Z -> (x, z) <> (0, 0)%Z ->
  let w := wt (R_sqrt.sqrt (l ^ 2 * ((IZR x + dx) ^ 2 + (IZR z + dz) ^ 2))) (24/10 * l) in
  (x, z) ∈ corner_cells /\ w <= ccap (x, z) /\ ((x = 0%Z -> dx <= 0) -> (x = (-1)%Z -> dx <= 2/10) -> w * (IZR x + dx) <= xcap (x, z)).
Proof.
  intros Hl Hd Hq Hx Hz H0 w. assert (0 <= w) as Hw by apply wt_nonneg.
  assert (x * x + z * z <= 7)%Z as Hxz.
  { apply Z.lt_succ_r. change (Z.succ 7) with 8%Z. apply Z.nle_gt. intros Hc. apply IZR_le in Hc. rewrite plus_IZR, !mult_IZR in Hc.
    pose proof (nudge_apart (IZR x) (IZR z) dx dz (4/10) (24/10) ltac:(lra) Hd ltac:(lra) ltac:(lra)). lra. }
  assert (x = -2 \/ x = -1 \/ x = 0)%Z as Hxx by nia. assert (z = -2 \/ z = -1 \/ z = 0)%Z as Hzz by nia.
  assert (forall m W, 0 < m -> (m + 4/10) ^ 2 <= IZR x ^ 2 + IZR z ^ 2 -> 24/10 / m - 1 <= W -> 0 <= W -> w <= W) as HW.
  { intros m W H1 H2 H3 H4. apply (wt_plane_le l _ m); try done. apply (nudge_apart _ _ _ _ (4/10)); lra || done. }
  assert (-(4/10) <= dx <= 4/10) as Hdx. { pose proof (pow2_ge_0 dz). split; apply Rnot_lt_le; intros Hc; nra. }
  assert (x = (-1)%Z -> z = 0%Z -> 714/1000 <= w) as HX.
  { intros -> ->. unfold w. pose proof (nudge_close (-1) 0 dx dz (4/10) 1 ltac:(lra) Hd ltac:(lra) ltac:(lra)) as HC.
    pose proof (nudge_apart (-1) 0 dx dz (4/10) (6/10) ltac:(lra) Hd ltac:(lra) ltac:(lra)) as HA.
    rewrite sqrt_mult_alt by nra. rewrite sqrt_pow2 by lra. set (r := R_sqrt.sqrt ((-1 + dx) ^ 2 + (0 + dz) ^ 2)).
    assert (6/10 <= r <= 14/10) as Hr.
    { split; [rewrite <- (sqrt_pow2 (6/10)) by lra|rewrite <- (sqrt_pow2 (14/10)) by lra]; apply sqrt_le_1_alt; lra. }
    unfold wt. destruct (Rlt_dec 0 (l * r)); [|exfalso; nra]. destruct (Rlt_dec (l * r) (24/10 * l)); [|exfalso; nra].
    replace (24/10 * l / (l * r)) with (24/10 / r) by (field; lra). assert (/ (14/10) <= / r) by (apply Rinv_le_contravar; lra). lra. }
  destruct Hxx as [->|[->| ->]]; destruct Hzz as [->|[->| ->]]; try done; try (exfalso; lia);
    (split; [unfold corner_cells; rewrite !elem_of_cons; tauto|]); cbn [ccap xcap].
  all: split; [|intros Hc0 Hc1; try specialize (Hc0 eq_refl); try specialize (Hc1 eq_refl); try nra].
  - apply (HW (183/100)); lra.
  - apply (HW (16/10)); lra.
  - apply (HW (183/100)); lra.
  - apply (HW (101/100)); lra.
  - apply (HW (6/10)); lra.
  - specialize (HX eq_refl eq_refl). nra.
  - apply (HW (16/10)); lra.
  - apply (HW (6/10)); lra.
Qed.

Section Drawn.
  Context (hs hl ecs gc ds mid : bool).
  Notation cfg := (plane false hs hl ecs gc ds true mid true).
  Notation part := (particle Rnum D2).
  Context (env : environment Rnum cfg) (l sg : R) (sites : list site) (ps : list part).
  (** The particles of the scene, drawn [sg] lattice widths towards the origin. *)
  Definition drawn : Prop :=
    length ps = length sites /\
    forall i t a b, sites !! i = Some (t, a, b) ->
      exists p, ps !! i = Some p /\ pT p = t /\ coord (pX p) 0 = l * (IZR a - pull sg a a b) /\ coord (pX p) 1 = l * (IZR b - pull sg b a b).

  Context (Hl : 0 < l) (HRe : eRe env = 24/10 * l) (HN : 95/10 <= eN0 env <= 10) (Hsg : 0 <= sg <= 2/10) (Hone : one_each sites) (Hset : drawn).
  Context (w h : Z) (Hw : (1 <= w)%Z) (Hh : (0 <= h)%Z) (Hshape : forall t a b, holds sites t a b <-> block_shape w h t a b).

  Lemma drawn_site i p : ps !! i = Some p -> exists a b, sites !! i = Some (pT p, a, b) /\
    coord (pX p) 0 = l * (IZR a - pull sg a a b) /\ coord (pX p) 1 = l * (IZR b - pull sg b a b) /\ pT p = Newton /\ (- w <= a <= w)%Z /\ (- h <= b <= h)%Z.
  Proof.
    intros Hp. destruct Hset as [Hlen Hs]. destruct (sites !! i) as [[[t a] b]|] eqn:E.
    - destruct (Hs i t a b E) as (p' & Hp' & Ht & H1 & H2). replace p' with p in * by congruence. subst t.
      assert (holds sites (pT p) a b) as HH by (by eapply elem_of_list_lookup_2). apply Hshape in HH as (HT & Ha & Hb). eauto 10.
    - apply lookup_ge_None in E. apply lookup_lt_Some in Hp. exfalso. rewrite Hlen in Hp. exact (Nat.lt_irrefl _ (Nat.lt_le_trans _ _ _ Hp E)).
  Qed.
  Lemma drawn_gap (p q : part) a b a' b' :
    coord (pX p) 0 = l * (IZR a - pull sg a a b) -> coord (pX p) 1 = l * (IZR b - pull sg b a b) ->
    coord (pX q) 0 = l * (IZR a' - pull sg a' a' b') -> coord (pX q) 1 = l * (IZR b' - pull sg b' a' b') ->
    let dx := pull sg a a b - pull sg a' a' b' in let dz := pull sg b a b - pull sg b' a' b' in
    coord (pX q) 0 - coord (pX p) 0 = l * (IZR (a' - a) + dx) /\
    edist (pX p) (pX q) = R_sqrt.sqrt (l ^ 2 * ((IZR (a' - a) + dx) ^ 2 + (IZR (b' - b) + dz) ^ 2)).
  Proof.
    intros E1 E2 E3 E4 dx dz. split.
    - rewrite E1, E3, minus_IZR. unfold dx. lra.
    - rewrite edist_plane, E1, E2, E3, E4, !minus_IZR. unfold dx, dz. f_equal. lra.
  Qed.
  Lemma drawn_near (x z : Z) (dx dz : R) : R_sqrt.sqrt (l ^ 2 * ((IZR x + dx) ^ 2 + (IZR z + dz) ^ 2)) < 24/10 * l <-> (IZR x + dx) ^ 2 + (IZR z + dz) ^ 2 < 576/100.
  Proof.
    set (q := (IZR x + dx) ^ 2 + (IZR z + dz) ^ 2). assert (0 <= q) as Hq by (unfold q; pose proof (pow2_ge_0 (IZR x + dx)); pose proof (pow2_ge_0 (IZR z + dz)); lra). assert (0 < l ^ 2) as Hl2 by nra.
    rewrite <- (sqrt_pow2 (24/10 * l)) by lra. split; intros H.
    - apply sqrt_lt_0_alt in H. nra.
    - apply sqrt_lt_1_alt. split; [nra|]. nra.
  Qed.
  Lemma drawn_cell i j t a b t' : sites !! i = Some (t, a, b) -> sites !! j = Some (t', a, b) -> i = j.
  Proof. by apply same_cell. Qed.

  Notation near := (near_to (cfg := cfg) (eRe env) ps).
  Definition doffset (a b : Z) (j : nat) : Z * Z := match sites !! j with Some (t, a', b') => (a' - a, b' - b)%Z | None => (0, 0)%Z end.
  Lemma doffset_inj i p a b : ps !! i = Some p -> forall j k, near i j -> near i k -> doffset a b j = doffset a b k -> j = k.
  Proof.
    intros Hp j k (_ & _ & q & _ & Hq & _) (_ & _ & q' & _ & Hq' & _) E.
    destruct (drawn_site j q Hq) as (a1 & b1 & H1 & _). destruct (drawn_site k q' Hq') as (a2 & b2 & H2 & _).
    unfold doffset in E. rewrite H1, H2 in E. injection E as E1 E2.
    apply (drawn_cell j k (pT q) a1 b1 (pT q')); [done|]. rewrite H2. f_equal. f_equal; [f_equal|]; lia.
  Qed.
  (** The neighbours of the corner. *)
  Lemma corner_near i j p q : near i j -> ps !! i = Some p -> ps !! j = Some q -> sites !! i = Some (pT p, w, h) ->
    exists x z dx, doffset w h j = (x, z) /\ coord (pX q) 0 - coord (pX p) 0 = l * (IZR x + dx) /\
      let wg := wt (edist (pX p) (pX q)) (24/10 * l) in
      (x, z) ∈ corner_cells /\ wg <= ccap (x, z) /\ wg * (IZR x + dx) <= xcap (x, z).
  Proof.
    intros (Hne & p1 & q1 & Hp1 & Hq1 & _ & Hd) Hp Hq Hsi.
    assert (p1 = p) as -> by exact (Some_inj _ _ (eq_trans (eq_sym Hp1) Hp)). assert (q1 = q) as -> by exact (Some_inj _ _ (eq_trans (eq_sym Hq1) Hq)).
    destruct (drawn_site i p Hp) as (a0 & b0 & Hs0 & E1 & E2 & _). rewrite Hsi in Hs0. injection Hs0 as <- <-.
    destruct (drawn_site j q Hq) as (a' & b' & Hsj & E3 & E4 & _ & Ha & Hb).
    destruct (drawn_gap p q w h a' b' E1 E2 E3 E4) as [HX HD].
    exists (a' - w)%Z, (b' - h)%Z, (pull sg w w h - pull sg a' a' b'). split; [unfold doffset; by rewrite Hsj|]. split; [done|].
    change (@edist D2 (pX p) (pX q) < eRe env) in Hd. rewrite HRe, HD in Hd. apply drawn_near in Hd. cbv zeta. rewrite HD.
    destruct (corner_caps l (a' - w) (b' - h) (pull sg w w h - pull sg a' a' b') (pull sg h w h - pull sg b' a' b')) as (C1 & C2 & C3); try done; try lia.
    - by apply pull_gap.
    - intros [= H1 H2]. apply Hne. apply (drawn_cell i j (pT p) w h (pT q)); [done|]. rewrite Hsj. f_equal. f_equal; [f_equal|]; lia.
    - split; [done|]. split; [done|]. apply C3.
      + intros H0. assert (a' = w) as -> by lia. pose proof (pull_column sg Hsg w h b' Hw ltac:(lia)). lra.
      + intros H1. assert (a' = w - 1)%Z as -> by lia. pose proof (pull_nonneg sg Hsg (w - 1) b' ltac:(lia)). pose proof (pull_part sg Hsg w h). lra.
  Qed.
  Lemma corner_density i p : ps !! i = Some p -> sites !! i = Some (pT p, w, h) -> density env ps i p < 95/10.
  Proof.
    intros Hp Hsi. eapply Rle_lt_trans; [|apply ccap_sum]. unfold density, nsum.
    apply (sum_by_place corner_cells ccap (doffset w h) (length ps) (near i)
      (fun j => match ps !! j with Some q => wt (edist (pX p) (pX q)) (eRe env) | None => 0 end)).
    - apply corner_cells_NoDup.
    - intros j _ Hn. pose proof Hn as (_ & _ & q & _ & Hq & _).
      destruct (corner_near i j p q Hn Hp Hq Hsi) as (x & z & dx & -> & _ & Hin & Hc & _).
      split; [done|]. assert (ps !! j = Some (q : part)) as Hq' by exact Hq. cbv beta. change (cDim cfg) with D2. rewrite Hq', HRe. exact Hc.
    - intros j k _ _. by apply (doffset_inj i p).
    - intros x Hx. left. unfold corner_cells in Hx. repeat (apply elem_of_cons in Hx as [->|Hx]; [cbn [ccap]; lra|]). by apply elem_of_nil in Hx.
  Qed.
  Lemma near_unit i j p q a b a' b' : ps !! i = Some p -> ps !! j = Some q -> sites !! i = Some (pT p, a, b) -> sites !! j = Some (pT q, a', b') ->
    (Z.abs (a - a') + Z.abs (b - b') = 1)%Z -> near i j.
  Proof.
    intros Hp Hq Hsi Hsj Hnb. split; [intros <-; rewrite Hsi in Hsj; injection Hsj as _ <- <-; lia|]. exists p, q. split; [done|]. split; [done|].
    destruct (drawn_site i p Hp) as (a0 & b0 & Hs0 & E1 & E2 & _). rewrite Hsi in Hs0. injection Hs0 as <- <-.
    destruct (drawn_site j q Hq) as (a1 & b1 & Hs1 & E3 & E4 & HT & _). rewrite Hsj in Hs1. injection Hs1 as <- <-.
    split; [unfold enabled; change (cDim cfg) with D2; rewrite HT; done|].
    destruct (drawn_gap p q a b a' b' E1 E2 E3 E4) as [_ HD]. rewrite HRe. change (@edist D2 (pX p) (pX q) < 24/10 * l). rewrite HD. apply drawn_near.
    eapply Rle_lt_trans; [apply (nudge_close _ _ _ _ (4/10) 1); [lra|by apply pull_gap|lra|]|lra].
    rewrite !pow_IZR, <- plus_IZR. apply IZR_le. cbn [Z.of_nat Z.pow]. nia.
  Qed.
  Lemma cell_taken a b : (- w <= a <= w)%Z -> (- h <= b <= h)%Z -> exists j q, ps !! j = Some q /\ sites !! j = Some (pT q, a, b) /\ pT q = Newton.
  Proof.
    intros Ha Hb. assert (holds sites Newton a b) as HH by (apply Hshape; split; [done|lia]). apply elem_of_list_lookup in HH as [j Hj].
    destruct Hset as [_ Hs]. destruct (Hs j _ _ _ Hj) as (q & Hq & Ht & _). exists j, q. rewrite Ht. done.
  Qed.
  Lemma corner_centre i p : ps !! i = Some p -> sites !! i = Some (pT p, w, h) -> coord (centre env ps i p) 0 <= -(56/1000) * l.
  Proof.
    intros Hp Hsi. unfold centre, nvsum. rewrite coord_vsum_n by (cbn; lia). destruct HN as [HN1 HN2].
    set (f := fun j => match ps !! j with Some q => wt (edist (pX p) (pX q)) (24/10 * l) * ((coord (pX q) 0 - coord (pX p) 0) / l) | None => 0 end).
    rewrite (sum_n_ext _ _ (fun j => l / eN0 env * (if decide (near i j) then f j else 0))).
    2:{ intros j Hj. unfold f. destruct (decide (near i j)) as [Hn|]; [|rewrite Rmult_0_r; apply coord_zero; cbn; lia].
        pose proof Hn as (_ & _ & q & _ & Hq & _). assert (ps !! j = Some (q : part)) as Hq' by exact Hq. change (cDim cfg) with D2. rewrite !Hq'. rewrite coord_scal, coord_sub, HRe by (cbn; lia).
        change (cDim cfg) with D2. field. lra. }
    rewrite sum_n_scal.
    assert (sum_n (length ps) (fun j => if decide (near i j) then f j else 0) <= -(56/100)) as HS.
    { rewrite <- xcap_sum.
      apply (sum_by_place corner_cells xcap (doffset w h) (length ps) (near i) f).
      - apply corner_cells_NoDup.
      - intros j _ Hn. pose proof Hn as (_ & _ & q & _ & Hq & _).
        destruct (corner_near i j p q Hn Hp Hq Hsi) as (x & z & dx & -> & Hz & Hin & _ & Hc).
        split; [done|]. assert (ps !! j = Some (q : part)) as Hq' by exact Hq. unfold f. change (cDim cfg) with D2. rewrite Hq', Hz.
        replace (l * (IZR x + dx) / l) with (IZR x + dx) by (field; lra). exact Hc.
      - intros j k _ _. by apply (doffset_inj i p).
      - intros x Hx. destruct (decide (x = (-1, 0)%Z)) as [->|Hne].
        + right. destruct (cell_taken (w - 1) h ltac:(lia) ltac:(lia)) as (j & q & Hq & Hsj & _). exists j.
          split; [by eapply lookup_lt_Some|]. split; [apply (near_unit i j p q w h (w - 1) h); try done; lia|].
          unfold doffset. rewrite Hsj. f_equal; lia.
        + left. unfold corner_cells in Hx. repeat (apply elem_of_cons in Hx as [->|Hx]; [first [done|cbn [xcap]; lra]|]). by apply elem_of_nil in Hx. }
    assert (/ 10 <= / eN0 env) by (apply Rinv_le_contravar; lra).
    assert (/10 * l <= l / eN0 env) by (unfold Rdiv; rewrite Rmult_comm; apply Rmult_le_compat_l; lra).
    eapply Rle_trans; [apply Rmult_le_compat_l; [lra|exact HS]|]. lra.
  Qed.
  Context (Hfine : / 10 ^ 12 <= l).
  Lemma corner_surface i p : ps !! i = Some p -> sites !! i = Some (pT p, w, h) -> surface_particle env ps i p <> None.
  Proof.
    intros Hp Hsi. pose proof (corner_density i p Hp Hsi) as H1. pose proof (corner_centre i p Hp Hsi) as H2.
    unfold surface_particle. cbn [cSPP plane]. destruct (Rlt_dec _ _) as [_|Hn]; [|lra].
    destruct (Rlt_dec _ _) as [_|Hn2]; [done|]. exfalso. apply Hn2.
    pose proof (coord_le_len (centre env ps i p) 0 ltac:(cbn; lia)) as H3. rewrite Rabs_left in H3 by nra. lra.
  Qed.
  Lemma drawn_apart : frame_apart (cfg := cfg) ps.
  Proof.
    intros i j p q Hne Hp Hq _ _ E. destruct (drawn_site i p Hp) as (a & b & Hs & E1 & E2 & _). destruct (drawn_site j q Hq) as (a' & b' & Hs' & E3 & E4 & _).
    destruct (drawn_gap p q a b a' b' E1 E2 E3 E4) as [_ HD].
    assert (@edist D2 (pX p) (pX q) = 0) as HZ.
    { change (@eq (vec Rnum D2) (pX p) (pX q)) in E. rewrite E, edist_plane. rewrite <- sqrt_0. f_equal. ring. }
    assert (HD' := eq_trans (eq_sym HD) HZ). clear HD HZ. rename HD' into HD.
    assert (0 < l ^ 2) by nra.
    assert (1 <= IZR (a' - a) ^ 2 + IZR (b' - b) ^ 2) as H1.
    { rewrite !pow_IZR, <- plus_IZR. apply IZR_le. cbn [Z.of_nat Z.pow]. destruct (decide (a' = a /\ b' = b)) as [[-> ->]|Hn]; [|nia].
      exfalso. apply Hne. by apply (drawn_cell i j (pT p) a b (pT q)). }
    assert ((6/10 + 4/10) ^ 2 <= IZR (a' - a) ^ 2 + IZR (b' - b) ^ 2) as H1' by lra.
    pose proof (nudge_apart _ _ _ _ (4/10) (6/10) ltac:(lra) (pull_gap sg Hsg a b a' b') ltac:(lra) H1') as H2.
    apply sqrt_eq_0 in HD; nra.
  Qed.
  Lemma drawn_reaches : forall i p, ps !! i = Some p -> has_pressure env p -> reaches_surface env ps i.
  Proof.
    assert (forall q : part, pT q = Newton -> has_pressure env q) as Hhp.
    { intros q Hq. split; [|by left]. unfold fluid_or_wall, enabled. change (cDim cfg) with D2. rewrite Hq. done. }
    assert (forall n i p a b, (Z.to_nat (w - a) + Z.to_nat (h - b) = n)%nat -> ps !! i = Some p -> sites !! i = Some (pT p, a, b) -> reaches_surface env ps i) as HI.
    { induction n as [|n IH]; intros i p a b Hn Hp Hsi; destruct (drawn_site i p Hp) as (a0 & b0 & Hs0 & _ & _ & HT & Ha & Hb); rewrite Hsi in Hs0; injection Hs0 as <- <-.
      - assert (a = w) as -> by lia. assert (b = h) as -> by lia. apply (rs_here env ps i p); [done|by apply Hhp|]. left. by apply corner_surface.
      - destruct (decide (a = w)) as [->|Haw].
        + destruct (cell_taken w (b + 1) ltac:(lia) ltac:(lia)) as (j & q & Hq & Hsj & Tq).
          apply (rs_next env ps i p j q); [done|by apply Hhp|eapply near_unit; try done; lia|done|by apply Hhp|]. apply (IH j q w (b + 1)%Z); [lia|done|done].
        + destruct (cell_taken (a + 1) b ltac:(lia) ltac:(lia)) as (j & q & Hq & Hsj & Tq).
          apply (rs_next env ps i p j q); [done|by apply Hhp|eapply near_unit; try done; lia|done|by apply Hhp|]. apply (IH j q (a + 1)%Z b); [lia|done|done]. }
    intros i p Hp _. destruct (drawn_site i p Hp) as (a & b & Hsi & _). by eapply HI.
  Qed.
End Drawn.

(** Property theorems: one particle per cell of a lattice never overflows a block, with and without rounding (C48). *)
From Coq Require Import ZArith Reals Lia Lra ZifyBool.
From Verif Require Import S_Terms.
From Verif Require Import P_Reach P_Search P_Step S_Grid T_Grid S_Real S_Outcome T_Outcome T_Search P_Real P_B64 T_FloatSearch.
From Verif Require Export S_Cells.
From Flocq Require Import Core BinarySingleNaN.
Open Scope R_scope.

Section Generic.
  Context {N : num} {cfg : config} {wm : wallmotion N (cDim cfg)}.
  Notation d := (cDim cfg).
  Implicit Types (env : environment N cfg) (s : computer cfg wm).

  (** A block is not overfull if the particles in it have different keys out of [m + 1] per axis. *)
  Lemma keys_not_crowded env s (key : nat -> nat -> Z) (m : Z) :
    nceil (eNL env /. eL0 env) = Some m -> (0 <= m)%Z ->
    (forall i j p q, cParts s !! i = Some p -> enabled p -> cParts s !! j = Some q -> enabled q ->
       (forall k, (k < dimn d)%nat -> key i k = key j k) -> i = j) ->
    (forall k z n, (k < dimn d)%nat -> blocks_along env k = Some n -> (0 <= z < n)%Z -> exists low, forall j p, cParts s !! j = Some p -> enabled p ->
       block_number env (pX p) k = Some z -> (low <= key j k <= low + m)%Z) ->
    (forall k, (k < dimn d)%nat -> exists n, blocks_along env k = Some n) ->
    ~ crowded env s.
  Proof.
    intros Hm Hm0 Hinj Hlow Hall (b & js & Hlen & Hrange & Hnd & Hjs & c & Hc & Hlt).
    unfold capacity in Hc. rewrite Hm in Hc. injection Hc as <-.
    assert (exists low : nat -> Z, forall k, (k < dimn d)%nat -> forall j p, cParts s !! j = Some p -> enabled p ->
       block_number env (pX p) k = Some (nth k b 0%Z) -> (low k <= key j k <= low k + m)%Z) as [low Hlow'].
    { assert (forall k, (k < dimn d)%nat -> exists l, forall j p, cParts s !! j = Some p -> enabled p ->
        block_number env (pX p) k = Some (nth k b 0%Z) -> (l <= key j k <= l + m)%Z) as H.
      { intros k Hk. destruct (Hall k Hk) as [n Hn]. destruct (lookup_lt_is_Some_2 b k ltac:(lia)) as [z Hz].
        rewrite (nth_lookup_Some b k 0%Z z Hz). apply (Hlow k z n Hk Hn). by apply (Hrange k). }
      assert (forall K, (K <= dimn d)%nat -> exists low : nat -> Z, forall k, (k < K)%nat -> forall j p, cParts s !! j = Some p -> enabled p ->
        block_number env (pX p) k = Some (nth k b 0%Z) -> (low k <= key j k <= low k + m)%Z) as H'; [|by apply H'].
      induction K as [|K IH]; intros HK; [exists (fun _ => 0%Z); intros k Hk; lia|].
      destruct (IH ltac:(lia)) as [low Hl]. destruct (H K ltac:(lia)) as [l HlK]. exists (fun k => if decide (k = K) then l else low k).
      intros k Hk. destruct (decide (k = K)) as [->|]; [done|]. apply Hl. lia. }
    set (kk j := map (fun k => (key j k - low k)%Z) (seq 0 (dimn d))).
    assert (NoDup (map kk js)) as Hndk.
    { apply NoDup_fmap_2_strong; [|done]. intros i j Hi Hj Hk.
      destruct (Hjs i Hi) as (p & Hp & Hep & _). destruct (Hjs j Hj) as (q & Hq' & Heq & _).
      apply (Hinj i j p q); try done. intros k Hkd.
      assert (kk i !! k = kk j !! k) as E by (by rewrite Hk). unfold kk in E.
      rewrite !list_lookup_fmap, !(proj2 (lookup_seq 0 (dimn d) k k)) in E by lia. simpl in E. injection E. lia. }
    assert (forall x, x ∈ map kk js -> x ∈ all_keys (replicate (dimn d) (m + 1)%Z)) as Hsub.
    { intros x Hx. apply elem_of_list_fmap in Hx as (j & -> & Hj). destruct (Hjs j Hj) as (p & Hp & Hep & Hb).
      apply elem_of_all_keys. split; [unfold kk; by rewrite map_length, seq_length, replicate_length|].
      unfold in_range. apply forallb_forall. intros [v n] Hin. apply elem_of_list_In, elem_of_list_lookup in Hin as (k & Hk).
      rewrite lookup_zip_with in Hk. unfold kk in Hk. rewrite list_lookup_fmap in Hk.
      destruct (seq 0 (dimn d) !! k) as [k'|] eqn:Ek; [|done]. apply lookup_seq in Ek as [-> Hkd]. simpl in Hk.
      rewrite lookup_replicate_2 in Hk by done. simpl in Hk. injection Hk as <- <-. simpl.
      destruct (lookup_lt_is_Some_2 b k ltac:(lia)) as [z Hz].
      assert (low k <= key j k <= low k + m)%Z by (apply (Hlow' k Hkd j p Hp Hep); rewrite (nth_lookup_Some b k 0%Z z Hz); by apply Hb).
      apply andb_true_iff. lia. }
    assert (length js <= Z.to_nat (m + 1) ^ dimn d)%nat as Hle.
    { rewrite <- (map_length kk js), <- length_all_keys. rewrite Z2Nat.id by lia. apply submseteq_length. by apply NoDup_submseteq. }
    assert (Z.of_nat (Z.to_nat (m + 1) ^ dimn d) = ((m + 1) ^ Z.of_nat (dimn d))%Z) as Hcle by (rewrite Nat2Z.inj_pow, Z2Nat.id; lia).
    lia.
  Qed.

  (** The grid of a reachable state has a capacity and numbers of blocks. *)
  Lemma grid_numbers env0 s : inv env0 s ->
    (exists m, nceil (eNL env0 /. eL0 env0) = Some m) /\ (forall k, (k < dimn d)%nat -> exists n, blocks_along env0 k = Some n).
  Proof.
    intros Hinv. destruct (inv_geom _ _ Hinv) as (g0 & Hg0 & (Hlen & Ho & Hs & Hc)).
    destruct (new_grid_shape _ _ _ _ _ Hg0) as (Hlen0 & Ho0 & Hs0 & (mm & Hm & Hc0)). split; [by exists mm|].
    intros k Hk. assert (grid_wf (cGrid s)) as Hgw by apply Hinv. pose proof (gw_dim _ Hgw) as HD.
    destruct (lookup_lt_is_Some_2 (g_shape d (cGrid s)) k ltac:(lia)) as [n Hn]. rewrite Hs in Hn.
    apply Hs0 in Hn as (_ & c & Hc' & ->). exists (c + 2)%Z. unfold blocks_along. by rewrite Hc'.
  Qed.

  Lemma not_crowded_no_throw env0 dt s : square_ground env0 -> reachable env0 s -> ~ crowded env0 s -> forall s', forward_dt dt s <> Throw TooManyParticles s'.
  Proof.
    intros Hsq Hr Hnc s' H. pose proof (reachable_inv env0 s Hsq Hr) as Hinv. destruct (inv_ok _ _ Hsq Hinv) as [Hwf Hok].
    pose proof (search_spec (start_step dt s) (wf_start dt s Hwf) Hok) as HS.
    destruct (search_neighbor (start_step dt s)) as [s1|e s1|] eqn:E.
    - destruct (after_search env0 dt s s1 Hsq Hr E) as (s2 & s3 & s4 & s5 & s6 & _ & HI).
      destruct (compute_implicit s6) as [s7|e s7|]; [| |done].
      + destruct HI as [u Hu]. congruence.
      + destruct HI as (_ & Hu & _). congruence.
    - destruct HS as (-> & _ & _ & m & k & Hm & Hc & _). apply Hnc. by apply (count_overfull env0 s k Hinv).
    - unfold forward_dt in H. fold (start_step dt s) in H. rewrite E in H. done.
  Qed.
End Generic.

(** ** Exact arithmetic *)
Section Exact.
  Context {cfg : config} {wm : wallmotion Rnum (cDim cfg)}.
  Notation d := (cDim cfg).
  Implicit Types (s : computer cfg wm).

  (** One particle per cell: ForwardTime never raises the grid exception.  The cells may have any side from l_0 on and lie anywhere; the particles
      may be anywhere in their cells. *)
  Theorem C48_cells (env0 : environment Rnum cfg) dt s a l :
    square_ground env0 -> reachable env0 s -> 0 < (eNL env0 : R) -> 0 < (eL0 env0 : R) -> (eL0 env0 : R) <= l -> one_per_cell a l s ->
    forall s', forward_dt dt s <> Throw TooManyParticles s'.
  Proof.
    intros Hsq Hr HNL Hl0 Hl Hone. apply (not_crowded_no_throw env0); [done..|].
    pose proof (reachable_inv env0 s Hsq Hr) as Hinv. destruct (grid_numbers env0 s Hinv) as [[m Hm] Hall].
    pose proof Hm as Hm'. simpl in Hm'. apply to_index_Some in Hm'.
    assert (0 < (eNL env0 : R) / (eL0 env0 : R)) as Hq by (apply Rdiv_lt_0_compat; lra).
    assert ((eNL env0 : R) <= IZR m * (eL0 env0 : R)) as HNLm.
    { pose proof (Zceil_ub ((eNL env0 : R) / (eL0 env0 : R))) as Hu. rewrite <- Hm' in Hu. apply (Rmult_le_compat_r (eL0 env0 : R)) in Hu; [|lra].
      unfold Rdiv in Hu. rewrite Rmult_assoc, Rinv_l in Hu by lra. lra. }
    assert (0 < m)%Z as Hm0. { apply lt_IZR. nra. }
    set (key (j k : nat) := match cParts s !! j with Some p => cell_number (a k) l (coord (pX p) k) | None => 0%Z end).
    apply (keys_not_crowded env0 s key m Hm ltac:(lia)); [| |done].
    - intros i j p q Hp Hep Hq' Heq Hk. destruct (decide (i = j)) as [|Hne]; [done|exfalso].
      destruct (Hone i j p q Hp Hep Hq' Heq Hne) as (k & Hkd & Hdiff). apply Hdiff. specialize (Hk k Hkd). unfold key in Hk. by rewrite Hp, Hq' in Hk.
    - intros k z n Hk Hn Hz. set (A := (coord (eMinX env0) k + IZR z * (eNL env0 : R) - a k) / l). exists (Zfloor A). intros j p Hp Hep Hb.
      unfold key. rewrite Hp. unfold block_number in Hb. simpl in Hb. apply to_index_Some in Hb.
      set (xi := (coord (pX p) k - coord (eMinX env0) k) / (eNL env0 : R)).
      change (z = Zfloor xi) in Hb.
      pose proof (Zfloor_lb xi) as L1. pose proof (Zfloor_ub xi) as L2. rewrite <- Hb in L1, L2.
      unfold cell_number. set (y := (coord (pX p) k - a k) / l).
      assert (y * l = xi * (eNL env0 : R) + coord (eMinX env0) k - a k) as Ey by (unfold y, xi; field; lra).
      assert (A * l = coord (eMinX env0) k + IZR z * (eNL env0 : R) - a k) as EA by (unfold A; field; lra).
      assert (A <= y) as B1 by nra.
      assert (y < A + IZR m) as B2.
      { assert (0 < IZR m) by (by apply IZR_lt). assert (IZR m * (eL0 env0 : R) <= IZR m * l) by nra. nra. }
      split; [by apply Zfloor_le|]. rewrite <- (Zfloor_imp (Zfloor A + m) (A + IZR m)).
      + apply Zfloor_le. lra.
      + rewrite !plus_IZR. pose proof (Zfloor_lb A). pose proof (Zfloor_ub A). lra.
  Qed.

  (** Particles that keep a distance of sqrt(D) l_0: likewise. *)
  Theorem C48_apart (env0 : environment Rnum cfg) dt s :
    square_ground env0 -> reachable env0 s -> 0 < (eNL env0 : R) -> 0 < (eL0 env0 : R) -> apart_by (R_sqrt.sqrt (INR (dimn d)) * (eL0 env0 : R)) s ->
    forall s', forward_dt dt s <> Throw TooManyParticles s'.
  Proof.
    intros Hsq Hr HNL Hl0 Hap. apply (C48_cells env0 dt s (fun _ => 0) (eL0 env0)); try done; [lra|].
    set (l := (eL0 env0 : R)) in *. intros i j p q Hp Hep Hq Heq Hij.
    destruct (decide (Forall (fun k => cell_number 0 l (coord (pX p) k) = cell_number 0 l (coord (pX q) k)) (seq 0 (dimn d)))) as [HF|HF].
    - exfalso. specialize (Hap i j p q Hp Hep Hq Heq Hij). rewrite list.Forall_forall in HF.
      assert (forall k, (k < dimn d)%nat -> (coord (pX p) k - coord (pX q) k) ^ 2 < l * l) as HC.
      { intros k Hk. specialize (HF k ltac:(apply elem_of_seq; lia)). unfold cell_number in HF.
        set (u := (coord (pX p) k - 0) / l) in *. set (v := (coord (pX q) k - 0) / l) in *.
        pose proof (Zfloor_lb u). pose proof (Zfloor_ub u). pose proof (Zfloor_lb v). pose proof (Zfloor_ub v). rewrite HF in *.
        assert (coord (pX p) k - coord (pX q) k = (u - v) * l) as -> by (unfold u, v; field; lra).
        assert (-1 < u - v < 1) by lra. replace (((u - v) * l) ^ 2) with ((u - v) * (u - v) * (l * l)) by ring.
        assert (0 < l * l) as Hll by (apply Rmult_lt_0_compat; lra). rewrite <- (Rmult_1_l (l * l)) at 2. apply Rmult_lt_compat_r; [done|].
        assert ((u - v) * (u - v) < 1) as Huv; [|exact Huv]. assert (0 < (1 - (u - v)) * (1 + (u - v))) by (apply Rmult_lt_0_compat; lra). lra. }
      assert (edist (pX p) (pX q) < R_sqrt.sqrt (INR (dimn d)) * l) as Hlt; [|lra].
      unfold edist. assert (R_sqrt.sqrt (INR (dimn d)) * l = R_sqrt.sqrt (INR (dimn d) * (l * l))) as ->.
      { rewrite R_sqrt.sqrt_mult_alt by apply pos_INR. f_equal. symmetry. apply R_sqrt.sqrt_square. lra. }
      apply R_sqrt.sqrt_lt_1_alt. split; [apply sum_n_nonneg; intros; apply pow2_ge_0|].
      assert (forall n (f : nat -> R), (0 < n)%nat -> (forall k, (k < n)%nat -> f k < l * l) -> sum_n n f < INR n * (l * l)) as HS.
      { clear. intros n f Hn Hf. destruct n as [|n]; [lia|]. rewrite sum_n_S, S_INR.
        assert (sum_n n f <= INR n * (l * l)); [|pose proof (Hf n ltac:(lia)); lra].
        assert (forall i, (i < n)%nat -> f i < l * l) as Hf' by (intros; apply Hf; lia). clear Hf Hn. induction n as [|n IH]; [rewrite sum_n_zero by lia; simpl; lra|].
        rewrite sum_n_S, S_INR. pose proof (IH ltac:(intros; apply Hf'; lia)). pose proof (Hf' n ltac:(lia)). lra. }
      apply HS; [apply dimn_pos'|done].
    - apply not_Forall_Exists in HF; [|apply _]. apply list.Exists_exists in HF as (k & Hk & HF). exists k. split; [apply elem_of_seq in Hk; lia|done].
  Qed.
End Exact.

(** ** Rounded arithmetic *)
Lemma ceil_value (a : B64num) z : nceil a = Some z -> is_finite (a : B64) = true /\ IZR z - 1 < B2R (a : B64) <= IZR z.
Proof.
  change (f64_index (sf_ceil (B2SF (a : B64))) = Some z -> is_finite (a : B64) = true /\ IZR z - 1 < B2R (a : B64) <= IZR z).
  intros H. assert (sf_floor (SFopp (B2SF (a : B64))) = Some (- z)%Z) as Hf.
  { unfold f64_index, sf_ceil in H. destruct (sf_floor _) as [y|]; [|done]. simpl in H. destruct (_ && _); [|done]. injection H as <-. f_equal. lia. }
  assert (f64_index (sf_floor (SFopp (B2SF (a : B64)))) = Some (- z)%Z \/ (z = - 2 ^ 63)%Z) as [Hi|Hz].
  { rewrite Hf. unfold f64_index, sf_ceil in *. rewrite Hf in H. simpl in H. rewrite Z.opp_involutive in H.
    destruct ((- 2 ^ 63 <=? z) && (z <? 2 ^ 63))%Z eqn:E; [|done]. destruct ((- 2 ^ 63 <=? - z) && (- z <? 2 ^ 63))%Z eqn:E'; [by left|right].
    apply andb_prop in E as [E1 E2]. apply andb_false_iff in E'. lia. }
  - assert (nfloor (Bopp (a : B64) : B64num) = Some (- z)%Z) as Hn.
    { change (f64_index (sf_floor (B2SF (Bopp (a : B64)))) = Some (- z)%Z). rewrite <- Hi. do 2 f_equal. by destruct (a : B64). }
    apply floor_value in Hn as [F HB]. rewrite is_finite_Bopp in F. rewrite B2R_Bopp, opp_IZR in HB. split; [done|lra].
  - clear H. destruct (a : B64) as [b|b| |b m e B]; cbn in Hf; try done.
    + injection Hf as Hf. lia.
    + split; [done|]. injection Hf as Hf. cbn [B2R]. set (y := cond_Zopp b (Z.pos m)).
      assert ((if negb b then Z.neg m else Z.pos m) = - y)%Z as Ey by (by destruct b). rewrite Ey in Hf.
      assert ((if (0 <=? e)%Z then - y * 2 ^ e else - y / 2 ^ (- e))%Z = Zfloor (- F2R (Float radix2 y e))) as E2.
      { unfold F2R. cbn [Fnum Fexp]. destruct (Z.leb_spec 0 e) as [He|He].
        - rewrite <- IZR_Zpower by done. rewrite <- mult_IZR, <- opp_IZR, Zfloor_IZR. simpl. lia.
        - rewrite <- Zfloor_div by (apply Z.pow_nonzero; lia). f_equal. rewrite opp_IZR. unfold Rdiv. rewrite Ropp_mult_distr_l. f_equal.
          assert (bpow radix2 e = / bpow radix2 (- e)) as -> by (by rewrite <- bpow_opp, Z.opp_involutive). rewrite <- IZR_Zpower by lia. done. }
      rewrite E2 in Hf. assert (z = - Zfloor (- F2R (Float radix2 y e)))%Z as -> by lia. rewrite opp_IZR.
      pose proof (Zfloor_lb (- F2R (Float radix2 y e))). pose proof (Zfloor_ub (- F2R (Float radix2 y e))). lra.
Qed.

Section Rounded.
  Context {cfg : config} {wm : wallmotion B64num (cDim cfg)}.
  Notation d := (cDim cfg).
  Implicit Types (s : computer cfg wm).

  (** Where the particles of a block can be. *)
  Lemma block_interval (env0 : environment B64num cfg) (x : vec B64num d) k z n : is_finite (eNL env0 : B64) = true -> 0 < B2R (eNL env0 : B64) ->
    block_number env0 x k = Some z -> (0 <= z < n)%Z ->
    IZR z - IZR n * (4 * ulp1) <= (B2R (tget d x k : B64) - B2R (tget d (eMinX env0) k : B64)) / B2R (eNL env0 : B64) < IZR z + 1 + IZR (n + 1) * (4 * ulp1).
  Proof.
    intros FL HL Hb [Hz0 Hzn]. destruct (number_value env0 x k z FL HL Hb) as (_ & _ & g & t & Hg & Ht & H1 & H2).
    set (xi := (_ - _) / _) in *. pose proof ulp1_pos as [HU1 HU2]. pose proof tiny1_pos as [HT1 HT2]. apply Rabs_le_inv in Hg, Ht.
    assert (0 <= IZR z) as Z0 by (by apply IZR_le). assert (IZR z + 1 <= IZR n) as Zn by (rewrite <- (plus_IZR z 1); apply IZR_le; lia).
    rewrite plus_IZR. set (Z := IZR z) in *. set (M := IZR n) in *. assert (0 < 1 + g) as Hg1 by lra. split.
    - apply (Rmult_le_reg_r (1 + g)); [done|].
      apply Rle_trans with (Z - tiny1); [|lra].
      assert (Z * g <= Z * (3 * ulp1)) by (apply Rmult_le_compat_l; lra).
      assert (M * (4 * ulp1) * (13 / 16) <= M * (4 * ulp1) * (1 + g)). { apply Rmult_le_compat_l; [|lra]. apply Rmult_le_pos; lra. }
      assert (ulp1 * (Z + 1) <= ulp1 * M) by (apply Rmult_le_compat_l; lra). assert (0 <= ulp1 * Z) by (apply Rmult_le_pos; lra). lra.
    - apply (Rmult_lt_reg_r (1 + g)); [done|].
      apply Rlt_le_trans with (Z + 1 + tiny1); [lra|].
      assert ((Z + 1) * (- (3 * ulp1)) <= (Z + 1) * g) by (apply Rmult_le_compat_l; lra).
      assert ((M + 1) * (4 * ulp1) * (13 / 16) <= (M + 1) * (4 * ulp1) * (1 + g)). { apply Rmult_le_compat_l; [|lra]. apply Rmult_le_pos; lra. }
      assert (ulp1 * (Z + 1) <= ulp1 * M) by (apply Rmult_le_compat_l; lra). assert (0 <= ulp1 * Z) by (apply Rmult_le_pos; lra). lra.
  Qed.

  (** In [double]: particles that are near the points of a lattice, at most one at each, never raise the grid exception.  [n]: at least the number of blocks
      on every axis. *)
  Theorem C48_binary64 (env0 : environment B64num cfg) dt s a l delta (n : Z) :
    square_ground env0 -> reachable env0 s ->
    is_finite (eNL env0 : B64) = true -> 0 < B2R (eNL env0 : B64) -> 0 < B2R (eL0 env0 : B64) <= l ->
    (forall k m, (k < dimn d)%nat -> blocks_along env0 k = Some m -> (m <= n)%Z) ->
    near_lattice a l delta s ->
    2 * delta + IZR (n + 2) * bpow radix2 (-50) * B2R (eNL env0 : B64) <= l * (1 - bpow radix2 (-50)) ->
    forall s', forward_dt dt s <> Throw TooManyParticles s'.
  Proof.
    intros Hsq Hr FL HL [Hl0 Hl] Hn (z & Hz & Hinj) Hcond. apply (not_crowded_no_throw env0); [done..|].
    pose proof (reachable_inv env0 s Hsq Hr) as Hinv. destruct (grid_numbers env0 s Hinv) as [[m Hm] Hall].
    destruct (ceil_value _ _ Hm) as [FQ [HQ1 HQ2]].
    change (eNL env0 /. eL0 env0) with (Bdiv mode_NE (eNL env0 : B64) (eL0 env0 : B64)) in FQ, HQ1, HQ2.
    destruct (div_value (eNL env0 : B64) (eL0 env0 : B64) (Rgt_not_eq _ _ Hl0) FQ) as (e & t & He & Ht & HV). rewrite HV in HQ1, HQ2. clear HV FQ.
    set (NL := B2R (eNL env0 : B64)) in *. set (l0 := B2R (eL0 env0 : B64)) in *.
    pose proof ulp1_pos as [HU1 HU2]. pose proof tiny1_pos as [HT1 HT2]. apply Rabs_le_inv in He, Ht.
    assert (bpow radix2 (-50) = 8 * ulp1) as E50 by (unfold ulp1; change 8 with (bpow radix2 3); by rewrite bpow_prod). rewrite E50 in Hcond.
    assert (0 < NL / l0) as Hq by (apply Rdiv_lt_0_compat; lra).
    assert (0 <= m)%Z as Hm0.
    { assert (-1 < m)%Z; [|lia]. apply lt_IZR. assert (0 <= NL / l0 * (1 + e)) by (apply Rmult_le_pos; lra). lra. }
    assert (NL <= IZR m * l + ulp1 * NL + tiny1 * l) as HNLm.
    { assert ((NL / l0 * (1 + e) + t) * l0 <= IZR m * l0) as H1 by (apply Rmult_le_compat_r; lra).
      replace ((NL / l0 * (1 + e) + t) * l0) with (NL * (1 + e) + t * l0) in H1 by (field; lra).
      assert (IZR m * l0 <= IZR m * l) by (apply Rmult_le_compat_l; [apply IZR_le; lia|done]).
      assert (NL * (- ulp1) <= NL * e) by (apply Rmult_le_compat_l; lra).
      assert (- tiny1 * l0 <= t * l0) by (apply Rmult_le_compat_r; lra). assert (tiny1 * l0 <= tiny1 * l) by (apply Rmult_le_compat_l; lra). lra. }
    apply (keys_not_crowded env0 s z m Hm ltac:(lia)); [done| |done].
    intros k b nk Hk Hnk Hb. set (o := B2R (tget d (eMinX env0) k : B64)).
    set (A := (o + NL * (IZR b - IZR n * (4 * ulp1)) - delta - a k) / l). exists (Zceil A). intros j p Hp Hep Hbn.
    pose proof (Hn k nk Hk Hnk) as Hnn.
    destruct (block_interval env0 (pX p) k b n FL HL Hbn ltac:(lia)) as [I1 I2]. fold NL o in I1, I2.
    specialize (Hz j p k Hp Hep Hk). apply Rabs_le_inv in Hz. set (x := B2R (tget d (pX p) k : B64)) in *.
    apply (Rmult_le_compat_r NL) in I1; [|lra]. apply (Rmult_lt_compat_r NL) in I2; [|lra].
    replace ((x - o) / NL * NL) with (x - o) in I1, I2 by (field; lra).
    assert (A * l = o + NL * (IZR b - IZR n * (4 * ulp1)) - delta - a k) as EA by (unfold A; field; lra).
    assert (A <= IZR (z j k)) as B1. { apply (Rmult_le_reg_r l); [lra|]. lra. }
    assert (IZR (z j k) < A + IZR m + 1) as B2.
    { apply (Rmult_lt_reg_r l); [lra|]. rewrite !Rmult_plus_distr_r, EA. rewrite plus_IZR in I2. rewrite plus_IZR in Hcond.
      assert (tiny1 * l <= ulp1 * l) by (apply Rmult_le_compat_r; lra). assert (0 < ulp1 * l) by (apply Rmult_lt_0_compat; lra). assert (0 < ulp1 * NL) by (apply Rmult_lt_0_compat; lra). lra. }
    split; [by apply Zceil_glb|]. assert (z j k < Zceil A + m + 1)%Z; [|lia]. apply lt_IZR. rewrite !plus_IZR. pose proof (Zceil_ub A). lra.
  Qed.
End Rounded.

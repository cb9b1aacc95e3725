(** Property theorems: the search with rounding (C71). *)
From Coq Require Import ZArith Reals Lra.
From Verif Require Import S_Float P_Real P_Life P_Search P_Reach P_Neigh P_B64 S_Reach S_Outcome T_Binary64 T_Float T_Outcome.
From Flocq Require Import Core BinarySingleNaN Relative Plus_error.
Open Scope R_scope.

(** The conversion to the index type. *)
Lemma floor_value (a : B64num) z : nfloor a = Some z -> is_finite (a : B64) = true /\ IZR z <= B2R (a : B64) < IZR z + 1.
Proof.
  change (f64_index (sf_floor (B2SF (a : B64))) = Some z -> is_finite (a : B64) = true /\ IZR z <= B2R (a : B64) < IZR z + 1).
  intros H. assert (sf_floor (B2SF (a : B64)) = Some z) as Hf.
  { unfold f64_index in H. destruct (sf_floor _) as [y|]; [|done]. destruct (_ && _); congruence. }
  clear H. destruct (a : B64) as [b|b| |b m e B]; cbn [B2SF sf_floor] in Hf; try done.
  - injection Hf as <-. split; [done|]. simpl. lra.
  - split; [done|]. injection Hf as <-. cbn [B2R]. set (y := cond_Zopp b (Z.pos m)).
    assert ((if b then Z.neg m else Z.pos m) = y) as -> by (by destruct b).
    assert ((if (0 <=? e)%Z then y * 2 ^ e else y / 2 ^ (- e))%Z = Zfloor (F2R (Float radix2 y e))) as ->.
    { unfold F2R. cbn [Fnum Fexp]. destruct (Z.leb_spec 0 e) as [He|He].
      - rewrite <- IZR_Zpower by done. rewrite <- mult_IZR. by rewrite Zfloor_IZR.
      - rewrite <- Zfloor_div by (apply Z.pow_nonzero; lia). f_equal. unfold Rdiv. f_equal.
        assert (bpow radix2 e = / bpow radix2 (- e)) as -> by (by rewrite <- bpow_opp, Z.opp_involutive). rewrite <- IZR_Zpower by lia. done. }
    split; [apply Zfloor_lb|apply Zfloor_ub].
Qed.

Definition ulp1 : R := bpow radix2 (-53).
Definition tiny1 : R := bpow radix2 (-1075).
Lemma ulp1_pos : 0 < ulp1 <= 1 / 16.
Proof. split; [apply bpow_gt_0|]. replace (1 / 16) with (bpow radix2 (-4)); [apply bpow_le; lia|simpl; lra]. Qed.
Lemma tiny1_pos : 0 < tiny1 <= ulp1.
Proof. split; [apply bpow_gt_0|]. apply bpow_le. lia. Qed.

(** Differences have a relative error only, ... *)
Lemma minus_value (x y : B64) : is_finite (Bminus mode_NE x y) = true ->
  exists e, Rabs e <= ulp1 /\ B2R (Bminus mode_NE x y) = (B2R x - B2R y) * (1 + e).
Proof.
  intros HF. assert (is_finite x = true) as Fx by (by destruct x as [|[]| |], y as [|[]| |]).
  assert (is_finite y = true) as Fy by (by destruct x as [|[]| |], y as [|[]| |]).
  pose proof (Bminus_correct 53 1024 _ _ mode_NE x y Fx Fy) as H.
  destruct (Rlt_bool_spec (Rabs (rnd (B2R x - B2R y))) (bpow radix2 1024)) as [_|Hov].
  - destruct H as (HV & _ & _). rewrite HV.
    destruct (FLT_plus_error_N_ex radix2 (3 - 1024 - 53) 53 (fun x => negb (Z.even x)) (B2R x) (- B2R y)) as (e & He & Hr).
    { apply generic_format_B2R. }
    { apply generic_format_opp, generic_format_B2R. }
    exists e. split.
    + apply Rabs_le_inv in He. assert (u_ro radix2 53 = ulp1) as HU.
      { unfold u_ro, ulp1. change (/ 2) with (bpow radix2 (-1)). by rewrite <- bpow_plus. }
      rewrite HU in He. pose proof ulp1_pos. assert (ulp1 / (1 + ulp1) <= ulp1) as Hle.
      { apply (Rmult_le_reg_r (1 + ulp1)); [lra|]. unfold Rdiv. rewrite Rmult_assoc, Rinv_l by lra. nra. }
      apply Rabs_le. lra.
    + exact Hr.
  - destruct H as [H _]. exfalso. destruct (Bminus mode_NE x y); done.
Qed.
(** ... quotients another one for very small results. *)
Lemma div_value (x y : B64) : B2R y <> 0 -> is_finite (Bdiv mode_NE x y) = true ->
  exists e t, Rabs e <= ulp1 /\ Rabs t <= tiny1 /\ B2R (Bdiv mode_NE x y) = B2R x / B2R y * (1 + e) + t.
Proof.
  intros Hy HF. pose proof (Bdiv_correct 53 1024 _ _ mode_NE x y Hy) as H.
  destruct (Rlt_bool_spec (Rabs (rnd (B2R x / B2R y))) (bpow radix2 1024)) as [_|Hov].
  - destruct H as (HV & _ & _). rewrite HV.
    destruct (error_N_FLT radix2 (3 - 1024 - 53) 53 eq_refl (fun x => negb (Z.even x)) (B2R x / B2R y)) as (e & t & He & Ht & _ & Hr).
    exists e, t. assert (/ 2 * bpow radix2 (- (53) + 1) = ulp1) as E1.
    { unfold ulp1. change (/ 2) with (bpow radix2 (-1)). by rewrite <- bpow_plus. }
    assert (/ 2 * bpow radix2 (3 - 1024 - 53) = tiny1) as E2.
    { unfold tiny1. change (/ 2) with (bpow radix2 (-1)). by rewrite <- bpow_plus. }
    rewrite E1 in He. rewrite E2 in Ht. done.
  - exfalso. destruct (Bdiv mode_NE x y); done.
Qed.

(** A computed block coordinate: exact one, with errors. *)
Lemma coordinate_value (x m l : B64) : 0 < B2R l -> is_finite l = true -> is_finite (Bdiv mode_NE (Bminus mode_NE x m) l) = true ->
  exists g t, Rabs g <= 3 * ulp1 /\ Rabs t <= tiny1 /\
    B2R (Bdiv mode_NE (Bminus mode_NE x m) l) = (B2R x - B2R m) / B2R l * (1 + g) + t.
Proof.
  intros Hl Fl HF. destruct (div_value _ l ltac:(lra) HF) as (f & t & Hf & Ht & HQ).
  assert (is_finite (Bminus mode_NE x m) = true) as FM.
  { destruct (Bminus mode_NE x m) as [|[]| |], l as [|[]| |[]]; done. }
  destruct (minus_value x m FM) as (e & He & HM). exists ((1 + e) * (1 + f) - 1), t. split; [|split; [done|]].
  - apply Rabs_le_inv in He, Hf. pose proof ulp1_pos. apply Rabs_le. nra.
  - rewrite HQ, HM. unfold Rdiv. ring.
Qed.

(** Close coordinates have close block numbers. *)
Lemma blocks_close (c dd g1 g2 t1 t2 : R) (z z' n : Z) :
  Rabs g1 <= 3 * ulp1 -> Rabs g2 <= 3 * ulp1 -> Rabs t1 <= tiny1 -> Rabs t2 <= tiny1 ->
  IZR z <= c * (1 + g1) + t1 < IZR z + 1 -> IZR z' <= dd * (1 + g2) + t2 < IZR z' + 1 ->
  (0 <= z < n)%Z -> (0 <= z' < n)%Z -> Rabs (c - dd) <= 1 - 16 * ulp1 * IZR n -> (Z.abs (z - z') <= 1)%Z.
Proof.
  intros G1 G2 T1 T2 A B Hz Hz' HD. pose proof ulp1_pos. pose proof tiny1_pos.
  assert (1 <= IZR n) as Hn by (apply IZR_le; lia).
  assert (0 <= IZR z /\ IZR z + 1 <= IZR n) as [Z1 Z2] by (split; [apply IZR_le; lia|rewrite <- plus_IZR; apply IZR_le; lia]).
  assert (0 <= IZR z' /\ IZR z' + 1 <= IZR n) as [Z1' Z2'] by (split; [apply IZR_le; lia|rewrite <- plus_IZR; apply IZR_le; lia]).
  assert (forall x g t, Rabs g <= 3 * ulp1 -> Rabs t <= tiny1 -> 0 <= x * (1 + g) + t < IZR n -> Rabs x <= 2 * IZR n) as HX.
  { intros x g t Hg Ht Hx. apply Rabs_le_inv in Hg, Ht. apply Rabs_le. split.
    - destruct (Rle_or_lt (- (2 * IZR n)) x); [done|]. nra.
    - destruct (Rle_or_lt x (2 * IZR n)); [done|]. nra. }
  assert (Rabs c <= 2 * IZR n) as Hc by (apply (HX c g1 t1); try done; lra).
  assert (Rabs dd <= 2 * IZR n) as Hdd by (apply (HX dd g2 t2); try done; lra).
  assert (Rabs (c * g1) <= 6 * ulp1 * IZR n) as H1.
  { rewrite Rabs_mult. apply (Rle_trans _ (2 * IZR n * (3 * ulp1))); [|lra]. apply Rmult_le_compat; try apply Rabs_pos; done. }
  assert (Rabs (dd * g2) <= 6 * ulp1 * IZR n) as H2.
  { rewrite Rabs_mult. apply (Rle_trans _ (2 * IZR n * (3 * ulp1))); [|lra]. apply Rmult_le_compat; try apply Rabs_pos; done. }
  apply Rabs_le_inv in H1, H2, HD, T1, T2.
  assert (ulp1 <= ulp1 * IZR n) by nra.
  assert (IZR z - IZR z' < 2 /\ IZR z' - IZR z < 2) as [K1 K2] by lra.
  rewrite <- minus_IZR in K1, K2. apply lt_IZR in K1, K2. lia.
Qed.

(** *** Computed distances *)
(** [b] is [v] up to a relative error [r] and an absolute one [t]. *)
Definition approx (r t : R) (b : B64) (v : R) : Prop := is_finite b = true /\ 0 <= v /\ Rabs (B2R b - v) <= r * v + t.

Lemma big_bound v : 0 <= v -> v <= bpow radix2 1010 -> Rabs (rnd v) < bpow radix2 1024.
Proof.
  intros H0 H. rewrite Rabs_right by (apply Rle_ge; by apply rnd_ge0).
  apply (Rle_lt_trans _ (rnd (bpow radix2 1010))); [by apply rnd_le|].
  rewrite round_generic; [apply bpow_lt; lia|apply valid_rnd_N|]. apply generic_format_bpow. unfold SpecFloat.fexp, SpecFloat.emin. simpl. lia.
Qed.
Lemma rnd_opp v : rnd (- v) = - rnd v.
Proof. apply round_NE_opp. Qed.
Lemma big_bound_abs v : Rabs v <= bpow radix2 1010 -> Rabs (rnd v) < bpow radix2 1024.
Proof.
  intros H. destruct (Rle_or_lt 0 v) as [Hv|Hv]; [rewrite Rabs_right in H by lra; by apply big_bound|].
  rewrite <- (Ropp_involutive v), rnd_opp, Rabs_Ropp. apply big_bound; [lra|]. rewrite Rabs_left in H by lra. done.
Qed.

Lemma minus_ok (x y : B64) : is_finite x = true -> is_finite y = true -> Rabs (B2R x - B2R y) <= bpow radix2 1010 ->
  exists e, is_finite (Bminus mode_NE x y) = true /\ Rabs e <= ulp1 /\ B2R (Bminus mode_NE x y) = (B2R x - B2R y) * (1 + e).
Proof.
  intros Fx Fy H. pose proof (Bminus_correct 53 1024 _ _ mode_NE x y Fx Fy) as HC. rewrite Rlt_bool_true in HC by (by apply big_bound_abs).
  destruct HC as (_ & HF & _). destruct (minus_value x y HF) as (e & He & HV). by exists e.
Qed.
Lemma square_ok (x : B64) (v e : R) : is_finite x = true -> Rabs e <= ulp1 -> B2R x = v * (1 + e) -> Rabs v <= bpow radix2 500 ->
  approx (4 * ulp1) tiny1 (Bmult mode_NE x x) (v * v).
Proof.
  intros Fx He HV Hv. pose proof ulp1_pos as HU. apply Rabs_le_inv in He, Hv.
  assert (0 <= B2R x * B2R x) as Hsq by nra.
  assert (bpow radix2 500 * bpow radix2 500 = bpow radix2 1000) as E5 by (by rewrite <- bpow_plus).
  assert (4 * bpow radix2 1000 <= bpow radix2 1010) as E4.
  { change 4 with (bpow radix2 2). rewrite <- bpow_plus. apply bpow_le. lia. }
  assert (v * v <= bpow radix2 1000) as Hvv by (rewrite <- E5; pose proof (bpow_gt_0 radix2 500); nra).
  assert (B2R x * B2R x <= 4 * (v * v)) as Hx4.
  { rewrite HV. assert (0 <= (1 + e) * (1 + e) <= 4) by nra. nra. }
  pose proof (Bmult_correct 53 1024 _ _ mode_NE x x) as HC. rewrite Rlt_bool_true in HC by (apply big_bound; lra).
  destruct HC as (HR & HF & _). rewrite Fx in HF.
  destruct (error_N_FLT radix2 (3 - 1024 - 53) 53 eq_refl (fun x => negb (Z.even x)) (B2R x * B2R x)) as (f & t & Hf & Ht & _ & Hr).
  assert (/ 2 * bpow radix2 (- (53) + 1) = ulp1) as E1.
  { unfold ulp1. change (/ 2) with (bpow radix2 (-1)). by rewrite <- bpow_plus. }
  assert (/ 2 * bpow radix2 (3 - 1024 - 53) = tiny1) as E2.
  { unfold tiny1. change (/ 2) with (bpow radix2 (-1)). by rewrite <- bpow_plus. }
  rewrite E1 in Hf. rewrite E2 in Ht. split; [done|]. split; [nra|]. rewrite HR.
  change (rnd (B2R x * B2R x)) with (round radix2 (FLT_exp (3 - 1024 - 53) 53) (Znearest (fun x => negb (Z.even x))) (B2R x * B2R x)). rewrite Hr, HV.
  replace (v * (1 + e) * (v * (1 + e)) * (1 + f) + t - v * v) with (v * v * ((1 + e) * (1 + e) * (1 + f) - 1) + t) by ring.
  apply (Rle_trans _ _ _ (Rabs_triang _ _)). apply Rplus_le_compat; [|done]. rewrite Rabs_mult, (Rabs_right (v * v)) by nra.
  rewrite Rmult_comm. apply Rmult_le_compat_r; [nra|]. apply Rabs_le_inv in Hf. apply Rabs_le.
  assert (1 - 2 * ulp1 <= (1 + e) * (1 + e) <= 1 + 2 * ulp1 + ulp1 * ulp1) by nra.
  assert (ulp1 * ulp1 <= ulp1 / 16) by nra. nra.
Qed.
Lemma plus_ok (x y : B64) r t1 t2 v1 v2 : approx r t1 x v1 -> approx r t2 y v2 -> 0 <= r <= 1 / 2 -> 0 <= t1 -> 0 <= t2 -> t1 + t2 <= 1 ->
  v1 + v2 <= bpow radix2 1008 ->
  approx (r + 2 * ulp1) (2 * (t1 + t2)) (Bplus mode_NE x y) (v1 + v2).
Proof.
  intros (Fx & V1 & E1) (Fy & V2 & E2) Hr T1 T2 HT HV. pose proof ulp1_pos as HU.
  assert (Rabs (B2R x + B2R y - (v1 + v2)) <= r * (v1 + v2) + (t1 + t2)) as HE.
  { replace (B2R x + B2R y - (v1 + v2)) with ((B2R x - v1) + (B2R y - v2)) by ring.
    apply (Rle_trans _ _ _ (Rabs_triang _ _)). lra. }
  assert (Rabs (B2R x + B2R y) <= (1 + r) * (v1 + v2) + (t1 + t2)) as HA.
  { replace (B2R x + B2R y) with ((B2R x + B2R y - (v1 + v2)) + (v1 + v2)) by ring.
    apply (Rle_trans _ _ _ (Rabs_triang _ _)). rewrite (Rabs_right (v1 + v2)) by lra. lra. }
  assert (2 * bpow radix2 1008 + 1 <= bpow radix2 1010) as EB.
  { assert (bpow radix2 1010 = 4 * bpow radix2 1008) as -> by (change 4 with (bpow radix2 2); by rewrite <- bpow_plus).
    assert (1 <= bpow radix2 1008) by (change 1 with (bpow radix2 0); apply bpow_le; lia). lra. }
  assert (Rabs (B2R x + B2R y) <= bpow radix2 1010) as HB by nra.
  pose proof (Bplus_correct 53 1024 _ _ mode_NE x y Fx Fy) as HC. rewrite Rlt_bool_true in HC by (by apply big_bound_abs).
  destruct HC as (HR & HF & _).
  destruct (FLT_plus_error_N_ex radix2 (3 - 1024 - 53) 53 (fun x => negb (Z.even x)) (B2R x) (B2R y)) as (e & He & Hrr).
  { apply generic_format_B2R. } { apply generic_format_B2R. }
  assert (Rabs e <= ulp1) as He'.
  { assert (u_ro radix2 53 = ulp1) as HUU by (unfold u_ro, ulp1; change (/ 2) with (bpow radix2 (-1)); by rewrite <- bpow_plus).
    rewrite HUU in He. assert (ulp1 / (1 + ulp1) <= ulp1) as Hle.
    { apply (Rmult_le_reg_r (1 + ulp1)); [lra|]. unfold Rdiv. rewrite Rmult_assoc, Rinv_l by lra. nra. }
    lra. }
  split; [done|]. split; [lra|]. rewrite HR.
  change (rnd (B2R x + B2R y)) with (round radix2 (FLT_exp (3 - 1024 - 53) 53) (Znearest (fun x => negb (Z.even x))) (B2R x + B2R y)). rewrite Hrr.
  replace ((B2R x + B2R y) * (1 + e) - (v1 + v2)) with ((B2R x + B2R y - (v1 + v2)) + (B2R x + B2R y) * e) by ring.
  apply (Rle_trans _ _ _ (Rabs_triang _ _)). rewrite Rabs_mult.
  assert (Rabs (B2R x + B2R y) * Rabs e <= ((1 + r) * (v1 + v2) + (t1 + t2)) * ulp1) by (apply Rmult_le_compat; try apply Rabs_pos; done).
  assert (0 <= (v1 + v2) * ulp1) by (apply Rmult_le_pos; lra).
  assert (r * ((v1 + v2) * ulp1) <= 1 / 2 * ((v1 + v2) * ulp1)) by (apply Rmult_le_compat_r; lra).
  assert ((t1 + t2) * ulp1 <= (t1 + t2) * 1) by (apply Rmult_le_compat_l; lra).
  lra.
Qed.
Lemma approx_weaken r r' t t' b v : approx r t b v -> r <= r' -> t <= t' -> approx r' t' b v.
Proof. intros (F & V & E) H1 H2. split; [done|]. split; [done|]. nra. Qed.


Lemma bpow_prod a b : bpow radix2 a * bpow radix2 b = bpow radix2 (a + b).
Proof. by rewrite <- bpow_plus. Qed.
(** One square added to a sum. *)
Lemma add_square (a b : B64) r t v w e : approx r t a v -> is_finite b = true -> Rabs e <= ulp1 -> B2R b = w * (1 + e) -> Rabs w <= bpow radix2 500 ->
  4 * ulp1 <= r <= 1 / 2 -> 0 <= t -> t + tiny1 <= 1 -> v <= 2 * bpow radix2 1000 ->
  approx (r + 2 * ulp1) (2 * (t + tiny1)) (Bplus mode_NE a (Bmult mode_NE b b)) (v + w * w).
Proof.
  intros Ha Fb He HV Hw Hr Ht Ht' Hv. pose proof ulp1_pos. pose proof tiny1_pos. apply plus_ok; try done; try lra.
  - apply (approx_weaken (4 * ulp1) _ tiny1); [|lra..]. by apply (square_ok b w e).
  - apply Rabs_le_inv in Hw. assert (w * w <= bpow radix2 1000).
    { change 1000%Z with (500 + 500)%Z. rewrite bpow_plus. pose proof (bpow_gt_0 radix2 500). nra. }
    assert (4 * bpow radix2 1000 <= bpow radix2 1008).
    { change 4 with (bpow radix2 2). rewrite bpow_prod. apply bpow_le. lia. }
    pose proof (bpow_gt_0 radix2 1000). lra.
Qed.

Section Dist.
  Context {d : dim}.
  Notation V := (vec B64num d).
  Definition finite_at (x : V) : Prop := forall k, (k < dimn d)%nat -> is_finite (tget d x k : B64) = true.
  Definition near_by (x y : V) : Prop := forall k, (k < dimn d)%nat -> Rabs (B2R (tget d x k : B64) - B2R (tget d y k : B64)) <= bpow radix2 500.
End Dist.

Section Dist.
  Context {d : dim}.
  Notation V := (vec B64num d).

  Lemma squared_distance (x y : V) : finite_at x -> finite_at y -> near_by x y ->
    approx (10 * ulp1) (16 * tiny1) (vdot (x -^ y) (x -^ y)) (true_distance x y * true_distance x y).
  Proof.
    intros Fx Fy Hn. unfold true_distance, edist. rewrite R_sqrt.sqrt_sqrt.
    2: { apply sum_n_nonneg. intros k _. apply pow2_ge_0. }
    pose proof ulp1_pos as HU. pose proof tiny1_pos as HT.
    assert (16 * ulp1 <= 1 / 2).
    { assert (bpow radix2 (-5) = 1 / 32) as E5 by (simpl; lra). assert (ulp1 <= bpow radix2 (-5)) by (apply bpow_le; lia). lra. }
    assert (forall k, (k < dimn d)%nat -> exists e, is_finite (tget d (x -^ y) k : B64) = true /\ Rabs e <= ulp1 /\
      B2R (tget d (x -^ y) k : B64) = (B2R (tget d x k : B64) - B2R (tget d y k : B64)) * (1 + e)) as HM.
    { intros k Hk. unfold vsub. rewrite tget_tmk by done. apply minus_ok; [by apply Fx|by apply Fy|].
      apply (Rle_trans _ _ _ (Hn k Hk)). apply bpow_le. lia. }
    assert (forall k, (k < dimn d)%nat -> (coord (exactly_at x) k - coord (exactly_at y) k) ^ 2 =
      (B2R (tget d x k : B64) - B2R (tget d y k : B64)) * (B2R (tget d x k : B64) - B2R (tget d y k : B64))) as HC.
    { intros k Hk. unfold exactly_at. rewrite !coord_tmk by done. simpl. ring. }
    assert (forall k, (k < dimn d)%nat -> (B2R (tget d x k : B64) - B2R (tget d y k : B64)) * (B2R (tget d x k : B64) - B2R (tget d y k : B64)) <= bpow radix2 1000) as HB.
    { intros k Hk. specialize (Hn k Hk). apply Rabs_le_inv in Hn. change 1000%Z with (500 + 500)%Z. rewrite bpow_plus. pose proof (bpow_gt_0 radix2 500). nra. }
    assert (approx (4 * ulp1) 0 (B754_zero false) 0) as H0. { split; [done|]. split; [lra|]. simpl. rewrite Rminus_0_r, Rabs_R0. lra. }
    pose proof (bpow_gt_0 radix2 1000) as HP. unfold vdot. destruct d; cbn [dimn seq foldl].
    - destruct (HM 0%nat ltac:(simpl; lia)) as (e0 & F0 & E0 & V0). destruct (HM 1%nat ltac:(simpl; lia)) as (e1 & F1 & E1 & V1).
      pose proof (add_square _ _ _ _ _ _ _ H0 F0 E0 V0 (Hn 0%nat ltac:(simpl; lia)) ltac:(lra) ltac:(lra) ltac:(lra) ltac:(lra)) as A0.
      pose proof (add_square _ _ _ _ _ _ _ A0 F1 E1 V1 (Hn 1%nat ltac:(simpl; lia)) ltac:(lra) ltac:(lra) ltac:(lra)
        ltac:(pose proof (HB 0%nat ltac:(simpl; lia)); lra)) as A1.
      apply (approx_weaken _ (10 * ulp1) _ (16 * tiny1)) in A1; [|lra..].
      assert (sum_n 2 (fun k => (coord (exactly_at x) k - coord (exactly_at y) k) ^ 2) = 0 +
        (B2R (tget D2 x 0 : B64) - B2R (tget D2 y 0 : B64)) * (B2R (tget D2 x 0 : B64) - B2R (tget D2 y 0 : B64)) +
        (B2R (tget D2 x 1 : B64) - B2R (tget D2 y 1 : B64)) * (B2R (tget D2 x 1 : B64) - B2R (tget D2 y 1 : B64))) as ->; [|exact A1].
      rewrite <- !HC by (simpl; lia). unfold sum_n, rsum. cbn [seq map foldr]. ring.
    - destruct (HM 0%nat ltac:(simpl; lia)) as (e0 & F0 & E0 & V0). destruct (HM 1%nat ltac:(simpl; lia)) as (e1 & F1 & E1 & V1).
      destruct (HM 2%nat ltac:(simpl; lia)) as (e2 & F2 & E2 & V2).
      pose proof (add_square _ _ _ _ _ _ _ H0 F0 E0 V0 (Hn 0%nat ltac:(simpl; lia)) ltac:(lra) ltac:(lra) ltac:(lra) ltac:(lra)) as A0.
      pose proof (add_square _ _ _ _ _ _ _ A0 F1 E1 V1 (Hn 1%nat ltac:(simpl; lia)) ltac:(lra) ltac:(lra) ltac:(lra)
        ltac:(pose proof (HB 0%nat ltac:(simpl; lia)); lra)) as A1.
      pose proof (add_square _ _ _ _ _ _ _ A1 F2 E2 V2 (Hn 2%nat ltac:(simpl; lia)) ltac:(lra) ltac:(lra) ltac:(lra)
        ltac:(pose proof (HB 0%nat ltac:(simpl; lia)); pose proof (HB 1%nat ltac:(simpl; lia)); lra)) as A2.
      apply (approx_weaken _ (10 * ulp1) _ (16 * tiny1)) in A2; [|lra..].
      assert (sum_n 3 (fun k => (coord (exactly_at x) k - coord (exactly_at y) k) ^ 2) = 0 +
        (B2R (tget D3 x 0 : B64) - B2R (tget D3 y 0 : B64)) * (B2R (tget D3 x 0 : B64) - B2R (tget D3 y 0 : B64)) +
        (B2R (tget D3 x 1 : B64) - B2R (tget D3 y 1 : B64)) * (B2R (tget D3 x 1 : B64) - B2R (tget D3 y 1 : B64)) +
        (B2R (tget D3 x 2 : B64) - B2R (tget D3 y 2 : B64)) * (B2R (tget D3 x 2 : B64) - B2R (tget D3 y 2 : B64))) as ->; [|exact A2].
      rewrite <- !HC by (simpl; lia). unfold sum_n, rsum. cbn [seq map foldr]. ring.
  Qed.

  Lemma distance_value (x y : V) : finite_at x -> finite_at y -> near_by x y ->
    is_finite (dist x y : B64) = true /\
    Rabs (B2R (dist x y : B64) - true_distance x y) <= 12 * ulp1 * true_distance x y + bpow radix2 (-533).
  Proof.
    intros Fx Fy Hn. pose proof ulp1_pos as HU. pose proof tiny1_pos as HT. destruct (squared_distance x y Fx Fy Hn) as (FR & _ & ER).
    assert (0 <= true_distance x y) as HD by (unfold true_distance, edist; apply R_sqrt.sqrt_pos).
    assert (ge0 (vdot (x -^ y) (x -^ y)) = true) as HG.
    { apply dot_ge0. intros k Hk. unfold vsub. rewrite tget_tmk by done.
      destruct (minus_ok _ _ (Fx k Hk) (Fy k Hk)) as (e & F & _); [|change (tget d x k -. tget d y k) with (Bminus mode_NE (tget d x k : B64) (tget d y k : B64)); by destruct (Bminus mode_NE (tget d x k : B64) (tget d y k : B64))].
      apply (Rle_trans _ _ _ (Hn k Hk)). apply bpow_le. lia. }
    unfold dist. cbv zeta. change (@nsqrt B64num) with (@Bsqrt 53 1024 _ _ mode_NE).
    set (r := vdot (x -^ y) (x -^ y) : B64) in *. set (D := true_distance x y) in *. apply ge0_real in HG; [|done].
    pose proof (Bsqrt_correct 53 1024 _ _ mode_NE r) as (HV & HF & _). split.
    { rewrite HF. clearbody r. clear HF HV ER. destruct r as [b|b| |[] m e B]; try done. exfalso. cbn [B2R cond_Zopp] in HG.
      assert (F2R (Float radix2 (- Z.pos m) e) < 0) by (by apply F2R_lt_0). lra. }
    rewrite HV. set (w := bpow radix2 (-535)).
    assert (0 < w) as Hw by apply bpow_gt_0.
    assert (16 * tiny1 <= w * w) as Hww.
    { unfold w, tiny1. change 16 with (bpow radix2 4). rewrite !bpow_prod. apply bpow_le. lia. }
    assert (bpow radix2 (-533) = 4 * w) as E4 by (unfold w; change 4 with (bpow radix2 2); by rewrite bpow_prod).
    assert (16 * ulp1 <= 1 / 2) as HU16.
    { assert (bpow radix2 (-5) = 1 / 32) as E5 by (simpl; lra). assert (ulp1 <= bpow radix2 (-5)) by (apply bpow_le; lia). lra. }
    assert (tiny1 <= w) as Htw by (apply bpow_le; lia).
    assert (Rabs (R_sqrt.sqrt (B2R r) - D) <= 10 * ulp1 * D + w) as HS.
    { apply Rabs_le_inv in ER. pose proof (R_sqrt.sqrt_pos (B2R r)) as Hq. pose proof (R_sqrt.sqrt_sqrt (B2R r) HG) as Hqq.
      set (q := R_sqrt.sqrt (B2R r)) in *. assert (0 <= ulp1 * D) by (apply Rmult_le_pos; lra). apply Rabs_le. split.
      - destruct (Rle_or_lt (- (10 * ulp1 * D + w)) (q - D)) as [|Hlt]; [done|exfalso].
        (* q + w < D (1 - 10 u) *)
        assert (q + w < D * (1 - 10 * ulp1)) as HL by lra.
        assert ((q + w) * (q + w) < (D * (1 - 10 * ulp1)) * (D * (1 - 10 * ulp1))) by (apply Rmult_le_0_lt_compat; lra).
        assert ((D * (1 - 10 * ulp1)) * (D * (1 - 10 * ulp1)) <= D * D * (1 - 10 * ulp1)).
        { replace (D * (1 - 10 * ulp1) * (D * (1 - 10 * ulp1))) with (D * D * (1 - 10 * ulp1) * (1 - 10 * ulp1)) by ring.
          assert (0 <= D * D * (1 - 10 * ulp1)) by (apply Rmult_le_pos; nra). nra. }
        assert (0 <= q * w) by nra. nra.
      - destruct (Rle_or_lt (q - D) (10 * ulp1 * D + w)) as [|Hlt]; [done|exfalso].
        assert (D * (1 + 10 * ulp1) + w < q) as HL by lra.
        assert ((D * (1 + 10 * ulp1) + w) * (D * (1 + 10 * ulp1) + w) < q * q) by (apply Rmult_le_0_lt_compat; nra).
        assert (D * D * (1 + 10 * ulp1) <= D * (1 + 10 * ulp1) * (D * (1 + 10 * ulp1))).
        { replace (D * (1 + 10 * ulp1) * (D * (1 + 10 * ulp1))) with (D * D * (1 + 10 * ulp1) * (1 + 10 * ulp1)) by ring.
          assert (0 <= D * D * (1 + 10 * ulp1)) by (apply Rmult_le_pos; nra). nra. }
        assert (0 <= D * (1 + 10 * ulp1) * w) by (apply Rmult_le_pos; [apply Rmult_le_pos|]; lra). nra. }
    destruct (error_N_FLT radix2 (3 - 1024 - 53) 53 eq_refl (fun x => negb (Z.even x)) (R_sqrt.sqrt (B2R r))) as (f & t & Hf & Ht & _ & Hr).
    assert (/ 2 * bpow radix2 (- (53) + 1) = ulp1) as E1.
    { unfold ulp1. change (/ 2) with (bpow radix2 (-1)). by rewrite <- bpow_plus. }
    assert (/ 2 * bpow radix2 (3 - 1024 - 53) = tiny1) as E2.
    { unfold tiny1. change (/ 2) with (bpow radix2 (-1)). by rewrite <- bpow_plus. }
    rewrite E1 in Hf. rewrite E2 in Ht.
    change (rnd (R_sqrt.sqrt (B2R r))) with (round radix2 (FLT_exp (3 - 1024 - 53) 53) (Znearest (fun x => negb (Z.even x))) (R_sqrt.sqrt (B2R r))).
    rewrite Hr. set (q := R_sqrt.sqrt (B2R r)) in *. rewrite E4.
    replace (q * (1 + f) + t - D) with ((q - D) + (q * f + t)) by ring.
    apply (Rle_trans _ _ _ (Rabs_triang _ _)).
    assert (Rabs (q * f + t) <= q * ulp1 + w) as HQ.
    { apply (Rle_trans _ _ _ (Rabs_triang _ _)). rewrite Rabs_mult, (Rabs_right q) by (apply Rle_ge, R_sqrt.sqrt_pos).
      apply Rplus_le_compat; [|lra]. apply Rmult_le_compat_l; [apply R_sqrt.sqrt_pos|done]. }
    assert (q <= 2 * D + w) as Hq2. { apply Rabs_le_inv in HS. assert (ulp1 * D <= D / 32) by nra. lra. }
    assert (q * ulp1 <= (2 * D + w) * ulp1) by (apply Rmult_le_compat_r; lra).
    assert (w * ulp1 <= w) by nra. lra.
  Qed.
End Dist.

Lemma abs_minus_comm (x y : B64) : Babs (Bminus mode_NE x y) = Babs (Bminus mode_NE y x).
Proof.
  destruct (is_finite x) eqn:Fx; [|by destruct x as [|[]| |], y as [|[]| |]].
  destruct (is_finite y) eqn:Fy; [|by destruct x as [|[]| |], y as [|[]| |]].
  pose proof (Bminus_correct 53 1024 _ _ mode_NE x y Fx Fy) as H1. pose proof (Bminus_correct 53 1024 _ _ mode_NE y x Fy Fx) as H2.
  assert (rnd (B2R y - B2R x) = - rnd (B2R x - B2R y)) as HR by (rewrite <- rnd_opp; f_equal; ring). rewrite HR, Rabs_Ropp in H2.
  destruct (Rlt_bool_spec (Rabs (rnd (B2R x - B2R y))) (bpow radix2 1024)) as [_|Hov].
  - destruct H1 as (V1 & F1 & _). destruct H2 as (V2 & F2 & _). apply B2R_Bsign_inj; rewrite ?is_finite_Babs; try done.
    + by rewrite !B2R_Babs, V1, V2, Rabs_Ropp.
    + assert (forall z : B64, is_finite z = true -> Bsign (Babs z) = false) as HB by (by intros [|[]| |[]]). by rewrite !HB.
  - destruct H1 as [H1 _]. destruct H2 as [H2 _]. apply B2SF_inj.
    assert (forall z : B64, B2SF (Babs z) = SFabs (B2SF z)) as HB by (by intros [|[]| |[]]). rewrite !HB, H1, H2. by destruct (Bsign x), (Bsign y).
Qed.
Lemma dist_comm {d} (x y : vec B64num d) : dist x y = dist y x.
Proof.
  assert (forall k, (k < dimn d)%nat -> tget d (x -^ y) k ×. tget d (x -^ y) k = tget d (y -^ x) k ×. tget d (y -^ x) k) as H.
  { intros k Hk. unfold vsub. rewrite !tget_tmk by done.
    change (Bmult mode_NE (Bminus mode_NE (tget d x k : B64) (tget d y k : B64)) (Bminus mode_NE (tget d x k : B64) (tget d y k : B64)) =
      Bmult mode_NE (Bminus mode_NE (tget d y k : B64) (tget d x k : B64)) (Bminus mode_NE (tget d y k : B64) (tget d x k : B64))).
    rewrite mult_self, (mult_self (Bminus mode_NE (tget d y k : B64) (tget d x k : B64))). by rewrite abs_minus_comm. }
  unfold dist. cbv zeta. f_equal. unfold vdot. destruct d; cbn [dimn seq foldl].
  - by rewrite (H 0%nat), (H 1%nat) by (simpl; lia).
  - by rewrite (H 0%nat), (H 1%nat), (H 2%nat) by (simpl; lia).
Qed.

Lemma dimn_pos' (d : dim) : (0 < dimn d)%nat.
Proof. destruct d; simpl; lia. Qed.

Section Search.
  Context {cfg : config} {wm : wallmotion B64num (cDim cfg)}.
  Notation d := (cDim cfg).
  Notation computer := (computer cfg wm).
  Implicit Types (s : computer).

  (** Computed block numbers and true coordinates. *)
  Lemma number_value (env0 : environment B64num cfg) (x : vec B64num d) k z : is_finite (eNL env0 : B64) = true -> 0 < B2R (eNL env0 : B64) -> block_number env0 x k = Some z ->
    is_finite (tget d x k : B64) = true /\ (- 2 ^ 63 <= z < 2 ^ 63)%Z /\ exists g t, Rabs g <= 3 * ulp1 /\ Rabs t <= tiny1 /\
    IZR z <= (B2R (tget d x k : B64) - B2R (tget d (eMinX env0) k : B64)) / B2R (eNL env0 : B64) * (1 + g) + t < IZR z + 1.
  Proof.
    intros FL HL H. unfold block_number in H. destruct (floor_value _ _ H) as [F HZ].
    change ((tget d x k -. tget d (eMinX env0) k) /. eNL env0) with
      (Bdiv mode_NE (Bminus mode_NE (tget d x k : B64) (tget d (eMinX env0) k : B64)) (eNL env0 : B64)) in *.
    split; [|split].
    - destruct (tget d x k : B64) as [|[]| |], (tget d (eMinX env0) k : B64) as [|[]| |], (eNL env0 : B64) as [|[]| |]; done.
    - change (@nfloor B64num) with (fun a : B64 => f64_index (sf_floor (B2SF a))) in H. cbv beta in H. unfold f64_index in H.
      destruct (sf_floor _) as [y|]; [|done]. destruct (_ && _) eqn:E; [|done]. apply (inj Some) in H. subst y.
      apply andb_prop in E as [E1 E2]. lia.
    - destruct (coordinate_value _ _ _ HL FL F) as (g & t & Hg & Ht & HV). rewrite HV in HZ. by exists g, t.
  Qed.
  Lemma component_le (x y : vec B64num d) k : (k < dimn d)%nat ->
    Rabs (B2R (tget d x k : B64) - B2R (tget d y k : B64)) <= true_distance x y.
  Proof.
    intros Hk. unfold true_distance, edist. rewrite <- R_sqrt.sqrt_Rsqr_abs. apply R_sqrt.sqrt_le_1_alt. unfold Rsqr.
    assert ((coord (exactly_at x) k - coord (exactly_at y) k) ^ 2 =
      (B2R (tget d x k : B64) - B2R (tget d y k : B64)) * (B2R (tget d x k : B64) - B2R (tget d y k : B64))) as HC.
    { unfold exactly_at. rewrite !coord_tmk by done. simpl. ring. }
    rewrite <- HC. apply (sum_n_ge (dimn d) (fun k => (coord (exactly_at x) k - coord (exactly_at y) k) ^ 2)); [|done].
    intros j _. apply pow2_ge_0.
  Qed.

  (** Both particles of a searched state are in blocks of the grid. *)
  Lemma searched_numbers (env0 : environment B64num cfg) dt s s1 i p k n :
    square_ground env0 -> reachable env0 s -> search_neighbor (start_step dt s) = Done s1 ->
    cParts s1 !! i = Some p -> enabled p -> (k < dimn d)%nat -> blocks_along env0 k = Some n ->
    exists z, block_number env0 (pX p) k = Some z /\ (0 <= z < n)%Z.
  Proof.
    intros Hsq Hr H Hp He Hk Hn. pose proof (search_searched env0 dt s s1 Hsq Hr H) as Hs.
    pose proof (reachable_inv env0 s Hsq Hr) as Hinv.
    assert (is_disabled (pT p) = false) as Hdp by (by apply is_disabled_false).
    destruct (home_of_enabled _ s1 i p (se_parts _ _ Hs) Hp Hdp) as (_ & b & Hb & Hin).
    change (cGrid (start_step dt s)) with (cGrid s) in *.
    pose proof (inv_geom _ _ Hinv) as Hg. pose proof (block_length _ _ _ Hb) as HL.
    destruct (lookup_lt_is_Some_2 b k ltac:(lia)) as [z Hz]. exists z. split.
    - apply (block_of_numbers env0 _ _ _ Hg) in Hb as [_ Hb]. by apply Hb.
    - assert (grid_wf (cGrid s)) as Hgw by apply Hinv. pose proof (proj1 (range_along env0 _ b Hg Hgw HL) Hin) as HR. by apply (HR k).
  Qed.

  (** What rounding can do to the search: [n] is at least the number of blocks on every axis.
      A particle nearer than NeighborLength by (n+1)/2^49 of it is found; no particle is found that is
      farther than NeighborLength by more than 1/2^49 of it. *)
  Theorem C71_search (env0 : environment B64num cfg) dt s s1 i j p p' l (n : Z) :
    square_ground env0 -> reachable env0 s -> search_neighbor (start_step dt s) = Done s1 ->
    is_finite (eNL env0 : B64) = true -> bpow radix2 (-400) <= B2R (eNL env0 : B64) <= bpow radix2 400 ->
    (forall k m, (k < dimn d)%nat -> blocks_along env0 k = Some m -> (m <= n)%Z) ->
    i <> j -> cParts s1 !! i = Some p -> enabled p -> cParts s1 !! j = Some p' -> enabled p' -> neighbor_list s1 i = Some l ->
    (true_distance (pX p) (pX p') <= B2R (eNL env0 : B64) * (1 - IZR (n + 1) * bpow radix2 (-49)) -> j ∈ l) /\
    (j ∈ l -> true_distance (pX p) (pX p') <= B2R (eNL env0 : B64) * (1 + bpow radix2 (-49))).
  Proof.
    intros Hsq Hr H FL [L1 L2] Hn Hij Hp He Hp' He' Hl.
    destruct (C53_what_is_found env0 dt s s1 i p Hsq Hr H Hp He) as (l' & Hl' & _ & Hspec). simplify_eq.
    set (L := B2R (eNL env0 : B64)) in *. set (D := true_distance (pX p) (pX p')).
    pose proof ulp1_pos as HU. pose proof tiny1_pos as HT.
    assert (0 < L) as HL by (pose proof (bpow_gt_0 radix2 (-400)); lra).
    assert (bpow radix2 (-49) = 16 * ulp1) as E49 by (unfold ulp1; change 16 with (bpow radix2 4); by rewrite bpow_prod).
    assert (192 * ulp1 <= 1) as HU8.
    { assert (bpow radix2 (-8) = 1 / 256) as E8 by (simpl; lra). assert (ulp1 <= bpow radix2 (-8)) by (apply bpow_le; lia). lra. }
    assert (bpow radix2 (-533) <= ulp1 * L) as HW.
    { apply (Rle_trans _ (ulp1 * bpow radix2 (-400))); [|apply Rmult_le_compat_l; lra]. unfold ulp1. rewrite bpow_prod. apply bpow_le. lia. }
    assert (0 <= D) as HD by (unfold D, true_distance, edist; apply R_sqrt.sqrt_pos).
    assert (forall k, (k < dimn d)%nat -> exists m, blocks_along env0 k = Some m) as Hm.
    { intros k Hk. pose proof (reachable_inv env0 s Hsq Hr) as Hinv. pose proof (inv_geom _ _ Hinv) as Hg.
      assert (grid_wf (cGrid s)) as Hgw by apply Hinv. pose proof (gw_dim _ Hgw) as HD'.
      destruct (lookup_lt_is_Some_2 (g_shape d (cGrid s)) k ltac:(lia)) as [m Hm]. exists m. by apply (shape_along env0 (cGrid s)). }
    assert (forall q iq, cParts s1 !! iq = Some q -> enabled q -> finite_at (pX q)) as Hfin.
    { intros q iq Hq Heq k Hk. destruct (Hm k Hk) as [m Hmk].
      destruct (searched_numbers env0 dt s s1 iq q k m Hsq Hr H Hq Heq Hk Hmk) as (z & Hz & _).
      by destruct (number_value env0 _ _ _ FL HL Hz) as [F _]. }
    split.
    - intros HB. rewrite E49 in HB. rewrite plus_IZR in HB.
      destruct (Hm 0%nat) as [m0 Hm0]; [apply dimn_pos'|].
      assert (0 <= IZR n) as Hn0.
      { destruct (searched_numbers env0 dt s s1 i p 0 m0 Hsq Hr H Hp He) as (z & _ & Hz); [apply dimn_pos'|done|].
        apply IZR_le. pose proof (Hn 0%nat m0 (dimn_pos' _) Hm0). lia. }
      assert (0 <= L * ulp1) as HLu by (apply Rmult_le_pos; lra).
      assert (0 <= L * ulp1 * IZR n) as HLun by (by apply Rmult_le_pos).
      assert (D <= L - 16 * (L * ulp1)) as HDL by nra.
      apply Hspec. split; [done|]. exists p'. split; [done|]. split; [done|]. split.
      + destruct (distance_value (pX p) (pX p')) as [FD ED]; [by eapply Hfin|by eapply Hfin| |].
        { intros k Hk. apply (Rle_trans _ _ _ (component_le (pX p) (pX p') k Hk)). fold D. apply (Rle_trans _ L); [lra|].
          apply (Rle_trans _ _ _ L2). apply bpow_le. lia. }
        apply ltb_lt; [done|done|]. fold L. fold D in ED. apply Rabs_le_inv in ED.
        assert (ulp1 * D <= ulp1 * L) by (apply Rmult_le_compat_l; lra). assert (0 < ulp1 * L) by (apply Rmult_lt_0_compat; lra). lra.
      + intros k Hk. destruct (Hm k Hk) as [m Hmk].
        destruct (searched_numbers env0 dt s s1 i p k m Hsq Hr H Hp He Hk Hmk) as (z & Hz & Hzr).
        destruct (searched_numbers env0 dt s s1 j p' k m Hsq Hr H Hp' He' Hk Hmk) as (z' & Hz' & Hzr').
        exists z, z'. split; [done|]. split; [done|]. pose proof (Hn k m Hk Hmk) as Hmn.
        destruct (number_value env0 _ _ _ FL HL Hz) as (_ & _ & g1 & t1 & G1 & T1 & B1).
        destruct (number_value env0 _ _ _ FL HL Hz') as (_ & _ & g2 & t2 & G2 & T2 & B2).
        apply (blocks_close _ _ g1 g2 t1 t2 z z' n G1 G2 T1 T2 B1 B2); [lia|lia|]. fold L.
        match goal with |- Rabs (?a / L - ?b / L) <= _ => replace (a / L - b / L) with ((a - b) / L) by (field; lra) end.
        unfold Rdiv. rewrite Rabs_mult, (Rabs_right (/ L)) by (apply Rle_ge; left; by apply Rinv_0_lt_compat).
        apply (Rmult_le_reg_r L); [done|]. rewrite Rmult_assoc, Rinv_l, Rmult_1_r by lra.
        match goal with |- Rabs (?a - ?m - (?b - ?m)) <= _ => replace (a - m - (b - m)) with (a - b) by ring end.
        apply (Rle_trans _ _ _ (component_le (pX p) (pX p') k Hk)). fold D. nra.
    - intros Hj. apply Hspec in Hj as (_ & q & Hq & _ & Hlt & _). assert (q = p') as -> by congruence.
      destruct (distance_value (pX p) (pX p')) as [FD ED]; [by eapply Hfin|by eapply Hfin| |].
      { intros k Hk. destruct (Hm k Hk) as [m Hmk].
        destruct (searched_numbers env0 dt s s1 i p k m Hsq Hr H Hp He Hk Hmk) as (z & Hz & Hzr).
        destruct (searched_numbers env0 dt s s1 j p' k m Hsq Hr H Hp' He' Hk Hmk) as (z' & Hz' & Hzr').
        assert (forall (x : vec B64num d) y, block_number env0 x k = Some y -> Rabs (B2R (tget d x k : B64) - B2R (tget d (eMinX env0) k : B64)) <= bpow radix2 498) as HX.
        { intros x y Hy. destruct (number_value env0 _ _ _ FL HL Hy) as (_ & [Y1 Y2] & g1 & t1 & G1 & T1 & B1). fold L in B1.
          set (a := B2R (tget d x k : B64) - B2R (tget d (eMinX env0) k : B64)) in *. apply IZR_le in Y1. apply IZR_lt in Y2.
          change (IZR (- 2 ^ 63)) with (- bpow radix2 63) in Y1. change (IZR (2 ^ 63)) with (bpow radix2 63) in Y2.
          set (c := a / L) in *. assert (a = c * L) as Ha by (unfold c; field; lra). clearbody c. rewrite Ha. clear Ha.
          assert (1 <= bpow radix2 63) by (change 1 with (bpow radix2 0); apply bpow_le; lia).
          assert (Rabs c <= 4 * bpow radix2 63) as Hc.
          { apply Rabs_le_inv in G1, T1. apply Rabs_le. split.
            - destruct (Rle_or_lt (- (4 * bpow radix2 63)) c); [done|]. nra.
            - destruct (Rle_or_lt c (4 * bpow radix2 63)); [done|]. nra. }
          rewrite Rabs_mult, (Rabs_right L) by lra. apply (Rle_trans _ (4 * bpow radix2 63 * bpow radix2 400)).
          - apply Rmult_le_compat; try done; [apply Rabs_pos|lra].
          - change 4 with (bpow radix2 2). rewrite !bpow_prod. apply bpow_le. lia. }
        pose proof (HX _ _ Hz) as A1. pose proof (HX _ _ Hz') as A2. apply Rabs_le_inv in A1, A2.
        assert (bpow radix2 500 = 4 * bpow radix2 498) as -> by (change 4 with (bpow radix2 2); by rewrite bpow_prod). apply Rabs_le. lra. }
      fold D in ED. apply ltb_lt in Hlt; [|done|done]. fold L in Hlt. apply Rabs_le_inv in ED. rewrite E49.
      assert (D * (1 - 12 * ulp1) <= L * (1 + ulp1)) as HF by lra.
      destruct (Rle_or_lt D (L * (1 + 16 * ulp1))) as [|Hgt]; [done|exfalso].
      assert (L * (1 + 16 * ulp1) * (1 - 12 * ulp1) < D * (1 - 12 * ulp1)) by (apply Rmult_lt_compat_r; lra).
      assert (L * (1 + ulp1) <= L * ((1 + 16 * ulp1) * (1 - 12 * ulp1))) by (apply Rmult_le_compat_l; nra). nra.
  Qed.

  (** Rounding does not break symmetry: if one particle finds another, the other finds it. *)
  Theorem C71_mutual (env0 : environment B64num cfg) dt s s1 i j p p' l l' :
    square_ground env0 -> reachable env0 s -> search_neighbor (start_step dt s) = Done s1 ->
    cParts s1 !! i = Some p -> enabled p -> cParts s1 !! j = Some p' -> enabled p' ->
    neighbor_list s1 i = Some l -> neighbor_list s1 j = Some l' -> j ∈ l <-> i ∈ l'.
  Proof.
    intros Hsq Hr H Hp He Hp' He' Hl Hl'.
    destruct (C53_what_is_found env0 dt s s1 i p Hsq Hr H Hp He) as (l0 & Hl0 & _ & Hi).
    destruct (C53_what_is_found env0 dt s s1 j p' Hsq Hr H Hp' He') as (l0' & Hl0' & _ & Hj).
    assert (l0 = l) as -> by congruence. assert (l0' = l') as -> by congruence. rewrite Hi, Hj. split.
    - intros (Hne & q & Hq & _ & Hd & Hb). assert (q = p') as -> by congruence. split; [done|]. exists p. split; [done|]. split; [done|].
      split; [by rewrite dist_comm|]. intros k Hk. destruct (Hb k Hk) as (z & z' & Hz & Hz' & Hzz). exists z', z. split; [done|]. split; [done|lia].
    - intros (Hne & q & Hq & _ & Hd & Hb). assert (q = p) as -> by congruence. split; [done|]. exists p'. split; [done|]. split; [done|].
      split; [by rewrite dist_comm|]. intros k Hk. destruct (Hb k Hk) as (z & z' & Hz & Hz' & Hzz). exists z', z. split; [done|]. split; [done|lia].
  Qed.
End Search.

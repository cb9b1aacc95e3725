(** Lemmas about [double]: signs and order of computed results. *)
From Coq Require Import ZArith Reals Lra.
From Verif Require Export M_NumB.
From Flocq Require Import Core BinarySingleNaN.
Open Scope R_scope.

Notation rnd := (round radix2 (SpecFloat.fexp 53 1024) (round_mode mode_NE)).
Implicit Types x y : B64.

Lemma zero_B : (@nofZ B64num 0) = B754_zero false.
Proof. reflexivity. Qed.
Lemma one_finite : is_finite (@nofZ B64num 1 : B64) = true /\ B2R (@nofZ B64num 1 : B64) = 1.
Proof.
  pose proof (binary_normalize_correct 53 1024 _ _ mode_NE 1 0 false) as H. cbv zeta in H.
  assert (F2R (Float radix2 1 0) = 1) as E by (unfold F2R; simpl; ring). rewrite E in H.
  rewrite round_generic in H.
  2: apply valid_rnd_N.
  2: { change 1 with (bpow radix2 0). apply generic_format_bpow. unfold SpecFloat.fexp, SpecFloat.emin. simpl. lia. }
  rewrite Rlt_bool_true in H; [tauto|]. rewrite Rabs_R1. change 1 with (bpow radix2 0). apply bpow_lt. lia.
Qed.

Lemma rnd_le a b : a <= b -> rnd a <= rnd b.
Proof. apply round_le; [apply fexp_correct, b64_prec|apply valid_rnd_N]. Qed.
Lemma rnd_0 : rnd 0 = 0.
Proof. apply round_0. apply valid_rnd_N. Qed.
Lemma rnd_B2R x : rnd (B2R x) = B2R x.
Proof. apply round_generic; [apply valid_rnd_N|apply generic_format_B2R]. Qed.
Lemma rnd_ge0 a : 0 <= a -> 0 <= rnd a.
Proof. intros H. rewrite <- rnd_0. by apply rnd_le. Qed.

(** [0 <= x]: a zero, or positive. *)
Definition ge0 x : bool := match x with B754_zero _ => true | B754_infinity s => negb s | B754_nan => false | B754_finite s _ _ _ => negb s end.
Lemma ge0_leb x : (nofZ 0 : B64num) <=?. x = ge0 x.
Proof. change (Bleb (B754_zero false) x = ge0 x). by destruct x as [[]|[]| |[] ? ? ?]. Qed.
Lemma ge0_real x : is_finite x = true -> ge0 x = true <-> 0 <= B2R x.
Proof.
  intros Hf. rewrite <- ge0_leb. change (@nleb B64num) with (@Bleb 53 1024). rewrite Bleb_correct by done.
  change (B2R (@nofZ B64num 0 : B64)) with 0. split.
  - by intros H; destruct (Rle_bool_spec 0 (B2R x)).
  - intros H. by apply Rle_bool_true.
Qed.
Lemma ge0_split x : ge0 x = true -> is_finite x = true /\ 0 <= B2R x \/ x = B754_infinity false.
Proof.
  intros H. destruct (is_finite x) eqn:E; [left; split; [done|by apply ge0_real]|right].
  by destruct x as [|[]| |].
Qed.
Lemma ge0_sign x : ge0 x = true -> 0 < B2R x -> Bsign x = false.
Proof. destruct x as [[]|[]| |[] m e B]; simpl; try done; intros _ H; exfalso; lra. Qed.
Lemma sign_ge0 x : Bsign x = false -> is_nan x = false -> ge0 x = true.
Proof. by destruct x as [[]|[]| |[] m e B]. Qed.
Lemma pos_sign x : 0 < B2R x -> Bsign x = false.
Proof.
  destruct x as [[]|[]| |[] m e B]; simpl; try done; intros H; try (exfalso; lra).
  exfalso. change (0 < F2R (Float radix2 (Z.neg m) e)) in H. assert (F2R (Float radix2 (Z.neg m) e) < 0) by (by apply F2R_lt_0). lra.
Qed.
Lemma overflow_pos : binary_overflow 53 1024 mode_NE false = S754_infinity false.
Proof. reflexivity. Qed.
Lemma B2SF_inf x : B2SF x = S754_infinity false -> x = B754_infinity false.
Proof. destruct x as [|[]| |]; simpl; intros H; try discriminate H; done. Qed.

Lemma plus_ge0 x y : ge0 x = true -> ge0 y = true -> ge0 (Bplus mode_NE x y) = true.
Proof.
  intros Hx Hy. destruct (ge0_split x Hx) as [[Fx Vx]| ->]; [|by destruct y as [|[]| |[] ? ? ?]].
  destruct (ge0_split y Hy) as [[Fy Vy]| ->]; [|by destruct x as [|[]| |[] ? ? ?]].
  pose proof (Bplus_correct 53 1024 _ _ mode_NE x y Fx Fy) as H.
  destruct (Rlt_bool_spec (Rabs (rnd (B2R x + B2R y))) (bpow radix2 1024)) as [_|Hov].
  - destruct H as (HV & HF & _). apply ge0_real; [done|]. rewrite HV. apply rnd_ge0. lra.
  - destruct H as [H Hs]. destruct (Bsign x) eqn:E; [|by rewrite (B2SF_inf _ H)].
    (* both negative zeros: no overflow *)
    exfalso. assert (B2R x = 0) as Zx. { destruct (Req_dec (B2R x) 0); [done|]. rewrite ge0_sign in E; [done|done|lra]. }
    assert (B2R y = 0) as Zy. { destruct (Req_dec (B2R y) 0); [done|]. rewrite (ge0_sign y) in Hs; [done|done|lra]. }
    rewrite Zx, Zy, Rplus_0_r, rnd_0, Rabs_R0 in Hov. pose proof (bpow_gt_0 radix2 1024). lra.
Qed.

(** Adding something not negative does not make smaller. *)
Lemma plus_le x y : is_finite x = true -> ge0 y = true -> Bleb x (Bplus mode_NE x y) = true.
Proof.
  intros Fx Hy. destruct (ge0_split y Hy) as [[Fy Vy]| ->]; [|by destruct x as [|[]| |[] ? ? ?]].
  pose proof (Bplus_correct 53 1024 _ _ mode_NE x y Fx Fy) as H.
  destruct (Rlt_bool_spec (Rabs (rnd (B2R x + B2R y))) (bpow radix2 1024)) as [_|Hov].
  - destruct H as (HV & HF & _). rewrite Bleb_correct by done. apply Rle_bool_true. rewrite HV, <- (rnd_B2R x) at 1. apply rnd_le. lra.
  - destruct H as [H Hs]. destruct (Bsign x) eqn:E; [|rewrite (B2SF_inf _ H); by destruct x as [[]|[]| |[] ? ? ?]].
    exfalso. assert (B2R y = 0) as Zy. { destruct (Req_dec (B2R y) 0); [done|]. rewrite (ge0_sign y) in Hs; [done|done|lra]. }
    rewrite Zy, Rplus_0_r, rnd_B2R in Hov. pose proof (abs_B2R_lt_emax 53 1024 x). lra.
Qed.

Lemma div_ge0 x y : is_finite x = true -> ge0 x = true -> ge0 y = true -> y <> B754_zero false -> y <> B754_zero true ->
  ge0 (Bdiv mode_NE x y) = true.
Proof.
  intros Fx Hx Hy Hz Hz'. destruct (ge0_split y Hy) as [[Fy Vy]| ->]; [|by destruct x as [[]|[]| |[] ? ? ?]].
  assert (B2R y <> 0) as Hn. { destruct y as [[]|[]| |[] m e B]; simpl in *; try done. intros E. apply (eq_0_F2R radix2) in E. done. }
  pose proof (Bdiv_correct 53 1024 _ _ mode_NE x y Hn) as H.
  destruct (Rlt_bool_spec (Rabs (rnd (B2R x / B2R y))) (bpow radix2 1024)) as [_|Hov].
  - destruct H as (HV & HF & _). apply ge0_real; [by rewrite HF|]. rewrite HV. apply rnd_ge0.
    apply Rmult_le_pos; [by apply ge0_real|]. left. apply Rinv_0_lt_compat. lra.
  - assert (Bsign y = false) as Sy by (apply ge0_sign; [done|lra]). rewrite Sy in H.
    destruct (Bsign x) eqn:Sx; [|by rewrite (B2SF_inf _ H)]. exfalso.
    assert (B2R x = 0) as Zx. { apply ge0_real in Hx as Hx'; [|done]. destruct (Req_dec (B2R x) 0); [done|]. rewrite ge0_sign in Sx; [done|done|lra]. }
    rewrite Zx in Hov. unfold Rdiv in Hov. rewrite Rmult_0_l, rnd_0, Rabs_R0 in Hov. pose proof (bpow_gt_0 radix2 1024). lra.
Qed.

(** [0 < x], [x < y] in terms of values. *)
Lemma pos_split x : (nofZ 0 : B64num) <?. x = true -> is_finite x = true /\ 0 < B2R x \/ x = B754_infinity false.
Proof.
  change (Bltb (B754_zero false) x = true -> is_finite x = true /\ 0 < B2R x \/ x = B754_infinity false).
  destruct (is_finite x) eqn:E.
  - rewrite Bltb_correct by done. intros H. left. split; [done|]. change (B2R (B754_zero false : B64)) with 0 in H. by destruct (Rlt_bool_spec 0 (B2R x)).
  - destruct x as [|[]| |]; try done. by right.
Qed.
Lemma ltb_split x y : is_finite x = true -> Bltb x y = true -> is_finite y = true /\ B2R x < B2R y \/ y = B754_infinity false.
Proof.
  intros Fx H. destruct (is_finite y) eqn:E.
  - rewrite Bltb_correct in H by done. left. split; [done|]. by destruct (Rlt_bool_spec (B2R x) (B2R y)).
  - destruct y as [|[]| |]; [done| |by right| |done]; by destruct x as [[]|[]| |[] ? ? ?].
Qed.

(** [r_e / r - 1] is not negative if [0 < r < r_e]. *)
Lemma quotient_minus_one_ge0 x y :
  (nofZ 0 : B64num) <?. x = true -> Bltb x y = true -> ge0 (Bminus mode_NE (Bdiv mode_NE y x) (@nofZ B64num 1)) = true.
Proof.
  intros Hx Hxy. destruct one_finite as [F1 V1].
  destruct (pos_split x Hx) as [[Fx Vx]| ->]; [|by destruct y as [|[]| |[] ? ? ?]].
  assert (Bdiv mode_NE y x = B754_infinity false \/ is_finite (Bdiv mode_NE y x) = true /\ 1 <= B2R (Bdiv mode_NE y x)) as HQ.
  { destruct (ltb_split x y Fx Hxy) as [[Fy Vy]| ->].
    - pose proof (Bdiv_correct 53 1024 _ _ mode_NE y x ltac:(lra)) as H.
      destruct (Rlt_bool_spec (Rabs (rnd (B2R y / B2R x))) (bpow radix2 1024)) as [_|Hov].
      + destruct H as (HV & HF & _). right. rewrite HF, HV. split; [done|]. rewrite <- V1, <- (rnd_B2R (@nofZ B64num 1)). apply rnd_le. rewrite V1.
        apply (Rmult_le_reg_r (B2R x)); [done|]. unfold Rdiv. rewrite Rmult_assoc, Rinv_l by lra. lra.
      + left. rewrite (pos_sign x), (pos_sign y) in H by lra. by apply B2SF_inf.
    - left. assert (Bsign x = false) as Sx by (by apply pos_sign). destruct x as [[]|[]| |[] ? ? ?]; simpl in *; try done; lra. }
  destruct HQ as [->|[FQ VQ]].
  { generalize dependent (@nofZ B64num 1). intros o Fo _. change (B64) in o. by destruct o. }
  pose proof (Bminus_correct 53 1024 _ _ mode_NE _ _ FQ F1) as H. rewrite V1 in H.
  destruct (Rlt_bool_spec (Rabs (rnd (B2R (Bdiv mode_NE y x) - 1))) (bpow radix2 1024)) as [_|Hov].
  - destruct H as (HV & HF & _). apply ge0_real; [done|]. rewrite HV. apply rnd_ge0. lra.
  - destruct H as [H _]. rewrite (pos_sign (Bdiv mode_NE y x)) in H by lra. by rewrite (B2SF_inf _ H).
Qed.

(** Squares and roots. *)
Lemma mult_abs_ge0 x : is_nan x = false -> ge0 (Bmult mode_NE (Babs x) (Babs x)) = true.
Proof.
  intros Hn. destruct (is_finite x) eqn:Fx; [|by destruct x].
  assert (is_finite (Babs x) = true) as Fa by (by rewrite is_finite_Babs).
  pose proof (Bmult_correct 53 1024 _ _ mode_NE (Babs x) (Babs x)) as H.
  destruct (Rlt_bool_spec (Rabs (rnd (B2R (Babs x) * B2R (Babs x)))) (bpow radix2 1024)) as [_|Hov].
  - destruct H as (HV & HF & _). apply ge0_real; [by rewrite HF, Fa|]. rewrite HV. apply rnd_ge0. rewrite B2R_Babs. apply Rmult_le_pos; apply Rabs_pos.
  - rewrite xorb_nilpotent in H. by rewrite (B2SF_inf _ H).
Qed.
Lemma mult_abs_nan x : is_nan (Bmult mode_NE (Babs x) (Babs x)) = is_nan x.
Proof.
  destruct (is_nan x) eqn:E; [by destruct x|]. pose proof (mult_abs_ge0 x E) as H. by destruct (Bmult _ _ _).
Qed.
Lemma sqrt_ge0 x : ge0 x = true -> ge0 (Bsqrt mode_NE x) = true.
Proof.
  intros Hx. destruct (ge0_split x Hx) as [[Fx Vx]| ->]; [|done].
  destruct (Bsqrt_correct 53 1024 _ _ mode_NE x) as (HV & HF & _).
  apply ge0_real; [|rewrite HV; apply rnd_ge0, sqrt_pos].
  rewrite HF. by destruct x as [[]|[]| |[] ? ? ?].
Qed.
Lemma ge0_nan x : ge0 x = true -> is_nan x = false.
Proof. by destruct x. Qed.

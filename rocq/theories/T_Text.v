(** Numbers in files: six digits (C72). *)
From Coq Require Import ZArith Reals Lra String Ascii.
From Verif Require Import S_Text P_Real P_B64 P_Text T_Csv.
From Flocq Require Import Core BinarySingleNaN Relative.
Open Scope R_scope.

Lemma numeral_read blanks s neg v rest : Forall white blanks -> numeral s neg v -> ends_numeral rest ->
  exists t m e, read_sign (skip_space (blanks ++ s ++ rest)) = (neg, t) /\ read_hex t = None /\ read_decimal t = Some (m, e, rest) /\
    (m = 0%Z /\ v = 0 \/ exists p, m = Zpos p /\ v = signed neg (IZR (Zpos p) * ten e)).
Proof.
  intros Hb Hn Hr. pose proof (numeral_chars _ _ _ Hn) as HC.
  destruct Hn as (sign & s' & v' & -> & Hu & Hs). pose proof (unsigned_chars _ _ Hu) as HU.
  destruct Hu as (whole & point & frac & ex & e & -> & Hw & Hf & Hne & Hp & He & Hv').
  exists ((whole ++ point ++ frac ++ ex) ++ rest), (decimal (whole ++ frac)), (e - Z.of_nat (length frac))%Z. split; [|split; [|split]].
  - rewrite skip_white; [|done|].
    2:{ intros c r H Hc. destruct (sign ++ whole ++ point ++ frac ++ ex) as [|c' l] eqn:E.
        - apply app_eq_nil in E as [_ E]. apply app_eq_nil in E as [-> E]. apply app_eq_nil in E as [_ E]. by apply app_eq_nil in E as [-> _].
        - cbn [app] in H. injection H as -> _. apply Forall_cons_1 in HC as [HC _]. unfold white in Hc.
          destruct HC as [HC|HC]; [unfold digit in HC; lia|]. repeat destruct HC as [->|HC]; try (vm_compute in Hc; lia). subst c. vm_compute in Hc; lia. }
    rewrite <- !app_assoc. destruct Hs as [[[->| ->] [-> _]]|[-> [-> _]]]; [|done..]. cbn [app].
    assert (forall c r, whole ++ point ++ frac ++ ex ++ rest = c :: r -> c <> "+"%char /\ c <> "-"%char) as K.
    { intros c r H. destruct whole as [|c' l].
      - destruct Hp as [->|[-> ->]]; [|done]. cbn [app] in H. injection H as <- _. done.
      - cbn [app] in H. injection H as -> _. apply Forall_cons_1 in Hw as [Hw _]. apply digit_not in Hw. naive_solver. }
    unfold read_sign. destruct (whole ++ point ++ frac ++ ex ++ rest) as [|c r]; [done|]. destruct (K c r eq_refl). by destruct c as [[] [] [] [] [] [] [] []].
  - by apply (no_hex _ _ _ _ e).
  - by apply (read_numeral _ _ _ _ e).
  - assert (v = signed neg v') as Hv by (unfold signed; naive_solver). clear Hs HC.
    pose proof (decimal_nonneg (whole ++ frac) ltac:(by apply Forall_app)) as H0.
    destruct (decimal (whole ++ frac)) as [|m|m]; [| |lia].
    + left. split; [done|]. rewrite Hv, Hv'. unfold signed. destruct neg; ring.
    + right. exists m. split; [done|]. by rewrite Hv, Hv'.
Qed.
Lemma to_double_0 : to_double 0 = 0. Proof. apply round_0; apply _. Qed.

(** C72.  [std::stod] on a numeral of value [v], white space before and anything that does not continue it behind:
    fails if the value is out of range, otherwise gives the double nearest to [v] (0 with the sign of the numeral). *)
Theorem C72_stod blanks s neg v rest :
  Forall white blanks -> numeral s neg v -> ends_numeral rest ->
  out_of_range v /\ stod (blanks ++ s ++ rest) = None \/
  ~ out_of_range v /\ exists y, stod (blanks ++ s ++ rest) = Some y /\ is_finite y = true /\ Bsign y = neg /\ B2R y = to_double v.
Proof.
  intros Hb Hn Hr. destruct (numeral_read blanks s neg v rest Hb Hn Hr) as (t & m & e & H1 & H2 & H3 & H4).
  unfold stod. rewrite H1, H2, H3. destruct H4 as [[-> ->]|(p & -> & Hv)].
  - right. split.
    + unfold out_of_range. rewrite to_double_0, Rabs_R0. pose proof (bpow_gt_0 radix2 1024). intros [?|[_ ?]]; [lra|done].
    + exists (B754_zero neg). rewrite to_double_0. done.
  - pose proof (checked_spec neg (decimal_fraction p e)) as K. cbv zeta in K. by rewrite decimal_fraction_value, <- Hv in K.
Qed.

(** Reading a numeral: what was read is one. *)
Lemma take_digits_split s ds r : take_digits s = (ds, r) -> s = ds ++ r /\ Forall digit ds.
Proof.
  revert ds r. induction s as [|c s IH]; intros ds r; cbn [take_digits]; [by intros [= <- <-]|].
  destruct (M_Text.is_digit c) eqn:E; [|by intros [= <- <-]]. destruct (take_digits s) as [ds' r'] eqn:Es. intros [= <- <-].
  destruct (IH _ _ eq_refl) as [-> H]. split; [done|]. constructor; [by apply is_digit_digit|done].
Qed.
Lemma read_sign_split s neg r : read_sign s = (neg, r) -> exists sign, s = sign ++ r /\
  ((sign = [] \/ sign = ["+"%char]) /\ neg = false \/ sign = ["-"%char] /\ neg = true).
Proof.
  intros H. destruct s as [|c s]; [injection H as <- <-; exists []; auto|].
  destruct (Ascii.eqb_spec c "-") as [->|H1]; [injection H as <- <-; exists ["-"%char]; auto|].
  destruct (Ascii.eqb_spec c "+") as [->|H2]; [injection H as <- <-; exists ["+"%char]; auto|].
  assert (read_sign (c :: s) = (false, c :: s)) as E by (unfold read_sign; by destruct c as [[] [] [] [] [] [] [] []]).
  rewrite E in H. injection H as <- <-. exists []; auto.
Qed.
Lemma skip_space_split s : exists blanks, s = blanks ++ skip_space s /\ Forall white blanks.
Proof.
  induction s as [|c s (b & Hb & Hw)]; [by exists []|]. cbn [skip_space]. destruct (is_space c) eqn:E; [|by exists []].
  exists (c :: b). split; [cbn [app]; by f_equal|]. constructor; [|done]. unfold is_space in E. unfold white.
  rewrite orb_true_iff, andb_true_iff, Nat.eqb_eq, !Nat.leb_le in E. tauto.
Qed.
Lemma read_exponent_split s e r : read_exponent "E" "e" s = (e, r) -> exists ex, s = ex ++ r /\ exponent_part ex e.
Proof.
  assert ((0%Z, s) = (e, r) -> exists ex, s = ex ++ r /\ exponent_part ex e) as Kn. { intros [= <- <-]. exists []. split; [done|by left]. }
  unfold read_exponent. destruct s as [|c s]; [exact Kn|]. destruct (Ascii.eqb c "E" || Ascii.eqb c "e") eqn:Ec; [|exact Kn].
  destruct (read_sign s) as [neg s'] eqn:Es. destruct (take_digits s') as [ds r'] eqn:Et. destruct ds as [|d0 ds]; [exact Kn|]. clear Kn.
  apply read_sign_split in Es as (sign & -> & Hs). apply take_digits_split in Et as [-> Hd]. intros [= <- <-].
  exists (c :: sign ++ d0 :: ds). split; [cbn [app]; by rewrite <- app_assoc|]. right. exists c, sign, (d0 :: ds). split_and!; [done| |done|done|].
  - apply orb_true_iff in Ec as [E|E]; apply Ascii.eqb_eq in E as ->; auto.
  - rewrite digits_value_decimal. destruct Hs as [[Hs ->]|[Hs ->]]; [left|right]; done.
Qed.
Lemma read_decimal_split s m e r : read_decimal s = Some (m, e, r) -> exists t, s = t ++ r /\ unsigned_numeral t (IZR m * ten e).
Proof.
  unfold read_decimal. destruct (take_digits s) as [whole s1] eqn:E1. apply take_digits_split in E1 as [-> Hw].
  assert (forall frac point s2, s1 = point ++ frac ++ s2 -> Forall digit frac -> (point = ["."%char] \/ point = [] /\ frac = []) ->
    match whole ++ frac with
    | [] => None
    | ds => let '(e, r) := read_exponent "E" "e" s2 in Some (digits_value 10 digit_value ds, e - Z.of_nat (length frac), r)
    end%Z = Some (m, e, r) -> exists t, whole ++ s1 = t ++ r /\ unsigned_numeral t (IZR m * ten e)) as K.
  { intros frac point s2 -> Hf Hp H. destruct (read_exponent "E" "e" s2) as [e' r'] eqn:Ee. apply read_exponent_split in Ee as (ex & -> & Hx).
    assert (whole ++ frac <> []) as Hne by (intros H0; by rewrite H0 in H). 
    assert (Some (decimal (whole ++ frac), (e' - Z.of_nat (length frac))%Z, r') = Some (m, e, r)) as [= <- <- <-] by (by destruct (whole ++ frac)).
    exists (whole ++ point ++ frac ++ ex). split; [by rewrite <- !app_assoc|]. by exists whole, point, frac, ex, e'. }
  destruct s1 as [|c s1]; [apply (K [] [] []); auto|].
  destruct (Ascii.eqb_spec c ".") as [->|H1].
  - destruct (take_digits s1) as [frac s2] eqn:E2. apply take_digits_split in E2 as [-> Hf]. apply (K frac ["."%char] s2); auto.
  - assert (match c :: s1 with "."%char :: s' => take_digits s' | _ => ([], c :: s1) end = ([], c :: s1)) as -> by (by destruct c as [[] [] [] [] [] [] [] []]).
    apply (K [] [] (c :: s1)); auto.
Qed.
Lemma white_ends blanks : Forall white blanks -> ends_numeral blanks.
Proof.
  intros H c r ->. apply Forall_cons_1 in H as [H _]. unfold white in H. unfold digit. split_and!; [lia|..]; intros ->; vm_compute in H; lia.
Qed.
(** C72.  A number in the settings file is accepted exactly if it is a decimal numeral, perhaps with white space around it,
    that is not too large; its value is the nearest double. *)
Theorem C72_setting s (y : B64) :
  get_double s = Some y <->
  exists blanks t neg v blanks', s = blanks ++ t ++ blanks' /\ Forall white blanks /\ Forall white blanks' /\ numeral t neg v /\
    Rabs (to_double v) < bpow radix2 1024 /\ is_finite y = true /\ Bsign y = neg /\ B2R y = to_double v.
Proof.
  split.
  - intros H. unfold get_double in H. destruct (skip_space_split s) as (blanks & Hs & Hb).
    destruct (read_sign (skip_space s)) as [neg s'] eqn:E1. apply read_sign_split in E1 as (sign & E1 & Hsg).
    destruct (read_decimal s') as [[[m e] r]|] eqn:E2; [|done]. pose proof (read_decimal_split _ _ _ _ E2) as (t & -> & Hu).
    destruct (skip_space_split r) as (blanks' & Hr & Hb').
    destruct (skip_space r) as [|c r'] eqn:E3; [|done]. rewrite app_nil_r in Hr. subst blanks'.
    exists blanks, (sign ++ t), neg, (signed neg (IZR m * ten e)), r. rewrite Hs at 1. rewrite E1, <- !app_assoc. do 3 (split; [done|]). split.
    { exists sign, t, (IZR m * ten e). split; [done|]. split; [done|]. destruct Hsg as [[Hg ->]|[Hg ->]]; [left|right]; done. }
    destruct m as [|p|p].
    + injection H as <-. replace (signed neg (0 * ten e)) with 0 by (unfold signed; destruct neg; ring). rewrite to_double_0, Rabs_R0.
      split; [apply bpow_gt_0|done].
    + destruct (overflows _ _) eqn:EO; [done|]. injection H as <-.
      pose proof (nearest_spec neg (decimal_fraction p e).1 (decimal_fraction p e).2) as HN. cbv zeta in HN. rewrite decimal_fraction_value in HN.
      assert (~ bpow radix2 1024 <= Rabs (to_double (IZR (Zpos p) * ten e))) as HO.
      { intros H. rewrite <- decimal_fraction_value in H. apply overflows_spec in H. congruence. }
      apply Rnot_le_lt in HO. rewrite to_double_signed, signed_abs in *. rewrite Rlt_bool_true in HN by done. destruct HN as (A & B & C). done.
    + exfalso. destruct Hu as (whole & point & frac & ex & e' & _ & Hw & Hf & _ & _ & _ & Hv).
      pose proof (decimal_nonneg (whole ++ frac) ltac:(by apply Forall_app)) as H0. apply IZR_le in H0.
      pose proof (ten_pos e). pose proof (ten_pos (e' - Z.of_nat (length frac))) as P'. assert (IZR (Zneg p) < 0) as Hp by (by apply IZR_lt).
      assert (IZR (Zneg p) * ten e < 0 * ten e) by (by apply Rmult_lt_compat_r). apply (Rmult_le_compat_r _ _ _ (Rlt_le _ _ P')) in H0. lra.
  - intros (blanks & t & neg & v & blanks' & -> & Hb & Hb' & Hn & Ho & Fy & Sy & Vy).
    destruct (numeral_read blanks t neg v blanks' Hb Hn (white_ends _ Hb')) as (t' & m & e & H1 & H2 & H3 & H4).
    unfold get_double. rewrite H1, H3. assert (skip_space blanks' = []) as ->.
    { rewrite <- (app_nil_r blanks'). by apply skip_white. }
    destruct H4 as [[-> ->]|(p & -> & Hv)].
    + rewrite to_double_0 in Vy. f_equal. apply B2R_Bsign_inj; [done|done|by rewrite Vy|done].
    + rewrite Hv in Ho, Vy. rewrite to_double_signed, ?signed_abs in *.
      pose proof (nearest_spec neg (decimal_fraction p e).1 (decimal_fraction p e).2) as HN. cbv zeta in HN. rewrite decimal_fraction_value, to_double_signed, signed_abs in HN.
      rewrite Rlt_bool_true in HN by done. destruct HN as (A & B & C).
      destruct (overflows _ _) eqn:EO. { apply overflows_spec in EO. rewrite decimal_fraction_value in EO. lra. }
      f_equal. apply B2R_Bsign_inj; congruence.
Qed.

(** What is printed for a finite double other than 0. *)
Lemma finite_value (s : bool) (m : positive) (e : Z) (B : SpecFloat.bounded 53 1024 m e = true) : B2R (B754_finite s m e B) = signed s (IZR (Zpos m) * bpow radix2 e).
Proof. cbn [B2R]. unfold F2R. cbn [Fnum Fexp]. destruct s; cbn [SpecFloat.cond_Zopp signed]; [|done]. rewrite opp_IZR. ring. Qed.
Lemma finite_range (s : bool) (m : positive) (e : Z) (B : SpecFloat.bounded 53 1024 m e = true) (r := IZR (Zpos m) * bpow radix2 e) :
  bpow radix2 (-1074) <= r <= bpow radix2 1024 - bpow radix2 971.
Proof.
  pose proof (abs_B2R_le_emax_minus_prec 53 1024 ltac:(done) (B754_finite s m e B)) as H.
  rewrite finite_value, signed_abs in H. fold r in H. assert (0 < r) as Hr by (apply Rmult_lt_0_compat; [by apply IZR_lt|apply bpow_gt_0]).
  rewrite Rabs_right in H by lra. split; [|exact H].
  pose proof (abs_B2R_ge_emin 53 1024 (B754_finite s m e B) eq_refl) as H'. rewrite finite_value, signed_abs, Rabs_right in H' by (fold r; lra). exact H'.
Qed.
Lemma digits_of_double (s : bool) (m : positive) (e : Z) (B : SpecFloat.bounded 53 1024 m e = true) D X (r := IZR (Zpos m) * bpow radix2 e) :
  six_digits (Zpos (binary_fraction m e).1) (Zpos (binary_fraction m e).2) = (D, X) ->
  (10 ^ 5 <= D < 10 ^ 6)%Z /\ (-1000 < X < 1000)%Z /\ exists Y, ten Y <= r < ten (Y + 1) /\
  Rabs (IZR D * ten (X - 5) - r) <= 1 / 2 * ten (Y - 5) /\ (X = Y \/ X = (Y + 1)%Z /\ D = (10 ^ 5)%Z).
Proof.
  intros H. pose proof (finite_range s m e B) as [R1 R2]. fold r in R1, R2. apply six_digits_spec in H as (HD & Y & HY & H); [|done..]. rewrite binary_fraction_value in HY, H. fold r in HY, H.
  split; [done|]. split; [|by exists Y].
  assert (bpow radix2 1024 < ten 400) as U.
  { rewrite ten_Z, <- (IZR_Zpower radix2) by lia. apply IZR_lt. vm_compute. done. }
  assert (ten (-400) < bpow radix2 (-1074)) as L.
  { change (-400)%Z with (- (400))%Z. change (-1074)%Z with (- (1074))%Z. rewrite ten_opp, bpow_opp, ten_Z, <- (IZR_Zpower radix2) by lia.
    apply Rinv_lt_contravar; [apply Rmult_lt_0_compat; apply IZR_lt; vm_compute; done|]. apply IZR_lt. vm_compute. done. }
  pose proof (bpow_gt_0 radix2 971).
  assert (ten Y < ten 400) as H1%ten_lt_inv by lra. assert (ten (-400) < ten (Y + 1)) as H2%ten_lt_inv by lra. lia.
Qed.
(** Nearest among the numbers with six digits. *)
Lemma nearest_six D X Y r w : (10 ^ 5 <= D < 10 ^ 6)%Z -> ten Y <= r < ten (Y + 1) -> Rabs (IZR D * ten (X - 5) - r) <= 1 / 2 * ten (Y - 5) ->
  (X = Y \/ X = (Y + 1)%Z /\ D = (10 ^ 5)%Z) -> six_digit w -> Rabs (IZR D * ten (X - 5) - r) <= Rabs (w - r).
Proof.
  intros HD HY HR HX (D' & X' & HD' & ->).
  assert (exists n, IZR D * ten (X - 5) = IZR n * ten (Y - 5)) as [n Hn].
  { destruct HX as [->|[-> _]]; [by exists D|]. exists (D * 10)%Z. replace (Y + 1 - 5)%Z with (1 + (Y - 5))%Z by lia. rewrite ten_plus, mult_IZR, (ten_Z 1) by lia.
    change (IZR (10 ^ 1)) with (IZR 10). ring. }
  rewrite Hn in *. clear HD HX Hn D X. set (u := ten (Y - 5)) in *. assert (0 < u) as Hu by apply ten_pos.
  assert (forall n', Rabs (IZR n * u - r) <= Rabs (IZR n' * u - r)) as K.
  { intros n'. destruct (decide (n' = n)) as [->|Hne]; [lra|]. apply Rle_trans with (1 / 2 * u); [done|].
    assert (u <= Rabs (IZR n' * u - IZR n * u)) as H.
    { rewrite <- Rmult_minus_distr_r, Rabs_mult, (Rabs_right u), <- minus_IZR, <- abs_IZR by lra.
      assert (1 <= IZR (Z.abs (n' - n))) as H by (apply IZR_le; lia). apply (Rmult_le_compat_r u) in H; lra. }
    pose proof (Rabs_triang (IZR n' * u - r) (r - IZR n * u)) as T. replace (IZR n' * u - r + (r - IZR n * u)) with (IZR n' * u - IZR n * u) in T by ring.
    rewrite (Rabs_minus_sym r) in T. lra. }
  destruct (Z.le_gt_cases (Y - 5) X') as [H|H].
  - replace (IZR D' * ten X') with (IZR (D' * 10 ^ (X' - (Y - 5))) * u); [apply K|].
    rewrite mult_IZR, <- ten_Z, Rmult_assoc by lia. unfold u. rewrite <- ten_plus. f_equal. f_equal. lia.
  - specialize (K (10 ^ 5)%Z). assert (IZR (10 ^ 5) * u = ten Y) as EY. { unfold u. rewrite <- (ten_Z 5), <- ten_plus by lia. f_equal. lia. }
    rewrite EY in K. apply (Rle_trans _ _ _ K). assert (IZR D' * ten X' < ten Y) as HW.
    { apply Rlt_le_trans with (ten 6 * ten X').
      - apply Rmult_lt_compat_r; [apply ten_pos|]. rewrite ten_Z by lia. apply IZR_lt. lia.
      - rewrite <- ten_plus. apply ten_le. lia. }
    rewrite !Rabs_left1 by lra. lra.
Qed.
Lemma relative_six r v Y : ten Y <= r -> Rabs (v - r) <= 1 / 2 * ten (Y - 5) -> Rabs (v - r) <= 5 / 10 ^ 6 * r.
Proof.
  intros H1 H2. apply (Rle_trans _ _ _ H2). replace (Y - 5)%Z with (- (5) + Y)%Z by lia. rewrite ten_plus, ten_opp, ten_Z by lia.
  change (IZR (10 ^ 5)) with 100000. lra.
Qed.
Lemma six_digit_signed neg v : six_digit v -> six_digit (signed neg v).
Proof.
  intros (D & X & HD & ->). destruct neg; [|by exists D, X]. exists (- D)%Z, X. split; [by rewrite Z.abs_opp|]. cbn [signed]. rewrite opp_IZR. ring.
Qed.
Lemma signed_signed neg v : signed neg (signed neg v) = v.
Proof. destruct neg; cbn; ring. Qed.
Lemma signed_minus neg a b : Rabs (signed neg a - b) = Rabs (a - signed neg b).
Proof. destruct neg; cbn [signed]; [|done]. rewrite <- Rabs_Ropp. f_equal. ring. Qed.
Lemma sign_numeral (neg : bool) (s : text) v : unsigned_numeral s v -> numeral ((if neg then ["-"%char] else [] : text) ++ s) neg (signed neg v).
Proof. intros H. exists (if neg then ["-"%char] else []), s, v. split; [done|]. split; [done|]. destruct neg; [by right|left; auto]. Qed.
Lemma zero_numeral (neg : bool) : numeral ((if neg then ["-"%char] else [] : text) ++ ["0"%char]) neg 0.
Proof.
  replace 0 with (signed neg 0) by (unfold signed; destruct neg; ring). apply sign_numeral. exists ["0"%char], [], [], [], 0%Z. cbn [app length].
  split_and!; [done|apply (zeros_digit 1)|done|done|by right|by left|]. change (decimal ["0"%char]) with 0%Z. ring.
Qed.
(** C72.  What is written for a finite double: a numeral of at most six digits with the sign of the number; no number
    with at most six digits is nearer, and the relative error is at most 5e-6. *)
Theorem C72_print (x : B64) :
  is_finite x = true ->
  exists v, numeral (print_double x) (Bsign x) v /\ six_digit v /\
    (forall w, six_digit w -> Rabs (v - B2R x) <= Rabs (w - B2R x)) /\
    Rabs (v - B2R x) <= 5 / 10 ^ 6 * Rabs (B2R x).
Proof.
  destruct x as [s|s| |s m e B]; try done; intros _.
  - exists 0. split; [apply zero_numeral|]. cbn [B2R]. rewrite Rminus_0_r, Rabs_R0. split_and!.
    + exists 0%Z, 0%Z. split; [lia|ring].
    + intros w _. apply Rabs_pos.
    + lra.
  - unfold print_double. destruct (binary_fraction m e) as [num den] eqn:EF. destruct (six_digits (Zpos num) (Zpos den)) as [D X] eqn:ED.
    pose proof (digits_of_double s m e B D X) as K. rewrite EF in K. destruct (K ED) as (HD & HX & Y & HY & HR & HXY). clear K.
    rewrite finite_value. set (r := IZR (Zpos m) * bpow radix2 e) in *. exists (signed s (IZR D * ten (X - 5))). split_and!.
    + apply sign_numeral. by apply print_digits_numeral.
    + apply six_digit_signed. exists D, (X - 5)%Z. split; [lia|done].
    + intros w Hw. rewrite signed_minus, signed_signed. replace w with (signed s (signed s w)) by apply signed_signed. rewrite signed_minus, signed_signed.
      apply (nearest_six D X Y); [done..|]. by apply six_digit_signed.
    + rewrite signed_minus, signed_signed, signed_abs. pose proof (ten_pos Y). rewrite (Rabs_right r) by lra. apply (relative_six r _ Y); [lra|done].
Qed.

(** The rounded number stays in the range of the doubles. *)
Lemma below_largest D X Y r : (10 ^ 5 <= D < 10 ^ 6)%Z -> ten Y <= r < ten (Y + 1) -> Rabs (IZR D * ten (X - 5) - r) <= 1 / 2 * ten (Y - 5) ->
  (X = Y \/ X = (Y + 1)%Z /\ D = (10 ^ 5)%Z) -> r <= bpow radix2 1024 - bpow radix2 971 ->
  IZR D * ten (X - 5) <= bpow radix2 1024 - bpow radix2 971.
Proof.
  intros HD HY HR HX Hr. set (L := bpow radix2 1024 - bpow radix2 971) in *.
  assert (L = IZR (2 ^ 1024 - 2 ^ 971)) as EL.
  { unfold L. rewrite minus_IZR. change 2%Z with (radix_val radix2). by rewrite !IZR_Zpower. }
  assert (179769 * ten 303 <= L) as L1. { rewrite EL, ten_Z, <- mult_IZR by lia. apply IZR_le. by vm_compute. }
  assert (2 * L < 359539 * ten 303) as L2. { rewrite EL, ten_Z, <- !mult_IZR by lia. apply IZR_lt. by vm_compute. }
  clearbody L. clear EL.
  assert (ten 308 = 100000 * ten 303) as E8. { change 308%Z with (5 + 303)%Z. rewrite ten_plus, (ten_Z 5) by lia. done. }
  assert (ten 309 = 1000000 * ten 303) as E9. { change 309%Z with (6 + 303)%Z. rewrite ten_plus, (ten_Z 6) by lia. done. }
  pose proof (ten_pos 303) as P3. apply Rabs_le_inv in HR.
  assert (ten Y < ten 309) as HY9%ten_lt_inv by lra. destruct (Z.eq_dec Y 308%Z) as [->|].
  - destruct HX as [->|[-> ->]].
    + change (308 - 5)%Z with 303%Z in *. assert (IZR D * ten 303 < 179770 * ten 303) as HL by lra. apply Rmult_lt_reg_r in HL; [|done].
      apply lt_IZR in HL. assert (D <= 179769)%Z as HD' by lia. apply IZR_le in HD'. apply (Rmult_le_compat_r (ten 303)) in HD'; lra.
    + exfalso. change (308 - 5)%Z with 303%Z in *. change (308 + 1 - 5)%Z with 304%Z in *.
      assert (ten 304 = 10 * ten 303) as E4. { change 304%Z with (1 + 303)%Z. rewrite ten_plus, (ten_Z 1) by lia. done. }
      rewrite E4 in HR. change (IZR (10 ^ 5)) with 100000 in HR. lra.
  - assert (ten (Y + 1) <= ten 308) as H1 by (apply ten_le; lia). assert (ten (Y - 5) <= ten 303) as H2 by (apply ten_le; lia). lra.
Qed.
Lemma small_step r v : Rabs (v - r) <= 5 / 10 ^ 6 * r -> bpow radix2 (-1021) <= r -> bpow radix2 (-1022) <= v.
Proof.
  intros H Hr. apply Rabs_le_inv in H. change (-1021)%Z with (1 + -1022)%Z in Hr. rewrite bpow_plus in Hr. change (bpow radix2 1) with 2 in Hr.
  pose proof (bpow_gt_0 radix2 (-1022)). lra.
Qed.
(** C72.  A double that is not tiny can be read back from what was written for it: it comes back with the same sign, up to a
    few units in the sixth digit (infinities, not-a-number and zeros exactly), and writing it again gives the same text. *)
Theorem C72_reread (x : B64) :
  not_tiny x -> exists y, stod (print_double x) = Some y /\ about x y /\ print_double y = print_double x.
Proof.
  intros Hx. assert (forall y, y = x -> about x y) as Same.
  { intros y ->. split_and!; [done|done| |done]. rewrite Rminus_eq_0, Rabs_R0. apply Rmult_le_pos; [|apply Rabs_pos].
    assert (0 < / 2 ^ 52) by (apply Rinv_0_lt_compat; lra). lra. }
  destruct x as [s|s| |s m e B] eqn:Ex.
  - exists x. subst x. split_and!; [by destruct s|by apply Same|done].
  - exists x. subst x. split_and!; [by destruct s; vm_compute|by apply Same|done].
  - exists x. subst x. split_and!; [by vm_compute|by apply Same|done].
  - clear Same. rewrite <- Ex in *. set (r := IZR (Zpos m) * bpow radix2 e) in *.
    assert (B2R x = signed s r) as Hxr by (rewrite Ex; apply finite_value).
    destruct (six_digits (Zpos (binary_fraction m e).1) (Zpos (binary_fraction m e).2)) as [D X] eqn:ED.
    destruct (digits_of_double s m e B D X ED) as (HD & HX & Y & HY & HR & HXY). fold r in HY, HR.
    destruct (finite_range s m e B) as [_ R2]. fold r in R2.
    pose proof (below_largest D X Y r HD HY HR HXY R2) as HL. pose proof (relative_six r _ Y (proj1 HY) HR) as HE. set (v := IZR D * ten (X - 5)) in *.
    pose proof (ten_pos Y) as PY. assert (bpow radix2 (-1021) <= r) as Hr.
    { destruct (Hx ltac:(by rewrite Ex)) as [H|H]; rewrite Hxr in H; [|by rewrite signed_abs, Rabs_right in H by lra].
      exfalso. destruct s; cbn [signed] in H; lra. }
    pose proof (small_step r v HE Hr) as Hv. pose proof (bpow_gt_0 radix2 (-1022)) as P22.
    assert (print_double x = (if s then ["-"%char] else [] : text) ++ print_digits D X) as HP.
    { rewrite Ex. unfold print_double. destruct (binary_fraction m e) as [num den]. cbn [fst snd] in ED. by rewrite ED. }
    assert (Rabs (to_double v - v) <= / 2 * bpow radix2 (-53 + 1) * Rabs v) as HN.
    { apply (relative_error_N_FLT radix2 (-1074) 53 ltac:(done) (fun x => negb (Z.even x))). rewrite Rabs_right by lra. exact Hv. }
    rewrite (Rabs_right v) in HN by lra. change (bpow radix2 (-53 + 1)) with (/ IZR (2 ^ 52)) in HN. change (IZR (2 ^ 52)) with 4503599627370496 in HN.
    assert (0 <= to_double v <= bpow radix2 1024 - bpow radix2 971) as HT.
    { split.
      - apply Rabs_le_inv in HN. lra.
      - apply round_le_generic; [apply _..| |done]. apply generic_format_FLT. exists (Float radix2 (2 ^ 53 - 1) 971); [|cbn; lia|cbn; lia].
        unfold F2R. cbn [Fnum Fexp]. rewrite minus_IZR. change (2 ^ 53)%Z with (radix_val radix2 ^ 53)%Z. rewrite IZR_Zpower by lia.
        rewrite Rmult_minus_distr_r, <- bpow_plus. f_equal. lra. }
    destruct (C72_stod [] (print_double x) s (signed s v) [] ltac:(done)) as [[H _]|(_ & y & Hy & Fy & Sy & Vy)].
    { rewrite HP. apply sign_numeral. by apply print_digits_numeral. }
    { done. }
    { exfalso. unfold out_of_range in H. rewrite to_double_signed, !signed_abs, (Rabs_right v), (Rabs_right (to_double v)) in H by lra.
      pose proof (bpow_gt_0 radix2 971). pose proof (bpow_gt_0 radix2 (-1076)). unfold tiny_bound in H. lra. }
    rewrite app_nil_r in Hy. cbn [app] in Hy. exists y. split; [done|].
    assert (B2R y = signed s (to_double v)) as Vy' by (rewrite Vy; apply to_double_signed).
    split; [split_and!|].
    + rewrite Ex. cbn [Bsign]. done.
    + rewrite Ex. cbn [is_finite]. done.
    + rewrite Vy', Hxr, signed_minus, signed_signed, signed_abs, (Rabs_right r) by lra.
      pose proof (Rabs_triang (to_double v - v) (v - r)) as T. replace (to_double v - v + (v - r)) with (to_double v - r) in T by ring.
      assert (2 ^ 52 = 4503599627370496) as -> by lra. apply Rabs_le_inv in HE as HE'. lra.
    + intros [H|H]; [by rewrite Ex in H|]. exfalso. rewrite Hxr in H. destruct s; cbn [signed] in H; lra.
    + rewrite HP. assert (0 < to_double v) as PT by (apply Rabs_le_inv in HN; lra). destruct y as [s'|s'| |s' m' e' B']; [|done..|].
      { exfalso. cbn [B2R] in Vy'. destruct s; cbn [signed] in Vy'; lra. }
      cbn [Bsign] in Sy. subst s'. rewrite finite_value in Vy'. apply signed_inj in Vy'.
      unfold print_double. destruct (binary_fraction m' e') as [num den] eqn:EF.
      rewrite (six_digits_near (Zpos num) (Zpos den) D X); [done..|].
      pose proof (binary_fraction_value m' e') as BF. rewrite EF in BF. cbn [fst snd] in BF. rewrite BF, Vy'. fold v.
      assert (ten (-8) = / 100000000) as -> by (change (-8)%Z with (- (8))%Z; rewrite ten_opp, ten_Z by lia; done). lra.
Qed.

(** C72.  A file of particles without tiny numbers can be read back; the particles come back in order, types exactly, numbers
    up to a few units in the sixth digit; writing what was read gives the same file. *)
Theorem C72_file {d : dim} (ps : list (particle B64num d)) :
  (forall p v, p ∈ ps -> value_of p v -> not_tiny v) -> Forall (fun p => int_type (pT p)) ps ->
  exists ps', read_csv (N := B64num) stod (write_csv (N := B64num) print_double ps) = Read ps' /\ Forall2 about_particle ps ps' /\
    write_csv (N := B64num) print_double ps' = write_csv (N := B64num) print_double ps.
Proof.
  intros Hv Ht. set (round := fun x : B64num => default x (stod (print_double x))).
  assert (forall x : B64, not_tiny x -> stod (print_double x) = Some (round x) /\ about x (round x) /\ print_double (round x) = print_double x) as K.
  { intros x Hx. destruct (C72_reread x Hx) as (y & H1 & H2 & H3). assert (round x = y) as -> by (unfold round; by rewrite H1). done. }
  exists (map (reread round) ps). split_and!.
  - apply (C45_round_trip (N := B64num) print_double stod round); [|done]. intros p v Hp Hpv. split; [|by apply K, (Hv p)].
    change (plain (print_double v)). destruct (is_finite v) eqn:F.
    + destruct (C72_print v F) as (w & Hw & _). by eapply numeral_plain.
    + intros c. destruct v as [s|s| |]; try done; [destruct s|]; unfold print_double, lit; cbn; rewrite ?elem_of_cons, elem_of_nil; intros H;
        repeat destruct H as [->|H]; done.
  - apply Forall2_fmap_r, Forall2_same_length_lookup_2; [done|]. intros i p q Hp Hq. rewrite Hp in Hq. injection Hq as <-. apply elem_of_list_lookup_2 in Hp.
    pose proof (fun v H => proj1 (proj2 (K v (Hv p v Hp H)))) as KA. unfold reread, about_particle. cbn [pT pP pN pX pU]. split_and!; [done|apply KA; by left|apply KA; right; by left|].
    intros k Hk. cbn [pX pU]. rewrite !tget_tmk by done. split; apply KA; right; right; exists k; auto.
  - unfold write_csv. do 2 f_equal. rewrite map_map. apply map_ext_in. intros p Hp%elem_of_list_In.
    pose proof (fun v H => proj2 (proj2 (K v (Hv p v Hp H)))) as KA. f_equal. f_equal. unfold fields, reread. cbn [pT pP pN pX pU]. f_equal.
    assert (forall f : nat -> B64, (forall k, (k < dimn d)%nat -> value_of p (f k)) ->
       map (fun k => print_double (tget d (tmk d (fun k => round (f k)) : vec B64num d) k)) (seq 0 (dimn d)) = map (fun k => print_double (f k)) (seq 0 (dimn d))) as KM.
    { intros f Hf. apply map_ext_in. intros k Hk%in_seq. rewrite tget_tmk by lia. apply KA, Hf. lia. }
    assert (forall a b c a' b' c' : list text, a = a' -> b = b' -> c = c' -> a ++ b ++ c = a' ++ b' ++ c') as KC by congruence.
    apply KC; [apply KM|apply KM|].
    + intros k Hk. right; right. exists k. auto.
    + intros k Hk. right; right. exists k. auto.
    + f_equal; [apply KA; by left|]. f_equal. apply KA. right; by left.
Qed.

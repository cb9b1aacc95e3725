(** Lemmas about numbers as text. *)
From Coq Require Import ZArith Reals Lra String Ascii.
From Verif Require Import S_Text P_B64.
From Flocq Require Import Core BinarySingleNaN Relative.
Open Scope R_scope.

Definition radix10 : radix := {| radix_val := 10; radix_prop := eq_refl |}.
Lemma ten_bpow e : ten e = bpow radix10 e.
Proof. unfold ten. by rewrite bpow_powerRZ. Qed.
Lemma ten_pos e : 0 < ten e. Proof. rewrite ten_bpow. apply bpow_gt_0. Qed.
Lemma ten_plus a b : ten (a + b) = ten a * ten b. Proof. rewrite !ten_bpow. apply bpow_plus. Qed.
Lemma ten_le a b : (a <= b)%Z -> ten a <= ten b. Proof. rewrite !ten_bpow. apply bpow_le. Qed.
Lemma ten_lt a b : (a < b)%Z -> ten a < ten b. Proof. rewrite !ten_bpow. apply bpow_lt. Qed.
Lemma ten_lt_inv a b : ten a < ten b -> (a < b)%Z. Proof. rewrite !ten_bpow. apply lt_bpow. Qed.
Lemma ten_Z e : (0 <= e)%Z -> ten e = IZR (10 ^ e).
Proof. intros H. rewrite ten_bpow. by rewrite <- (IZR_Zpower radix10). Qed.
Lemma ten_0 : ten 0 = 1. Proof. by rewrite ten_Z. Qed.
Lemma ten_opp e : ten (- e) = / ten e. Proof. rewrite !ten_bpow. apply bpow_opp. Qed.

(** *** Digits of a fraction *)
Lemma log10_spec n : (1 <= n)%Z -> (10 ^ log10 n <= n < 10 ^ (log10 n + 1))%Z /\ (0 <= log10 n)%Z.
Proof.
  intros Hn. unfold log10. assert (n < 2 ^ (Z.of_nat (Z.to_nat (Z.log2 n + 1))))%Z as Hf.
  { pose proof (Z.log2_nonneg n). rewrite Z2Nat.id by lia. pose proof (Z.log2_spec n ltac:(lia)) as [_ HL]. rewrite Z.add_1_r. exact HL. }
  revert Hf. generalize (Z.to_nat (Z.log2 n + 1)) as f. intros f. revert n Hn.
  induction f as [|f IH]; intros m Hm Hf; [simpl in Hf; lia|]. cbn [log10_fuel].
  destruct (Z.ltb_spec m 10) as [H|H]; [split; [simpl; lia|lia]|].
  assert (1 <= m / 10)%Z as H1 by (apply Z.div_le_lower_bound; lia).
  assert (m / 10 < 2 ^ Z.of_nat f)%Z as H2.
  { apply Z.div_lt_upper_bound; [lia|]. rewrite Nat2Z.inj_succ, Z.pow_succ_r in Hf by lia. lia. }
  destruct (IH (m / 10)%Z H1 H2) as [[A B] C]. set (l := log10_fuel f (m / 10)) in *. clearbody l.
  split; [|lia]. replace (1 + l + 1)%Z with (Z.succ (l + 1)) by lia. rewrite (Z.add_comm 1 l), Z.add_1_r, !Z.pow_succ_r by lia.
  pose proof (Z.div_mod m 10 ltac:(lia)). pose proof (Z.mod_pos_bound m 10 ltac:(lia)). rewrite Z.add_1_r in *. rewrite Z.pow_succ_r in B by lia. 
  rewrite ?Z.pow_succ_r by lia. lia.
Qed.
Lemma le_ratio a b c : 0 < b -> a <= c / b <-> a * b <= c.
Proof.
  intros Hb. split; intros H.
  - apply (Rmult_le_compat_r b) in H; [|lra]. unfold Rdiv in H. rewrite Rmult_assoc, Rinv_l, Rmult_1_r in H by lra. done.
  - apply (Rmult_le_reg_r b); [done|]. unfold Rdiv. rewrite Rmult_assoc, Rinv_l, Rmult_1_r by lra. done.
Qed.
Lemma ratio_lt a b c : 0 < b -> c / b < a <-> c < a * b.
Proof.
  intros Hb. split; intros H.
  - apply Rnot_le_lt. intros H'. apply le_ratio in H'; [lra|done].
  - apply Rnot_le_lt. intros H'. apply le_ratio in H'; [lra|done].
Qed.
Lemma exponent_spec num den : (0 < num)%Z -> (0 < den)%Z ->
  ten (decimal_exponent num den) <= IZR num / IZR den < ten (decimal_exponent num den + 1).
Proof.
  intros Hn Hd. assert (0 < IZR den) as Hd' by (by apply IZR_lt). rewrite le_ratio, ratio_lt by done.
  unfold decimal_exponent. destruct (Z.leb_spec den num) as [H|H].
  - assert (1 <= num / den)%Z as H1 by (apply Z.div_le_lower_bound; lia).
    destruct (log10_spec _ H1) as [[A B] C]. set (l := log10 _) in *. clearbody l. rewrite !ten_Z, <- !mult_IZR by lia.
    pose proof (Z.div_mod num den ltac:(lia)). pose proof (Z.mod_pos_bound num den ltac:(lia)).
    split; [apply IZR_le|apply IZR_lt]; nia.
  - assert (1 <= (den - 1) / num)%Z as H1 by (apply Z.div_le_lower_bound; lia).
    destruct (log10_spec _ H1) as [[A B] C]. set (l := log10 _) in *. clearbody l.
    pose proof (Z.div_mod (den - 1) num ltac:(lia)). pose proof (Z.mod_pos_bound (den - 1) num ltac:(lia)).
    replace (- (1 + l) + 1)%Z with (- l)%Z by lia. rewrite !ten_opp, !ten_Z by lia. rewrite (Z.add_comm 1 l).
    assert (0 < IZR (10 ^ l)) as P1 by (apply IZR_lt; lia). assert (0 < IZR (10 ^ (l + 1))) as P2 by (apply IZR_lt; lia). split.
    + apply (Rmult_le_reg_l (IZR (10 ^ (l + 1)))); [done|]. rewrite <- Rmult_assoc, Rinv_r, Rmult_1_l by lra. rewrite <- mult_IZR. apply IZR_le. nia.
    + apply (Rmult_lt_reg_l (IZR (10 ^ l))); [done|]. rewrite <- Rmult_assoc, Rinv_r, Rmult_1_l by lra. rewrite <- mult_IZR. apply IZR_lt. nia.
Qed.
Lemma exponent_unique r X Y : ten X <= r < ten (X + 1) -> ten Y <= r < ten (Y + 1) -> X = Y.
Proof.
  intros [A B] [C D]. assert (ten X < ten (Y + 1)) as H1%ten_lt_inv by lra. assert (ten Y < ten (X + 1)) as H2%ten_lt_inv by lra. lia.
Qed.
Lemma round_div_spec num den : (0 < den)%Z -> Rabs (IZR (round_div num den) - IZR num / IZR den) <= 1 / 2.
Proof.
  intros Hd. assert (0 < IZR den) as Hd' by (by apply IZR_lt).
  pose proof (Z.div_mod num den ltac:(lia)) as HM. pose proof (Z.mod_pos_bound num den Hd) as HB.
  assert (exists c, round_div num den = num / den + c /\ (c = 0 /\ 2 * (num mod den) <= den \/ c = 1 /\ den <= 2 * (num mod den)))%Z as (c & -> & Hc).
  { unfold round_div. destruct (Z.compare_spec (2 * (num mod den)) den) as [E|E|E].
    - destruct (Z.even _); [exists 0%Z|exists 1%Z]; lia.
    - exists 0%Z; lia.
    - exists 1%Z; lia. }
  assert (IZR num = IZR den * IZR (num / den) + IZR (num mod den)) as HR by (rewrite <- mult_IZR, <- plus_IZR; by f_equal).
  assert (IZR (num / den + c) - IZR num / IZR den = (IZR den * IZR c - IZR (num mod den)) / IZR den) as ->.
  { rewrite HR, plus_IZR. field. lra. }
  unfold Rdiv at 1. rewrite Rabs_mult, (Rabs_right (/ IZR den)) by (apply Rle_ge; left; by apply Rinv_0_lt_compat).
  apply (Rmult_le_reg_r (IZR den)); [done|]. rewrite Rmult_assoc, Rinv_l, Rmult_1_r by lra.
  destruct HB as [B1 B2]. apply IZR_le in B1. apply IZR_lt in B2.
  destruct Hc as [[-> H]|[-> H]]; apply IZR_le in H; rewrite mult_IZR in H; apply Rabs_le; lra.
Qed.
Lemma round_unique (D n : Z) r : Rabs (IZR D - r) <= 1 / 2 -> Rabs (IZR n - r) < 1 / 2 -> D = n.
Proof.
  intros H1 H2. apply Rabs_le_inv in H1. apply Rabs_lt_inv in H2. assert (IZR D - IZR n < 1 /\ IZR n - IZR D < 1) as [A B] by lra.
  rewrite <- minus_IZR in A, B. apply lt_IZR in A, B. lia.
Qed.
(** The first six digits. *)
Lemma six_digits_spec num den D X : (0 < num)%Z -> (0 < den)%Z -> six_digits num den = (D, X) ->
  (10 ^ 5 <= D < 10 ^ 6)%Z /\ exists Y, ten Y <= IZR num / IZR den < ten (Y + 1) /\
  Rabs (IZR D * ten (X - 5) - IZR num / IZR den) <= 1 / 2 * ten (Y - 5) /\ (X = Y \/ X = (Y + 1)%Z /\ D = (10 ^ 5)%Z).
Proof.
  intros Hn Hd H. pose proof (exponent_spec num den Hn Hd) as HX. unfold six_digits in H. set (Y := decimal_exponent num den) in *.
  set (r := IZR num / IZR den) in *.
  set (a := (num * 10 ^ Z.max (5 - Y) 0)%Z) in *. set (b := (den * 10 ^ Z.max (Y - 5) 0)%Z) in *.
  assert (0 < b)%Z as Hb. { unfold b. apply Z.mul_pos_pos; [done|]. apply Z.pow_pos_nonneg; lia. }
  assert (0 < IZR den) as Hd' by (by apply IZR_lt). assert (0 < IZR b) as Hb' by (by apply IZR_lt).
  assert (IZR a / IZR b = r * ten (5 - Y)) as Hab.
  { unfold a, b, r. rewrite !mult_IZR, <- !ten_Z by lia.
    replace (5 - Y)%Z with (Z.max (5 - Y) 0 + - Z.max (Y - 5) 0)%Z at 2 by lia. rewrite ten_plus, ten_opp. field. split; [|lra].
    pose proof (ten_pos (Z.max (Y - 5) 0)). lra. }
  pose proof (round_div_spec a b Hb) as HR. set (D0 := round_div a b) in *. rewrite Hab in HR.
  assert (ten 5 <= r * ten (5 - Y) < ten 6) as HS.
  { replace 5%Z with (Y + (5 - Y))%Z at 1 by lia. replace 6%Z with (Y + 1 + (5 - Y))%Z by lia. rewrite (ten_plus Y), (ten_plus (Y + 1)).
    pose proof (ten_pos (5 - Y)). split; [apply Rmult_le_compat_r; lra|apply Rmult_lt_compat_r; lra]. }
  rewrite (ten_Z 5), (ten_Z 6) in HS by lia. change (IZR (10 ^ 5)) with 100000 in HS. change (IZR (10 ^ 6)) with 1000000 in HS.
  assert (10 ^ 5 <= D0 <= 10 ^ 6)%Z as HD0.
  { apply Rabs_le_inv in HR. split.
    - apply Z.nlt_ge. intros Hlt. assert (D0 + 1 <= 100000)%Z as Hle by lia. apply IZR_le in Hle. rewrite plus_IZR in Hle. lra.
    - apply Z.nlt_ge. intros Hlt. assert (1000001 <= D0)%Z as Hle by lia. apply IZR_le in Hle. lra. }
  assert (Rabs (IZR D0 * ten (Y - 5) - r) <= 1 / 2 * ten (Y - 5)) as HA.
  { assert (r = r * ten (5 - Y) * ten (Y - 5)) as E. { rewrite Rmult_assoc, <- ten_plus. replace (5 - Y + (Y - 5))%Z with 0%Z by lia. rewrite ten_0. ring. }
    rewrite E at 1. rewrite <- Rmult_minus_distr_r, Rabs_mult, (Rabs_right (ten (Y - 5))) by (apply Rle_ge; left; apply ten_pos).
    apply Rmult_le_compat_r; [left; apply ten_pos|done]. }
  destruct (Z.eqb_spec D0 (10 ^ 6)) as [E|E]; injection H as <- <-.
  - split; [lia|]. exists Y. split; [done|]. split; [|by right]. rewrite E in HA.
    assert (IZR (10 ^ 5) * ten (Y + 1 - 5) = IZR (10 ^ 6) * ten (Y - 5)) as ->; [|done].
    rewrite <- !ten_Z, <- !ten_plus by lia. f_equal. lia.
  - split; [lia|]. exists Y. split; [done|]. split; [done|by left].
Qed.
(** A number very near to a six-digit number has its digits. *)
Lemma six_digits_near num den D X : (0 < num)%Z -> (0 < den)%Z -> (10 ^ 5 <= D < 10 ^ 6)%Z ->
  Rabs (IZR num / IZR den - IZR D * ten (X - 5)) <= ten (-8) * (IZR D * ten (X - 5)) -> six_digits num den = (D, X).
Proof.
  intros Hn Hd HD H. set (r := IZR num / IZR den) in *. set (t := r * ten (5 - X)).
  assert (r = t * ten (X - 5)) as Er. { unfold t. rewrite Rmult_assoc, <- ten_plus. replace (5 - X + (X - 5))%Z with 0%Z by lia. rewrite ten_0. ring. }
  destruct HD as [D1 D2]. apply IZR_le in D1 as D1'. assert (D <= 10 ^ 6 - 1)%Z as D2' by lia. apply IZR_le in D2'.
  change (IZR (10 ^ 5)) with 100000 in D1'. change (IZR (10 ^ 6 - 1)) with 999999 in D2'.
  assert (Rabs (t - IZR D) <= 1 / 100) as Ht.
  { rewrite Er in H. rewrite <- Rmult_minus_distr_r, Rabs_mult, (Rabs_right (ten (X - 5))), <- Rmult_assoc in H by (apply Rle_ge; left; apply ten_pos).
    apply Rmult_le_reg_r in H; [|apply ten_pos]. assert (ten (-8) = / 100000000) as E8 by (change (-8)%Z with (- (8))%Z; rewrite (ten_opp 8), ten_Z by lia; done). rewrite E8 in H. lra. }
  apply Rabs_le_inv in Ht. destruct (six_digits num den) as [D' X'] eqn:E.
  destruct (six_digits_spec num den D' X' Hn Hd E) as (HD' & Y & HY & HR & HXY). fold r in HY, HR.
  pose proof (ten_pos (X - 5)) as P5.
  assert (ten X = 100000 * ten (X - 5)) as EX. { replace X with (5 + (X - 5))%Z at 1 by lia. rewrite ten_plus, (ten_Z 5) by lia. done. }
  assert (ten (X + 1) = 1000000 * ten (X - 5)) as EX1. { replace (X + 1)%Z with (6 + (X - 5))%Z at 1 by lia. rewrite ten_plus, (ten_Z 6) by lia. done. }
  assert (ten (X - 1) = 10000 * ten (X - 5)) as EXm. { replace (X - 1)%Z with (4 + (X - 5))%Z at 1 by lia. rewrite ten_plus, (ten_Z 4) by lia. done. }
  destruct (Rle_or_lt (ten X) r) as [Hle|Hlt].
  - assert (Y = X) as ->. { apply (exponent_unique r); [done|]. split; [done|]. rewrite EX1, Er. apply Rmult_lt_compat_r; lra. }
    assert (X' = X) as ->.
    { destruct HXY as [|[-> HD5]]; [done|]. exfalso. rewrite HD5 in HR. replace (X + 1 - 5)%Z with (1 + (X - 5))%Z in HR by lia.
      rewrite ten_plus, (ten_Z 1), <- Rmult_assoc, Er, <- Rmult_minus_distr_r, Rabs_mult, (Rabs_right (ten (X - 5))) in HR by (try lia; lra).
      apply Rmult_le_reg_r in HR; [|done]. apply Rabs_le_inv in HR. change (IZR (10 ^ 5) * IZR (10 ^ 1)) with (100000 * 10) in HR. lra. }
    f_equal. rewrite Er, <- Rmult_minus_distr_r, Rabs_mult, (Rabs_right (ten (X - 5))) in HR by lra.
    apply Rmult_le_reg_r in HR; [|done]. apply (round_unique D' D t); [done|]. apply Rabs_lt. lra.
  - assert (D = 10 ^ 5)%Z as HD5.
    { rewrite EX, Er in Hlt. apply Rmult_lt_reg_r in Hlt; [|done]. assert (IZR D < IZR (10 ^ 5 + 1)) as H1%lt_IZR by (change (IZR (10 ^ 5 + 1)) with 100001; lra). lia. }
    assert (Y = X - 1)%Z as ->.
    { apply (exponent_unique r); [done|]. replace (X - 1 + 1)%Z with X by lia. split; [|done]. rewrite EXm, Er. apply Rmult_le_compat_r; lra. }
    replace (X - 1 - 5)%Z with (X - 6)%Z in HR by lia. pose proof (ten_pos (X - 6)) as P6.
    assert (ten (X - 5) = 10 * ten (X - 6)) as E6. { replace (X - 5)%Z with (1 + (X - 6))%Z at 1 by lia. rewrite ten_plus, (ten_Z 1) by lia. done. }
    destruct HXY as [->|[-> ->]].
    + exfalso. replace (X - 1 - 5)%Z with (X - 6)%Z in HR by lia. rewrite Er, E6 in HR.
      replace (IZR D' * ten (X - 6) - t * (10 * ten (X - 6))) with ((IZR D' - 10 * t) * ten (X - 6)) in HR by ring.
      rewrite Rabs_mult, (Rabs_right (ten (X - 6))) in HR by lra. apply Rmult_le_reg_r in HR; [|done]. apply Rabs_le_inv in HR.
      rewrite HD5 in Ht, H. change (IZR (10 ^ 5)) with 100000 in Ht. destruct HD' as [_ HD']. assert (D' <= 10 ^ 6 - 1)%Z as HD'' by lia. apply IZR_le in HD''.
      change (IZR (10 ^ 6 - 1)) with 999999 in HD''.
      (* sharper: 10 t is within 1/100 of 10^6 *)
      rewrite Er, <- Rmult_minus_distr_r, Rabs_mult, (Rabs_right (ten (X - 5))), <- Rmult_assoc in H by lra.
      apply Rmult_le_reg_r in H; [|done]. assert (ten (-8) = / 100000000) as E8 by (change (-8)%Z with (- (8))%Z; rewrite (ten_opp 8), ten_Z by lia; done). rewrite E8 in H.
      change (IZR (10 ^ 5)) with 100000 in H. apply Rabs_le_inv in H. lra.
    + f_equal; [by rewrite HD5|lia].
Qed.

(** *** Rows of digits *)
Lemma decimal_app a b : decimal (a ++ b) = (decimal a * 10 ^ Z.of_nat (length b) + decimal b)%Z.
Proof.
  unfold decimal. rewrite foldl_app. generalize (foldl (fun n c => 10 * n + (Z.of_nat (Ascii.nat_of_ascii c) - 48))%Z 0%Z a) as n.
  induction b as [|c b IH] using rev_ind; intros n; [cbn; lia|].
  rewrite !foldl_app, app_length, Nat2Z.inj_add, Z.pow_add_r by lia. cbn [foldl length]. rewrite IH. 
  change (10 ^ Z.of_nat 1)%Z with 10%Z. lia.
Qed.
Lemma decimal_nonneg s : Forall digit s -> (0 <= decimal s)%Z.
Proof.
  induction s as [|c s IH] using rev_ind; intros H; [done|]. apply Forall_app in H as [H1 H2]. rewrite decimal_app. specialize (IH H1).
  rewrite Forall_singleton in H2. destruct H2 as [H2 _]. cbn [length]. unfold decimal at 2. cbn [foldl]. change (10 ^ Z.of_nat 1)%Z with 10%Z. lia.
Qed.
Lemma digits_value_decimal s : digits_value 10 digit_value s = decimal s.
Proof. done. Qed.
Lemma is_digit_digit c : is_digit c = true <-> digit c.
Proof. unfold is_digit, digit. rewrite andb_true_iff, !Nat.leb_le. done. Qed.
Lemma digit_char_value z : (0 <= z < 10)%Z -> digit (digit_char z) /\ decimal [digit_char z] = z.
Proof.
  intros H. unfold decimal, digit, digit_char. cbn [foldl]. rewrite Ascii.nat_ascii_embedding by lia. split; lia.
Qed.
Lemma width_spec k z : (0 <= z)%Z -> Forall digit (width k z) /\ length (width k z) = k /\ decimal (width k z) = (z mod 10 ^ Z.of_nat k)%Z.
Proof.
  revert z. induction k as [|k IH]; intros z Hz; cbn [width].
  - cbn. split_and!; [done|done|]. by rewrite Z.mod_1_r.
  - pose proof (Z.mod_pos_bound z 10 ltac:(lia)) as HB. destruct (digit_char_value _ HB) as [H1 H2].
    destruct (IH (z / 10)%Z ltac:(apply Z.div_pos; lia)) as (A & B & C). split_and!.
    + apply Forall_app. split; [done|by apply Forall_singleton].
    + rewrite app_length, B. cbn. lia.
    + rewrite decimal_app, C, H2. cbn [length]. 
      change (10 ^ Z.of_nat 1)%Z with 10%Z. rewrite (Nat2Z.inj_succ k), Z.pow_succ_r, Z.rem_mul_r by lia. lia.
Qed.
Lemma strip0_spec s : exists k, s = strip0 s ++ replicate k "0"%char.
Proof.
  induction s as [|c s [k IH]]; [by exists 0%nat|]. cbn [strip0]. destruct (strip0 s) as [|c' r] eqn:E.
  - destruct (Ascii.eqb_spec c "0") as [->|].
    + exists (S k). cbn [app replicate] in *. by f_equal.
    + exists k. cbn [app] in *. by f_equal.
  - exists k. cbn [app] in *. by f_equal.
Qed.
Lemma decimal_zeros k : decimal (replicate k "0"%char) = 0%Z.
Proof. unfold decimal. induction k as [|k IH]; [done|exact IH]. Qed.
Lemma zeros_digit k : Forall digit (replicate k "0"%char).
Proof. apply Forall_replicate. unfold digit. cbn [Ascii.nat_of_ascii]. vm_compute. lia. Qed.

(** Digits and a point. *)
Lemma with_point_numeral whole frac ex e : Forall digit whole -> Forall digit frac -> whole <> [] -> exponent_part ex e ->
  unsigned_numeral (with_point whole frac ++ ex) (IZR (decimal (whole ++ frac)) * ten (e - Z.of_nat (length frac))).
Proof.
  intros Hw Hf Hn He. destruct (strip0_spec frac) as [k Hk]. unfold with_point.
  assert (Forall digit (strip0 frac)) as Hs. { rewrite Hk in Hf. by apply Forall_app in Hf as [? _]. }
  exists whole, (match strip0 frac with [] => [] | _ => ["."%char] end), (strip0 frac), ex, e. split_and!.
  - destruct (strip0 frac); cbn [app]; rewrite <- app_assoc; done.
  - done.
  - done.
  - destruct whole; done.
  - destruct (strip0 frac); [by right|by left].
  - done.
  - remember (strip0 frac) as z eqn:Ez. clear Ez Hf. subst frac. rewrite app_assoc, decimal_app, decimal_zeros, Z.add_0_r, !app_length, !replicate_length, mult_IZR, <- ten_Z by lia.
    rewrite Rmult_assoc, <- ten_plus. f_equal. f_equal. lia.
Qed.
Lemma print_digits_numeral D X : (10 ^ 5 <= D < 10 ^ 6)%Z -> (-1000 < X < 1000)%Z -> unsigned_numeral (print_digits D X) (IZR D * ten (X - 5)).
Proof.
  intros HD HX. destruct (width_spec 6 D ltac:(lia)) as (A & B & C). rewrite Z.mod_small in C by (change (Z.of_nat 6) with 6%Z; lia).
  unfold print_digits. destruct ((-4 <=? X)%Z && (X <? 6)%Z) eqn:E.
  - apply andb_true_iff in E as [E1%Z.leb_le E2%Z.ltb_lt]. destruct (Z.leb_spec 0 X) as [H|H].
    + pose proof (with_point_numeral (firstn (Z.to_nat (X + 1)) (width 6 D)) (skipn (Z.to_nat (X + 1)) (width 6 D)) [] 0) as K.
      rewrite take_drop, C, app_nil_r, skipn_length, B in K. replace (X - 5)%Z with (0 - Z.of_nat (6 - Z.to_nat (X + 1)))%Z by lia.
      apply K; [by apply Forall_take|by apply Forall_drop| |by left].
      intros H0. apply (f_equal length) in H0. rewrite firstn_length, B in H0. cbn [length] in H0. lia.
    + pose proof (with_point_numeral ["0"%char] (replicate (Z.to_nat (- X - 1)) "0"%char ++ width 6 D) [] 0) as K.
      rewrite app_nil_r, app_length, replicate_length, B in K. rewrite app_assoc in K.
      change (["0"%char] ++ replicate (Z.to_nat (- X - 1)) "0"%char) with (replicate (S (Z.to_nat (- X - 1))) "0"%char) in K.
      rewrite decimal_app, decimal_zeros, Z.mul_0_l, Z.add_0_l, C in K.
      replace (X - 5)%Z with (0 - Z.of_nat (Z.to_nat (- X - 1) + 6))%Z by lia. apply K; [|..|done|by left].
      * apply (zeros_digit 1).
      * apply Forall_app. split; [apply zeros_digit|done].
  - pose proof (with_point_numeral (firstn 1 (width 6 D)) (skipn 1 (width 6 D))) as K. rewrite take_drop, C, skipn_length, B in K.
    replace (X - 5)%Z with (X - Z.of_nat (6 - 1))%Z by lia. apply K; [by apply Forall_take|by apply Forall_drop| |].
    + intros H0. apply (f_equal length) in H0. rewrite firstn_length, B in H0. done.
    + right. set (k := if (Z.abs X <? 100)%Z then 2%nat else 3%nat).
      exists "e"%char, [(if (X <? 0)%Z then "-"%char else "+"%char)], (width k (Z.abs X)).
      destruct (width_spec k (Z.abs X) ltac:(lia)) as (A' & B' & C').
      assert (decimal (width k (Z.abs X)) = Z.abs X) as C''.
      { rewrite C'. apply Z.mod_small. unfold k. destruct (Z.ltb_spec (Z.abs X) 100); cbn; lia. }
      split_and!; [done|by left| |done|].
      * intros H0. rewrite H0 in B'. clear -B'. cbn [length] in B'. unfold k in B'. by destruct (Z.ltb (Z.abs X) 100).
      * rewrite C''. destruct (Z.ltb_spec X 0); [right|left]; (split; [by auto|lia]).
Qed.

(** Numerals contain digits, points, signs and [e] only. *)
Definition numeral_char (c : ascii) : Prop := digit c \/ c = "."%char \/ c = "+"%char \/ c = "-"%char \/ c = "e"%char \/ c = "E"%char.
Lemma unsigned_chars s v : unsigned_numeral s v -> Forall numeral_char s.
Proof.
  intros (whole & point & frac & ex & e & -> & Hw & Hf & _ & Hp & He & _).
  assert (forall l, Forall digit l -> Forall numeral_char l) as K. { intros l. apply Forall_impl. by left. }
  repeat (apply Forall_app; split); [by apply K| |by apply K|].
  - destruct Hp as [->|[-> _]]; [|done]. apply Forall_singleton. right; by left.
  - destruct He as [[-> _]|(c & sg & ds & -> & Hc & _ & Hd & Hs)]; [done|]. constructor; [unfold numeral_char; naive_solver|].
    apply Forall_app. split; [|by apply K]. unfold numeral_char.
    destruct Hs as [[[->| ->] _]|[-> _]]; [done|apply Forall_singleton..]; auto.
Qed.
Lemma numeral_chars s neg v : numeral s neg v -> Forall numeral_char s.
Proof.
  intros (sg & s' & v' & -> & H & Hs). apply Forall_app. split; [|by eapply unsigned_chars]. unfold numeral_char.
  destruct Hs as [[[->| ->] _]|[-> _]]; [done|apply Forall_singleton..]; auto.
Qed.
Lemma numeral_plain s neg v : numeral s neg v -> plain s.
Proof.
  intros H c Hc. apply numeral_chars in H. rewrite Forall_forall in H. specialize (H c (proj1 (elem_of_list_In _ _) Hc)).
  destruct H as [H|H].
  - split_and!; intros ->; unfold digit in H; vm_compute in H; lia.
  - naive_solver.
Qed.

(** *** Reading *)
Lemma take_digits_app ds r : Forall digit ds -> (forall c r', r = c :: r' -> ~ digit c) -> take_digits (ds ++ r) = (ds, r).
Proof.
  intros H Hr. induction H as [|c ds Hc _ IH]; cbn [app].
  - destruct r as [|c r]; [done|]. cbn [take_digits]. destruct (is_digit c) eqn:E; [|done]. apply is_digit_digit in E. by destruct (Hr c r).
  - cbn [take_digits]. apply is_digit_digit in Hc as ->. by rewrite IH.
Qed.
Lemma digit_not c : digit c -> c <> "."%char /\ c <> "+"%char /\ c <> "-"%char /\ c <> "e"%char /\ c <> "E"%char /\ c <> "x"%char /\ c <> "X"%char.
Proof. unfold digit. intros H. split_and!; intros ->; vm_compute in H; lia. Qed.
Lemma read_exponent_part ex e rest : exponent_part ex e -> ends_numeral rest -> read_exponent "E" "e" (ex ++ rest) = (e, rest).
Proof.
  intros He Hr. destruct He as [[-> ->]|(c & sg & ds & -> & Hc & Hn & Hd & Hs)].
  - cbn [app]. unfold read_exponent. destruct rest as [|c r]; [done|]. destruct (Hr c r eq_refl) as (_ & _ & H1 & H2 & _).
    apply Ascii.eqb_neq in H1 as ->. apply Ascii.eqb_neq in H2 as ->. done.
  - cbn [app]. unfold read_exponent. assert (Ascii.eqb c "E" || Ascii.eqb c "e" = true) as ->.
    { destruct Hc as [->| ->]; done. }
    rewrite <- app_assoc. assert (read_sign (sg ++ ds ++ rest) = (match sg with ["-"%char] => true | _ => false end, ds ++ rest)) as ->.
    { destruct Hs as [[[->| ->] _]|[-> _]]; [|done..]. cbn [app]. destruct ds as [|c' ds]; [done|]. apply Forall_cons_1 in Hd as [Hd _].
      cbn [app]. destruct (digit_not _ Hd) as (_ & H1 & H2 & _). unfold read_sign. by destruct c' as [[] [] [] [] [] [] [] []]. }
    rewrite take_digits_app; [|done|].
    2:{ intros c' r' ->. by destruct (Hr c' r' eq_refl). }
    destruct ds as [|c' ds]; [done|]. rewrite digits_value_decimal. destruct Hs as [[[->| ->] ->]|[-> ->]]; done.
Qed.
Lemma read_numeral whole point frac ex e rest : Forall digit whole -> Forall digit frac -> whole ++ frac <> [] ->
  (point = ["."%char] \/ point = [] /\ frac = []) -> exponent_part ex e -> ends_numeral rest ->
  read_decimal ((whole ++ point ++ frac ++ ex) ++ rest) = Some (decimal (whole ++ frac), e - Z.of_nat (length frac), rest)%Z.
Proof.
  intros Hw Hf Hn Hp He Hr. unfold read_decimal.
  assert (forall c r, ex ++ rest = c :: r -> ~ digit c /\ c <> "."%char) as Hx.
  { intros c r H. destruct He as [[-> _]|(c' & sg & ds & -> & Hc & _)].
    - cbn [app] in H. destruct (Hr c r H) as (? & ? & _). done.
    - cbn [app] in H. injection H as -> _. split; [|by destruct Hc as [->| ->]]. intros Hd. apply digit_not in Hd. naive_solver. }
  rewrite <- !app_assoc. rewrite take_digits_app; [|done|].
  2:{ intros c r. destruct Hp as [->|[-> ->]]; cbn [app]; [|intros H; by destruct (Hx c r H)]. intros [= <- _] Hd. by apply digit_not in Hd as [? _]. }
  assert (match point ++ frac ++ ex ++ rest with "."%char :: s' => take_digits s' | _ => ([], point ++ frac ++ ex ++ rest) end = (frac, ex ++ rest)) as ->.
  { destruct Hp as [->|[-> ->]]; cbn [app].
    - apply take_digits_app; [done|]. intros c r H. by destruct (Hx c r H).
    - destruct (ex ++ rest) as [|c r] eqn:E; [done|]. destruct (Hx c r eq_refl) as [_ H]. by destruct c as [[] [] [] [] [] [] [] []]. }
  rewrite (read_exponent_part ex e rest He Hr). destruct (whole ++ frac) as [|c l]; [done|]. by rewrite digits_value_decimal.
Qed.
Lemma no_hex whole point frac ex e rest : Forall digit whole -> Forall digit frac -> whole ++ frac <> [] ->
  (point = ["."%char] \/ point = [] /\ frac = []) -> exponent_part ex e -> ends_numeral rest ->
  read_hex ((whole ++ point ++ frac ++ ex) ++ rest) = None.
Proof.
  intros Hw Hf Hn Hp He Hr. set (s := (whole ++ point ++ frac ++ ex) ++ rest).
  assert (forall c c' r, s = c :: c' :: r -> c' <> "x"%char /\ c' <> "X"%char) as K.
  { intros c c' r H. assert (c' ∈ tail s) as Hc' by (rewrite H; left).
    assert (Forall numeral_char (whole ++ point ++ frac ++ ex)) as HN.
    { eapply unsigned_chars. by exists whole, point, frac, ex, e. }
    unfold s in H. destruct (whole ++ point ++ frac ++ ex) as [|a [|b l]] eqn:E.
    - exfalso. apply app_eq_nil in E as [-> E]. apply app_eq_nil in E as [-> E]. by apply app_eq_nil in E as [-> E].
    - cbn [app] in H. injection H as -> H. destruct (Hr c' r H) as (_ & _ & _ & _ & ? & ?). done.
    - cbn [app] in H. injection H as -> -> _. apply Forall_cons_1 in HN as [_ HN]. apply Forall_cons_1 in HN as [HN _].
      destruct HN as [HN|HN]; [|naive_solver]. apply digit_not in HN. naive_solver. }
  unfold read_hex. destruct s as [|c [|c' r]]; [done|by destruct c as [[] [] [] [] [] [] [] []]|].
  destruct (K c c' r eq_refl) as [H1%Ascii.eqb_neq H2%Ascii.eqb_neq]. rewrite H1, H2. cbn [orb]. by destruct c as [[] [] [] [] [] [] [] []].
Qed.
Lemma skip_white blanks s : Forall white blanks -> (forall c r, s = c :: r -> ~ white c) -> skip_space (blanks ++ s) = s.
Proof.
  intros H Hs. assert (forall c, is_space c = true <-> white c) as K.
  { intros c. unfold is_space, white. rewrite orb_true_iff, andb_true_iff, Nat.eqb_eq, !Nat.leb_le. tauto. }
  induction H as [|c l Hc _ IH]; cbn [app].
  - destruct s as [|c r]; [done|]. cbn [skip_space]. destruct (is_space c) eqn:E; [|done]. apply K in E. by destruct (Hs c r).
  - cbn [skip_space]. by apply K in Hc as ->.
Qed.

(** *** The nearest double *)
Definition signed (neg : bool) (v : R) : R := if neg then - v else v.
Lemma nearest_spec neg num den (v := signed neg (IZR (Zpos num) / IZR (Zpos den))) :
  if Rlt_bool (Rabs (to_double v)) (bpow radix2 1024)
  then B2R (nearest_double neg num den) = to_double v /\ is_finite (nearest_double neg num den) = true /\ Bsign (nearest_double neg num den) = neg
  else nearest_double neg num den = B754_infinity neg.
Proof.
  unfold nearest_double. pose proof (Bdiv_correct_aux 53 1024 b64_prec b64_emax mode_NE neg num 0 false den 0) as [_ H2].
  generalize (proj1 (Bdiv_correct_aux 53 1024 b64_prec b64_emax mode_NE neg num 0 false den 0)) as H1. cbv zeta in *.
  match goal with |- forall H1 : valid_binary _ _ ?y = true, _ => set (z := y) in * end. intros H1.
  assert (F2R (beta := radix2) {| Fnum := SpecFloat.cond_Zopp neg (Z.pos num); Fexp := 0 |} / F2R (beta := radix2) {| Fnum := SpecFloat.cond_Zopp false (Z.pos den); Fexp := 0 |} = v) as Hv.
  { unfold F2R. cbn [Fnum Fexp bpow]. rewrite !Rmult_1_r. unfold v, signed. destruct neg; cbn [SpecFloat.cond_Zopp]; [|done].
    rewrite opp_IZR. unfold Rdiv. ring. }
  rewrite Hv in H2. change (round radix2 (SpecFloat.fexp 53 1024) (round_mode mode_NE) v) with (to_double v) in H2.
  destruct (Rlt_bool _ _).
  - destruct H2 as (A & B & C). rewrite B2R_SF2B, is_finite_SF2B, Bsign_SF2B. rewrite xorb_false_r in C. done.
  - clearbody z. revert H1. rewrite H2. intros H1. rewrite xorb_false_r in *. by destruct neg.
Qed.
Lemma pow_pos_R b e : (1 < b)%Z -> (0 <= e)%Z -> IZR (Zpos (Z.to_pos (b ^ e))) = IZR (b ^ e).
Proof. intros Hb He. f_equal. apply Z2Pos.id. apply Z.pow_pos_nonneg; lia. Qed.
Lemma decimal_fraction_value m e :
  IZR (Zpos (decimal_fraction m e).1) / IZR (Zpos (decimal_fraction m e).2) = IZR (Zpos m) * ten e.
Proof.
  unfold decimal_fraction. cbn [fst snd]. rewrite Pos2Z.inj_mul, mult_IZR, !pow_pos_R, <- !ten_Z by lia.
  replace e with (Z.max e 0 + - Z.max (- e) 0)%Z at 3 by lia. rewrite ten_plus, ten_opp. unfold Rdiv. ring.
Qed.
Lemma binary_fraction_value m e :
  IZR (Zpos (binary_fraction m e).1) / IZR (Zpos (binary_fraction m e).2) = IZR (Zpos m) * bpow radix2 e.
Proof.
  unfold binary_fraction. cbn [fst snd]. rewrite Pos2Z.inj_mul, mult_IZR, !pow_pos_R by lia.
  change 2%Z with (radix_val radix2). rewrite !IZR_Zpower by lia.
  replace e with (Z.max e 0 + - Z.max (- e) 0)%Z at 3 by lia. rewrite bpow_plus, bpow_opp. unfold Rdiv. ring.
Qed.
Lemma to_double_opp v : to_double (- v) = - to_double v.
Proof. apply round_NE_opp. Qed.
Lemma to_double_signed neg v : to_double (signed neg v) = signed neg (to_double v).
Proof. destruct neg; [apply to_double_opp|done]. Qed.
Lemma signed_abs neg v : Rabs (signed neg v) = Rabs v.
Proof. destruct neg; [apply Rabs_Ropp|done]. Qed.
Lemma signed_inj neg v w : signed neg v = signed neg w -> v = w.
Proof. destruct neg; cbn; lra. Qed.
Lemma overflows_spec num den : overflows num den = true <-> bpow radix2 1024 <= Rabs (to_double (IZR (Zpos num) / IZR (Zpos den))).
Proof.
  unfold overflows. pose proof (nearest_spec false num den) as H. cbn [signed] in H. destruct (Rlt_bool_spec (Rabs (to_double (IZR (Zpos num) / IZR (Zpos den)))) (bpow radix2 1024)) as [L|L].
  - destruct H as (_ & H & _). split; [|lra]. destruct (nearest_double _ _ _); done.
  - by rewrite H.
Qed.
Lemma multiple_spec num den e : (0 <= e)%Z ->
  ((Zpos num * 2 ^ e) mod Zpos den = 0)%Z <-> exists n, IZR (Zpos num) / IZR (Zpos den) = IZR n * bpow radix2 (- e).
Proof.
  intros He. assert (0 < IZR (Zpos den)) as Hd by (by apply IZR_lt). assert (0 < bpow radix2 e) as Hp by apply bpow_gt_0.
  rewrite bpow_opp, <- (IZR_Zpower radix2) in * by done. change (radix_val radix2) with 2%Z in *.
  split.
  - intros H. apply Z.mod_divide in H as [n Hn]; [|done]. exists n. apply (f_equal IZR) in Hn. rewrite !mult_IZR in Hn.
    apply (Rmult_eq_reg_r (IZR (Zpos den) * IZR (2 ^ e))); [|apply Rgt_not_eq, Rmult_lt_0_compat; done].
    transitivity (IZR (Zpos num) * IZR (2 ^ e)); [field; lra|]. rewrite Hn. field. lra.
  - intros [n Hn]. apply Z.mod_divide; [done|]. exists n. apply eq_IZR. rewrite !mult_IZR.
    transitivity (IZR (Zpos num) / IZR (Zpos den) * (IZR (Zpos den) * IZR (2 ^ e))); [field; lra|]. rewrite Hn. field. lra.
Qed.
Lemma double_multiple v : 0 <= v < bpow radix2 (-1021) -> to_double v = v <-> exists n, v = IZR n * bpow radix2 (-1074).
Proof.
  intros Hv. split.
  - intros H. assert (generic_format radix2 (FLT_exp (-1074) 53) v) as G. { rewrite <- H. apply generic_format_round; apply _. }
    apply FLT_format_generic in G; [|done]. destruct G as [f Hf _ He]. exists (Fnum f * 2 ^ (Fexp f + 1074))%Z.
    rewrite mult_IZR. change 2%Z with (radix_val radix2). rewrite IZR_Zpower, Rmult_assoc, <- bpow_plus by lia.
    replace (Fexp f + 1074 + -1074)%Z with (Fexp f) by lia. exact Hf.
  - intros [n Hn]. apply round_generic; [apply _|]. apply generic_format_FLT. exists (Float radix2 n (-1074)); [exact Hn| |cbn; lia].
    cbn [Fnum]. rewrite Hn in Hv. assert (IZR n < IZR (2 ^ 53)) as H%lt_IZR.
    { apply (Rmult_lt_reg_r (bpow radix2 (-1074))); [apply bpow_gt_0|]. change 2%Z with (radix_val radix2). rewrite IZR_Zpower, <- bpow_plus by lia. apply Hv. }
    assert (IZR 0 <= IZR n) as H0%le_IZR. { apply (Rmult_le_reg_r (bpow radix2 (-1074))); [apply bpow_gt_0|]. lra. }
    change (Zpower (radix_val radix2) 53) with (2 ^ 53)%Z. lia.
Qed.
Lemma underflows_spec num den (r := IZR (Zpos num) / IZR (Zpos den)) : underflows num den = true <-> r < tiny_bound /\ to_double r <> r.
Proof.
  assert (0 < IZR (Zpos den)) as Hd by (by apply IZR_lt). assert (0 < IZR (Zpos num)) as Hn by (by apply IZR_lt).
  assert (0 < r) as Hr by (by apply Rdiv_lt_0_compat).
  unfold underflows. rewrite andb_true_iff, Z.ltb_lt, negb_true_iff, Z.eqb_neq.
  assert ((Zpos num * 2 ^ 1076 < Zpos den * (2 ^ 54 - 1))%Z <-> r < tiny_bound) as ->.
  { unfold r. rewrite ratio_lt by done. assert (tiny_bound = IZR (2 ^ 54 - 1) * / IZR (2 ^ 1076)) as ->.
    { unfold tiny_bound. replace (-1022)%Z with (54 + - (1076))%Z by lia. replace (-1076)%Z with (- (1076))%Z by lia.
      rewrite bpow_plus, (bpow_opp _ 1076), minus_IZR. change 2%Z with (radix_val radix2). rewrite !IZR_Zpower by lia. ring. }
    assert (0 < IZR (2 ^ 1076)) as HP. { apply IZR_lt. apply Z.pow_pos_nonneg; lia. }
    generalize dependent (2 ^ 1076)%Z. generalize (2 ^ 54 - 1)%Z. intros a p HP. split; intros H.
    - apply IZR_lt in H. rewrite !mult_IZR in H. apply (Rmult_lt_reg_r (IZR p)); [done|].
      replace (IZR a * / IZR p * IZR (Zpos den) * IZR p) with (IZR (Zpos den) * IZR a) by (field; lra). done.
    - apply lt_IZR. rewrite !mult_IZR. apply (Rmult_lt_compat_r (IZR p)) in H; [|done].
      replace (IZR a * / IZR p * IZR (Zpos den) * IZR p) with (IZR (Zpos den) * IZR a) in H by (field; lra). done. }
  rewrite multiple_spec by lia. fold r. split; intros [H1 H2]; (split; [done|]); intros H; apply H2.
  - apply double_multiple in H; [done|]. split; [lra|]. unfold tiny_bound in H1. pose proof (bpow_gt_0 radix2 (-1076)).
    pose proof (bpow_lt radix2 (-1022) (-1021) ltac:(lia)). lra.
  - apply double_multiple; [|done]. split; [lra|]. unfold tiny_bound in H1. pose proof (bpow_gt_0 radix2 (-1076)).
    pose proof (bpow_lt radix2 (-1022) (-1021) ltac:(lia)). lra.
Qed.
Lemma checked_spec neg f (v := signed neg (IZR (Zpos f.1) / IZR (Zpos f.2))) :
  out_of_range v /\ checked neg f = None \/
  ~ out_of_range v /\ exists y, checked neg f = Some y /\ is_finite y = true /\ Bsign y = neg /\ B2R y = to_double v.
Proof.
  unfold checked. set (r := IZR (Zpos f.1) / IZR (Zpos f.2)) in *.
  assert (0 < r) as Hr by (apply Rdiv_lt_0_compat; by apply IZR_lt).
  assert (out_of_range v <-> overflows f.1 f.2 || underflows f.1 f.2 = true) as HO.
  { rewrite orb_true_iff, overflows_spec, underflows_spec. fold r. unfold out_of_range, v.
    rewrite to_double_signed, !signed_abs. assert (signed neg (to_double r) <> signed neg r <-> to_double r <> r) as ->.
    { split; intros H E; apply H; [by rewrite E|by apply signed_inj in E]. }
    rewrite (Rabs_right r) by lra. done. }
  destruct (overflows f.1 f.2 || underflows f.1 f.2) eqn:E.
  - left. split; [by apply HO|done].
  - right. split; [rewrite HO; done|]. exists (nearest_double neg f.1 f.2). split; [done|].
    pose proof (nearest_spec neg f.1 f.2) as HN. cbv zeta in HN. change (signed neg (IZR (Zpos f.1) / IZR (Zpos f.2))) with v in HN. apply orb_false_iff in E as [E _].
    assert (~ bpow radix2 1024 <= Rabs (to_double v)) as H1.
    { unfold v. rewrite to_double_signed, signed_abs. intros H. apply overflows_spec in H. congruence. }
    apply Rnot_le_lt in H1. rewrite Rlt_bool_true in HN by done. destruct HN as (A & B & C). done.
Qed.

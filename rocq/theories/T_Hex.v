(** Numbers in files: hexadecimal numerals and the words for infinity and not-a-number (C72). *)
From Coq Require Import ZArith Reals Lra String Ascii.
From Verif Require Import S_Text P_Real P_B64 P_Text T_Csv T_Text.
From Flocq Require Import Core BinarySingleNaN Relative.
Open Scope R_scope.

(** ** What a hexadecimal numeral is *)
(** [c] is the hexadecimal digit of value [k], in small or capital letters. *)
Definition hex_digit (c : ascii) (k : Z) : Prop :=
  exists n : nat, k = Z.of_nat n /\ (lit "0123456789abcdef" !! n = Some c \/ lit "0123456789ABCDEF" !! n = Some c).
(** The number a row of values stands for in base 16. *)
Definition in_base_16 (ks : list Z) : Z := foldl (fun n k => 16 * n + k)%Z 0%Z ks.
(** Nothing, or [p] or [P], perhaps a sign, and decimal digits. *)
Definition binary_exponent (s : text) (e : Z) : Prop :=
  s = [] /\ e = 0%Z \/
  exists c sign ds, s = c :: sign ++ ds /\ (c = "p"%char \/ c = "P"%char) /\ ds <> [] /\ Forall digit ds /\
    ((sign = [] \/ sign = ["+"%char]) /\ e = decimal ds \/ sign = ["-"%char] /\ e = (- decimal ds)%Z).
(** [0x] or [0X], hexadecimal digits, perhaps with a point before, among or behind them, perhaps a binary exponent: the value
    is that of the digits, each digit behind the point counting a sixteenth of the one before, times a power of 2. *)
Definition unsigned_hex (s : text) (v : R) : Prop :=
  exists x whole point frac ex wk fk e, s = "0"%char :: x :: whole ++ point ++ frac ++ ex /\ (x = "x"%char \/ x = "X"%char) /\
    Forall2 hex_digit whole wk /\ Forall2 hex_digit frac fk /\ whole ++ frac <> [] /\
    (point = ["."%char] \/ point = [] /\ frac = []) /\ binary_exponent ex e /\
    v = IZR (in_base_16 (wk ++ fk)) / 16 ^ length frac * bpow radix2 e.
Definition hex_numeral (s : text) (neg : bool) (v : R) : Prop :=
  exists sign s' v', s = sign ++ s' /\ unsigned_hex s' v' /\
    ((sign = [] \/ sign = ["+"%char]) /\ neg = false /\ v = v' \/ sign = ["-"%char] /\ neg = true /\ v = - v').
(** Text that does not continue such a numeral. *)
Definition ends_hex (rest : text) : Prop :=
  forall c r, rest = c :: r -> (forall k, ~ hex_digit c k) /\ c <> "."%char /\ c <> "p"%char /\ c <> "P"%char.

(** A word, each letter small or capital. *)
Definition spelled (s : text) (letters : list (ascii * ascii)) : Prop := Forall2 (fun c l => c = l.1 \/ c = l.2) s letters.
Definition inf_word : list (ascii * ascii) := [("i", "I"); ("n", "N"); ("f", "F")]%char.
Definition nan_word : list (ascii * ascii) := [("n", "N"); ("a", "A"); ("n", "N")]%char.
Definition sign_text (sign : text) (neg : bool) : Prop :=
  (sign = [] \/ sign = ["+"%char]) /\ neg = false \/ sign = ["-"%char] /\ neg = true.

(** ** Proofs *)
Lemma hex_digit_means c k : hex_digit c k -> is_hex c = true /\ hex_value c = k /\ (0 <= k)%Z.
Proof.
  intros (n & -> & H). split; [|split; [|lia]].
  - do 16 (destruct n as [|n]; [destruct H as [[= <-]|[= <-]]; done|]). destruct H; done.
  - do 16 (destruct n as [|n]; [destruct H as [[= <-]|[= <-]]; done|]). destruct H; done.
Qed.
Lemma is_hex_digit c : is_hex c = true -> hex_digit c (hex_value c).
Proof.
  intros H. exists (Z.to_nat (hex_value c)).
  destruct c as [[] [] [] [] [] [] [] []]; try discriminate H; (split; [reflexivity|]); first [left; reflexivity|right; reflexivity].
Qed.
Lemma take_hex_app ds ks r : Forall2 hex_digit ds ks -> (forall c r', r = c :: r' -> forall k, ~ hex_digit c k) -> take_hex (ds ++ r) = (ds, r).
Proof.
  intros H Hr. induction H as [|c k ds ks Hc _ IH]; cbn [app].
  - destruct r as [|c r]; [done|]. cbn [take_hex]. destruct (is_hex c) eqn:E; [|done]. apply is_hex_digit in E. by destruct (Hr c r eq_refl _ E).
  - cbn [take_hex]. apply hex_digit_means in Hc as [-> _]. by rewrite IH.
Qed.
Lemma in_base_16_value ds ks : Forall2 hex_digit ds ks -> digits_value 16 hex_value ds = in_base_16 ks.
Proof.
  unfold digits_value, in_base_16. intros H. generalize 0%Z. induction H as [|c k ds ks Hc _ IH]; intros z; cbn [foldl]; [done|].
  apply hex_digit_means in Hc as (_ & -> & _). apply IH.
Qed.
Lemma in_base_16_nonneg ds ks : Forall2 hex_digit ds ks -> (0 <= in_base_16 ks)%Z.
Proof.
  unfold in_base_16. intros H. assert (0 <= 0)%Z as H0 by lia. revert H0. generalize 0%Z at 2 4.
  induction H as [|c k ds ks Hc _ IH]; intros z Hz; cbn [foldl]; [done|]. apply IH. apply hex_digit_means in Hc as (_ & _ & ?). lia.
Qed.
Lemma not_hex c : (forall k, ~ hex_digit c k) -> ~ digit c.
Proof. intros H Hd. apply (H (hex_value c)), is_hex_digit. unfold is_hex. apply is_digit_digit in Hd. by rewrite Hd. Qed.
Lemma read_binary_exponent ex e rest : binary_exponent ex e -> ends_hex rest -> read_exponent "P" "p" (ex ++ rest) = (e, rest).
Proof.
  intros He Hr. destruct He as [[-> ->]|(c & sg & ds & -> & Hc & Hn & Hd & Hs)].
  - cbn [app]. unfold read_exponent. destruct rest as [|c r]; [done|]. destruct (Hr c r eq_refl) as (_ & _ & H1 & H2).
    apply Ascii.eqb_neq in H1 as ->. apply Ascii.eqb_neq in H2 as ->. done.
  - cbn [app]. unfold read_exponent. assert (Ascii.eqb c "P" || Ascii.eqb c "p" = true) as ->.
    { destruct Hc as [->| ->]; done. }
    rewrite <- app_assoc. assert (read_sign (sg ++ ds ++ rest) = (match sg with ["-"%char] => true | _ => false end, ds ++ rest)) as ->.
    { destruct Hs as [[[->| ->] _]|[-> _]]; [|done..]. cbn [app]. destruct ds as [|c' ds]; [done|]. apply Forall_cons_1 in Hd as [Hd _].
      cbn [app]. destruct (digit_not _ Hd) as (_ & H1 & H2 & _). unfold read_sign. by destruct c' as [[] [] [] [] [] [] [] []]. }
    rewrite take_digits_app; [|done|].
    2:{ intros c' r' ->. apply not_hex. by destruct (Hr c' r' eq_refl). }
    destruct ds as [|c' ds]; [done|]. rewrite digits_value_decimal. destruct Hs as [[[->| ->] ->]|[-> ->]]; done.
Qed.
Lemma read_hex_numeral x whole point frac ex wk fk e rest : (x = "x"%char \/ x = "X"%char) ->
  Forall2 hex_digit whole wk -> Forall2 hex_digit frac fk -> whole ++ frac <> [] ->
  (point = ["."%char] \/ point = [] /\ frac = []) -> binary_exponent ex e -> ends_hex rest ->
  read_hex ("0"%char :: x :: (whole ++ point ++ frac ++ ex) ++ rest) = Some (in_base_16 (wk ++ fk), e - 4 * Z.of_nat (length frac))%Z.
Proof.
  intros Hx Hw Hf Hn Hp He Hr. unfold read_hex.
  assert (Ascii.eqb x "x" || Ascii.eqb x "X" = true) as -> by (by destruct Hx as [->| ->]).
  assert (forall c r, ex ++ rest = c :: r -> (forall k, ~ hex_digit c k) /\ c <> "."%char) as Hx'.
  { intros c r H. destruct He as [[-> _]|(c' & sg & ds & -> & Hc & _)].
    - cbn [app] in H. destruct (Hr c r H) as (? & ? & _). done.
    - cbn [app] in H. injection H as -> _. split; [|by destruct Hc as [->| ->]].
      intros k Hd. apply hex_digit_means in Hd as [Hd _]. by destruct Hc as [->| ->]. }
  rewrite <- !app_assoc. rewrite (take_hex_app _ wk); [|done|].
  2:{ intros c r. destruct Hp as [->|[-> ->]]; cbn [app]; [|intros H; by destruct (Hx' c r H)].
      intros [= <- _] k Hd. by apply hex_digit_means in Hd as [Hd _]. }
  assert (match point ++ frac ++ ex ++ rest with "."%char :: s' => take_hex s' | _ => ([], point ++ frac ++ ex ++ rest) end = (frac, ex ++ rest)) as ->.
  { destruct Hp as [->|[-> ->]]; cbn [app].
    - apply (take_hex_app _ fk); [done|]. intros c r H. by destruct (Hx' c r H).
    - destruct (ex ++ rest) as [|c r] eqn:E; [done|]. destruct (Hx' c r eq_refl) as [_ H]. by destruct c as [[] [] [] [] [] [] [] []]. }
  rewrite (read_binary_exponent ex e rest He Hr). cbn [fst].
  rewrite <- (in_base_16_value (whole ++ frac)) by (by apply Forall2_app). by destruct (whole ++ frac) as [|c l].
Qed.
Lemma skip_signed blanks sign neg c s : Forall white blanks -> sign_text sign neg -> ~ white c -> c <> "+"%char -> c <> "-"%char ->
  read_sign (skip_space (blanks ++ sign ++ c :: s)) = (neg, c :: s).
Proof.
  intros Hb Hs Hc H1 H2. rewrite skip_white; [|done|].
  2:{ intros c' r H. destruct Hs as [[[->| ->] _]|[-> _]]; cbn [app] in H; injection H as <- _; [done|..]; intros K; unfold white in K; vm_compute in K; lia. }
  destruct Hs as [[[->| ->] ->]|[-> ->]]; [|done..]. cbn [app]. unfold read_sign. by destruct c as [[] [] [] [] [] [] [] []].
Qed.

(** C72.  [std::stod] on a hexadecimal numeral of value [v], white space before and anything that does not continue it behind:
    fails if the value is out of range, otherwise gives the double nearest to [v] (0 with the sign of the numeral). *)
Theorem C72_hex blanks s neg v rest :
  Forall white blanks -> hex_numeral s neg v -> ends_hex rest ->
  out_of_range v /\ stod (blanks ++ s ++ rest) = None \/
  ~ out_of_range v /\ exists y, stod (blanks ++ s ++ rest) = Some y /\ is_finite y = true /\ Bsign y = neg /\ B2R y = to_double v.
Proof.
  intros Hb (sign & s' & v' & -> & (x & whole & point & frac & ex & wk & fk & e & -> & Hx & Hw & Hf & Hne & Hp & He & Hv') & Hs) Hr.
  assert (sign_text sign neg /\ v = signed neg v') as [Hs' Hv] by (unfold sign_text, signed; naive_solver). clear Hs.
  unfold stod. rewrite <- app_assoc. cbn [app].
  rewrite (skip_signed blanks sign neg) by (done || (intros K; unfold white in K; vm_compute in K; lia)).
  rewrite (read_hex_numeral x whole point frac ex wk fk e rest Hx Hw Hf Hne Hp He Hr).
  pose proof (in_base_16_nonneg (whole ++ frac) (wk ++ fk) ltac:(by apply Forall2_app)) as H0.
  assert (forall r, r / 16 ^ length frac * bpow radix2 e = r * bpow radix2 (e - 4 * Z.of_nat (length frac))) as HB.
  { intros r. replace (e - 4 * Z.of_nat (length frac))%Z with (- (4 * Z.of_nat (length frac)) + e)%Z by lia.
    rewrite bpow_plus, bpow_opp. replace (bpow radix2 (4 * Z.of_nat (length frac))) with (16 ^ length frac); [unfold Rdiv; ring|].
    rewrite <- IZR_Zpower by lia. change (radix_val radix2) with 2%Z. rewrite Z.pow_mul_r by lia. change (2 ^ 4)%Z with 16%Z. by rewrite pow_IZR. }
  rewrite HB in Hv'. destruct (in_base_16 (wk ++ fk)) as [|m|m]; [| |lia].
  - right. assert (v = 0) as -> by (rewrite Hv, Hv'; unfold signed; destruct neg; ring). split.
    + unfold out_of_range. rewrite to_double_0, Rabs_R0. pose proof (bpow_gt_0 radix2 1024). intros [?|[_ ?]]; [lra|done].
    + exists (B754_zero neg). rewrite to_double_0. done.
  - pose proof (checked_spec neg (binary_fraction m (e - 4 * Z.of_nat (length frac)))) as K. cbv zeta in K.
    by rewrite binary_fraction_value, <- Hv', <- Hv in K.
Qed.

(** C72.  [std::stod] on the words, white space before and anything behind. *)
Theorem C72_words blanks sign neg w rest :
  Forall white blanks -> sign_text sign neg ->
  (spelled w inf_word -> stod (blanks ++ sign ++ w ++ rest) = Some (B754_infinity neg)) /\
  (spelled w nan_word -> stod (blanks ++ sign ++ w ++ rest) = Some B754_nan).
Proof.
  intros Hb Hs. split; intros Hw.
  - unfold spelled, inf_word in Hw. inversion Hw as [|c1 ? l1 ? H1 W1]; subst. inversion W1 as [|c2 ? l2 ? H2 W2]; subst.
    inversion W2 as [|c3 ? l3 ? H3 W3]; subst. inversion W3; subst. cbn [fst snd] in *. unfold stod. cbn [app].
    rewrite (skip_signed blanks sign neg); [|done|done|destruct H1 as [->| ->]; (intros K; unfold white in K; vm_compute in K; lia)|by destruct H1 as [->| ->]..].
    destruct H1 as [->| ->], H2 as [->| ->], H3 as [->| ->]; reflexivity.
  - unfold spelled, nan_word in Hw. inversion Hw as [|c1 ? l1 ? H1 W1]; subst. inversion W1 as [|c2 ? l2 ? H2 W2]; subst.
    inversion W2 as [|c3 ? l3 ? H3 W3]; subst. inversion W3; subst. cbn [fst snd] in *. unfold stod. cbn [app].
    rewrite (skip_signed blanks sign neg); [|done|done|destruct H1 as [->| ->]; (intros K; unfold white in K; vm_compute in K; lia)|by destruct H1 as [->| ->]..].
    destruct H1 as [->| ->], H2 as [->| ->], H3 as [->| ->]; reflexivity.
Qed.

(** A numeral as printed by [%a]: -0x1.8p-3 is -3/16. *)
Example example_hex : hex_numeral (lit "-0x1.8p-3") true (- (3 / 16)) /\ ends_hex (lit ",") /\
  option_map (@B2SF 53 1024) (stod (lit " -0x1.8p-3,")) = option_map (@B2SF 53 1024) (stod (lit "-0.1875")) /\ spelled (lit "Inf") inf_word /\ stod (lit "+Inf") = Some (B754_infinity false).
Proof.
  split; [|split; [|split; [reflexivity|split; [|reflexivity]]]].
  - exists ["-"%char], (lit "0x1.8p-3"), (3 / 16). split; [done|]. split; [|by right].
    exists "x"%char, ["1"%char], ["."%char], ["8"%char], (lit "p-3"), [1%Z], [8%Z], (-3)%Z.
    split; [done|]. split; [by left|]. split; [constructor; [|done]; exists 1%nat; split; [done|by left]|].
    split; [constructor; [|done]; exists 8%nat; split; [done|by left]|]. split; [done|]. split; [by left|]. split.
    + right. exists "p"%char, ["-"%char], ["3"%char]. split; [done|]. split; [by left|]. split; [done|]. split; [|by right].
      constructor; [|done]. unfold digit. vm_compute. lia.
    + change (3 / 16 = 24 / (16 * 1) * / 8). lra.
  - intros c r [= <- <-]. split; [|done]. intros k Hk. by apply hex_digit_means in Hk as [Hk _].
  - constructor; [by right|]. constructor; [by left|]. constructor; [by left|]. constructor.
Qed.

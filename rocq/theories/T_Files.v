(** Property theorems: output files (C66). *)
From Coq Require Import String Ascii Decimal DecimalN DecimalZ.
From Verif Require Import P_Real S_App T_Csv T_Main.
From stdpp Require Import list.

(** ** Output files *)
Definition digits_value (a : Z) (s : text) : Z := foldl (fun a c => 10 * a + (Z.of_nat (Ascii.nat_of_ascii c) - 48))%Z a s.
Lemma digits_uint u : forall a, digits_value (Zpos a) (uint_text u) = Zpos (Pos.of_uint_acc u a).
Proof.
  induction u; intros a; cbn [uint_text Pos.of_uint_acc]; [done|..]; rewrite <- IHu; unfold digits_value; cbn [foldl]; f_equal;
  match goal with |- context [Z.of_nat ?x] => let v := eval vm_compute in (Z.of_nat x) in change (Z.of_nat x) with v end; lia.
Qed.
Lemma digits_uint_0 u : digits_value 0 (uint_text u) = Z.of_uint u.
Proof.
  unfold Z.of_uint. induction u; cbn [uint_text Pos.of_uint]; [done| |..].
  { rewrite <- IHu. done. }
  all: cbn [Z.of_N]; rewrite <- digits_uint; unfold digits_value; cbn [foldl]; f_equal.
Qed.
Lemma digits_zeros k s : digits_value 0 (replicate k "0"%char ++ s) = digits_value 0 s.
Proof. induction k as [|k IH]; [done|]. cbn. exact IH. Qed.
Lemma print_nonneg n : (0 <= n)%Z -> exists u, print_int n = uint_text u /\ Z.of_uint u = n.
Proof.
  intros Hn. pose proof (DecimalZ.of_to n) as H. unfold print_int. destruct n as [|p|p]; [by exists (Decimal.D0 Nil)| |lia].
  cbn [Z.to_int] in *. eexists. split; [done|exact H].
Qed.
Lemma digit_code c : is_digit c -> (48 <= Ascii.nat_of_ascii c <= 57)%nat.
Proof.
  unfold is_digit. cbn [list_ascii_of_string]. rewrite !elem_of_cons, elem_of_nil. intros H.
  repeat (destruct H as [-> |H]; [vm_compute; lia|]). done.
Qed.
Lemma digits_split s : forall a, digits_value a s = (a * 10 ^ Z.of_nat (length s) + digits_value 0 s)%Z.
Proof.
  unfold digits_value. induction s as [|c s IH]; intros a; cbn [foldl length]; [change (10 ^ Z.of_nat 0)%Z with 1%Z; lia|].
  rewrite IH, (IH (10 * 0 + _)%Z), Nat2Z.inj_succ, Z.pow_succ_r by lia. lia.
Qed.
Lemma digits_bound s : Forall (fun c => 48 <= Ascii.nat_of_ascii c <= 57)%nat s -> (0 <= digits_value 0 s < 10 ^ Z.of_nat (length s))%Z.
Proof.
  induction s as [|c s IH]; intros H; [by cbn|]. apply list.Forall_cons in H as [Hc Hs]. specialize (IH Hs).
  change (digits_value 0 (c :: s)) with (digits_value (10 * 0 + (Z.of_nat (Ascii.nat_of_ascii c) - 48)) s).
  rewrite digits_split. cbn [length]. rewrite Nat2Z.inj_succ, Z.pow_succ_r by lia. nia.
Qed.
Lemma digits_lead c s : (49 <= Ascii.nat_of_ascii c)%nat -> Forall (fun c => 48 <= Ascii.nat_of_ascii c <= 57)%nat s ->
  (10 ^ (Z.of_nat (S (length s)) - 1) <= digits_value 0 (c :: s))%Z.
Proof.
  intros Hc Hs. change (digits_value 0 (c :: s)) with (digits_value (10 * 0 + (Z.of_nat (Ascii.nat_of_ascii c) - 48)) s).
  rewrite digits_split. apply digits_bound in Hs. replace (Z.of_nat (S (length s)) - 1)%Z with (Z.of_nat (length s)) by lia. nia.
Qed.
Lemma uint_text_length u : length (uint_text u) = Decimal.nb_digits u.
Proof. induction u; cbn; congruence. Qed.
Lemma nzhead_shorter u : (Decimal.nb_digits (Decimal.nzhead u) <= Decimal.nb_digits u)%nat.
Proof. induction u; cbn [Decimal.nzhead Decimal.nb_digits]; lia. Qed.
(** A positive number is printed without leading zero. *)
Lemma print_pos n : (0 < n)%Z -> (10 ^ (Z.of_nat (length (print_int n)) - 1) <= n)%Z.
Proof.
  intros Hn. destruct n as [|p|p]; [lia| |lia]. unfold print_int. cbn [Z.to_int].
  set (u := Pos.to_uint p).
  assert (Z.of_uint u = Zpos p) as Hv. { pose proof (DecimalZ.of_to (Zpos p)) as H. exact H. }
  assert (Decimal.unorm u = u) as Hu.
  { rewrite <- DecimalN.Unsigned.to_of. unfold Z.of_uint in Hv. change (N.of_uint u) with (Pos.of_uint u).
    assert (Pos.of_uint u = Npos p) as -> by lia. done. }
  pose proof (digits_uint_0 u) as Hd. rewrite Hv in Hd. rewrite <- Hd. clear Hd.
  destruct u as [|v|v|v|v|v|v|v|v|v|v]; cbn [uint_text length].
  { cbn in Hv. lia. }
  { exfalso. unfold Decimal.unorm in Hu. cbn [Decimal.nzhead] in Hu. pose proof (nzhead_shorter v) as Hl.
    destruct (Decimal.nzhead v) eqn:E; try (rewrite Hu in Hl; cbn in Hl; lia). injection Hu as <-. cbn in Hv. lia. }
  all: apply digits_lead; [vm_compute; lia|]; eapply Forall_impl; [apply uint_text_digits|]; intros c Hc; by apply digit_code.
Qed.
Lemma file_name_numbered n : (0 <= n)%Z -> numbered n (file_name n).
Proof.
  intros Hn. exists (pad5 (print_int n)). split; [done|].
  split; [unfold pad5; rewrite app_length, replicate_length; lia|].
  assert ((length (pad5 (print_int n)) = 5%nat \/ 10 ^ (Z.of_nat (length (pad5 (print_int n))) - 1) <= n)%Z) as Hlen.
  { destruct (decide (length (print_int n) <= 5)%nat) as [Hle|Hgt]; [left; unfold pad5; rewrite app_length, replicate_length; lia|].
    right. unfold pad5. replace (5 - length (print_int n))%nat with 0%nat by lia. cbn [replicate app].
    destruct (decide (n = 0%Z)) as [-> |]; [cbn in Hgt; lia|]. apply print_pos. lia. }
  destruct (print_nonneg n Hn) as (u & Hp & Hv). split; [|split; [|done]].
  - unfold pad5. rewrite Hp. apply Forall_app. split; [|eapply Forall_impl; [apply uint_text_digits|]; intros c Hc; by apply digit_code]. apply Forall_replicate. vm_compute. lia.
  - unfold pad5. rewrite Hp, <- Hv. etrans; [apply digits_zeros|]. apply digits_uint_0.
Qed.
Lemma numbered_fun n n' name : numbered n name -> numbered n' name -> n = n'.
Proof.
  intros (ds & -> & _ & _ & <- & _) (ds' & H & _ & _ & <- & _). apply app_inv_head, app_inv_tail in H. by subst.
Qed.

Lemma main_loop_iters {N : num} {cfg : config} {init} fuel cond todo number next (s : computer cfg (fixed_walls cfg init)) iter (outs : list (output (N := N) cfg)) e :
  main_loop fuel cond todo number next s iter = Some (outs, e) ->
  (forall k o, outs !! k = Some o -> (iter <= oIter o)%nat) /\
  forall k l o o', (k <= l)%nat -> outs !! k = Some o -> outs !! l = Some o' -> (oIter o <= oIter o')%nat.
Proof.
  revert number next s iter outs e. induction todo as [|todo IH]; intros number next s iter outs e; cbn.
  { intros [= <- <-]. split; [intros k o H; by rewrite lookup_nil in H|]. intros k l o o' _ H. by rewrite lookup_nil in H. }
  destruct (until fuel _ s iter) as [[[o t] iter']|] eqn:Eu; [|done].
  apply until_spec in Eu as (n & s1 & H1 & -> & -> & H4 & H5).
  destruct o as [s'|[] s'|]; [|intros [= <- <-]; split; [intros k o H; by rewrite lookup_nil in H|intros k l o o' _ H; by rewrite lookup_nil in H]..].
  destruct (main_loop fuel cond todo _ _ s' _) as [[outs' e']|] eqn:El; [|done]. intros [= <- <-].
  apply IH in El as [Ha Hb]. split.
  - intros [|k] o Hk; cbn in Hk; [injection Hk as <-; cbn; lia|]. apply Ha in Hk. lia.
  - intros [|k] [|l] o o' Hkl Hk Hl; cbn in Hk, Hl; [|injection Hk as <-; cbn; by eapply Ha|lia|].
    + injection Hk as <-. injection Hl as <-. done.
    + eapply Hb; [|exact Hk|exact Hl]. lia.
Qed.

Section Output.
  Context {N : num} (cfg : config) (print_num : N -> text) (parse_num parse_attr : text -> option N).
  Notation application := (application cfg print_num parse_num parse_attr).
  Notation load_all := (load_all cfg parse_num parse_attr).

  (** C66.  The files the program writes are numbered consecutively from ceil(startTime / outputInterval), with at least five digits, so no file
      is written twice; the first holds the particles of the settings file, the others the particles after some number of time steps,
      not decreasing from file to file. *)
  Theorem C66_files fuel xml files e : application fuel xml = Some (files, e) ->
    NoDup (map fst files) /\
    (files <> [] -> exists cond env ps first s iter, load_all xml = Loaded (cond, env, ps) /\ initial cond env ps s /\
       ceil_size (coStart cond /. coInterval cond) = Some first /\ (0 <= first)%Z /\
       (forall k, (k < length files)%nat -> exists name s', files !! k = Some (name, write_csv print_num (cParts s')) /\
          numbered (first + Z.of_nat k) name /\ stepped s (iter k) s') /\
       iter 0%nat = 0%nat /\ (forall k l, (k <= l < length files)%nat -> (iter k <= iter l)%nat)).
  Proof.
    unfold M_App.application. destruct (load_all xml) as [[[cond env] ps]|err|] eqn:EL; [|intros [= <- _]; split; [constructor|done]..].
    destruct (main_program fuel cond env ps) as [[outs e']|] eqn:EM; [|done]. intros [= <- _].
    destruct (main_program_inv _ _ _ _ _ _ EM) as [[-> ->]|(s & first & Hi & Hc & outs' & Ho & Hp & _ & Hl)]; [split; [constructor|done]|].
    assert (0 <= first)%Z as Hfirst.
    { unfold ceil_size in Hc. destruct (nceil _) as [z|]; [|done]. cbn in Hc. destruct (0 <=? z)%Z eqn:Ez; [|done]. injection Hc as <-. lia. }
    assert (forall k o, outs !! k = Some o -> exists s', stepped s (oIter o) s' /\ oNumber o = (first + Z.of_nat k)%Z /\ oParts o = cParts s') as HO.
    { intros k o Hk. rewrite Ho in Hk. destruct k as [|k]; cbn in Hk.
      - injection Hk as <-. cbn. exists s. split; [constructor|]. split; [lia|done].
      - destruct (ceil_size ((coEnd cond -. _) /. _)) as [endCount|]; [|by destruct Hl as [-> _]].
        apply main_loop_outputs in Hl as (H & _ & _). apply H in Hk as (n & s' & K1 & K2 & K3 & K4 & K5 & K6).
        exists s'. rewrite K2, K3, K5. split; [done|]. split; [lia|done]. }
    assert (forall k l o o', (k <= l)%nat -> outs !! k = Some o -> outs !! l = Some o' -> (oIter o <= oIter o')%nat) as HI.
    { intros k l o o' Hkl Hk Hl'. rewrite Ho in Hk, Hl'. destruct k as [|k]; cbn in Hk; [injection Hk as <-; cbn; lia|].
      destruct l as [|l]; [lia|]. cbn in Hl'. destruct (ceil_size ((coEnd cond -. _) /. _)) as [endCount|]; [|by destruct Hl as [-> _]].
      apply main_loop_iters in Hl as [_ Hb]. eapply Hb; [|exact Hk|exact Hl']. lia. }
    assert (forall k o, outs !! k = Some o -> numbered (first + Z.of_nat k) (file_name (oNumber o))) as HN.
    { intros k o Hk. destruct (HO k o Hk) as (s' & _ & -> & _). apply file_name_numbered. lia. }
    split.
    { rewrite map_map. apply NoDup_alt. intros k l name Hk Hl'.
      apply list_lookup_fmap_Some in Hk as (o & Ho1 & ->). apply list_lookup_fmap_Some in Hl' as (o' & Ho2 & E2). cbn in E2.
      apply HN in Ho1, Ho2. cbn in *. rewrite E2 in Ho1. pose proof (numbered_fun _ _ _ Ho1 Ho2). lia. }
    intros _. exists cond, env, ps, first, s, (fun k => match outs !! k with Some o => oIter o | None => 0%nat end).
    split; [done|]. split; [done|]. split; [done|]. split; [done|]. rewrite map_length. split; [|split].
    - intros k Hk. destruct (lookup_lt_is_Some_2 outs k Hk) as [o Hko]. destruct (HO k o Hko) as (s' & H1 & H2 & H3).
      exists (file_name (oNumber o)), s'. split.
      { rewrite list_lookup_fmap, Hko. cbn. unfold output_file. by rewrite H3. }
      split; [by apply HN|]. by rewrite Hko.
    - by rewrite Ho.
    - intros k l [Hkl Hll]. destruct (lookup_lt_is_Some_2 outs l Hll) as [o' Ho']. destruct (lookup_lt_is_Some_2 outs k) as [o Hko]; [lia|].
      rewrite Hko, Ho'. exact (HI k l o o' Hkl Hko Ho').
  Qed.
End Output.

(** Property theorems: the screen output (C86). *)
From Coq Require Import ZArith Reals Lra String Ascii.
From Flocq Require Import Core BinarySingleNaN.
From Verif Require Import S_Text P_Text S_Console M_Console T_Csv T_App T_Files T_Main.
From stdpp Require Import list.

Lemma pad_aligned k s : right_aligned k s (pad k s).
Proof.
  exists (replicate (k - length s) " "%char). split; [done|]. split; [by apply Forall_replicate|]. unfold pad. rewrite app_length, replicate_length. lia.
Qed.
Lemma pad5_digits n : (0 <= n)%Z -> five_digits n (pad5 (print_int n)).
Proof. apply file_name_numbered. Qed.
Lemma output_count_used {N : num} {cfg : config} (ps : list (particle N (cDim cfg))) : output_count ps = length (filter (fun p => pT p <> Disabled) ps).
Proof. apply C43_count. Qed.

Section Screen.
  Context {N : num} (cfg : config) (print_num print_fixed : N -> text) (parse_num parse_attr : text -> option N) (clock : nat -> text).
  Notation session := (session cfg print_num print_fixed parse_num parse_attr clock).
  Notation program := (program cfg print_num parse_num parse_attr).
  Notation load_all := (load_all cfg parse_num parse_attr).

  Lemma session_program fuel filename file files screen e : session fuel filename file = Some (files, screen, e) -> program fuel file = Some (files, e).
  Proof.
    unfold M_Console.session, M_Xml.program, application. destruct (read_xml file) as [xml|]; [|by intros [= <- _ <-]].
    destruct (load_all xml) as [[[cond env] ps]|err|]; [|by intros [= <- _ <-]..]. destruct (main_program fuel cond env ps) as [[outs e']|]; [|done].
    by intros [= <- _ <-].
  Qed.

  (** C86.  On the screen: the name of the settings file; one line for each file written, in the same order, with the digits of the file's name, the simulated
      time (start time included), the number of time steps made so far, which never decreases, and the number of particles in use in that file; at the end "finished", after a message if
      the pressure equation could not be solved.  The message names the file that was not written, the steps completed and the time since the start of the run - the start time is not
      included here.  When the program is aborted nothing follows the last line. *)
  Theorem C86_screen fuel filename file files screen e : session fuel filename file = Some (files, screen, e) ->
    program fuel file = Some (files, e) /\
    exists lines tail, screen = lit "Input XML file: " ++ filename ++ [newline] ++ mjoin lines ++ tail /\ length lines = length files /\
      (files <> [] -> exists xml cond env ps s (steps : nat -> nat), read_xml file = Some xml /\ load_all xml = Loaded (cond, env, ps) /\ initial cond env ps s /\
         (forall k name content, files !! k = Some (name, content) -> exists line s' time, lines !! k = Some line /\ stepped s (steps k) s' /\
            content = write_csv print_num (cParts s') /\
            time = (if (k =? 0)%nat then coStart cond else eT (cEnv s') +. coStart cond) /\
            line_about line name (print_fixed time) (steps k) (length (filter (fun p => pT p <> Disabled) (cParts s')))) /\
         steps 0%nat = 0%nat /\ (forall k l, (k <= l < length files)%nat -> (steps k <= steps l)%nat)) /\
      match e with
      | Finished => tail = lit "finished" ++ [newline]
      | ErrorMessage t n number => exists message, tail = message ++ lit "finished" ++ [newline] /\ error_message number (print_num t) n message /\
          exists xml cond env ps s s1 s2 first, read_xml file = Some xml /\ load_all xml = Loaded (cond, env, ps) /\ initial cond env ps s /\ stepped s n s1 /\
            forward s1 = Throw CgNotConverged s2 /\ t = eT (cEnv s1) /\
            ceil_size (coStart cond /. coInterval cond) = Some first /\ number = (first + Z.of_nat (length files))%Z
      | Terminated | Undefined => tail = []
      end.
  Proof.
    intros H. split; [by eapply session_program|]. revert H. unfold M_Console.session.
    destruct (read_xml file) as [xml|] eqn:EX; [|intros [= <- <- <-]; exists [], []; cbn [mjoin app]; rewrite app_nil_r; done].
    destruct (load_all xml) as [[[cond env] ps]|err|] eqn:EL; [|intros [= <- <- <-]; exists [], []; cbn [mjoin app]; rewrite app_nil_r; done..].
    destruct (main_program fuel cond env ps) as [[outs e']|] eqn:EM; [|done]. intros [= <- <- <-].
    exists (imap (report cfg print_fixed clock) outs), (farewell print_num e').
    split; [unfold greeting; by rewrite <- !app_assoc|]. split; [by rewrite imap_length, map_length|]. split.
    - intros Hne. destruct (main_program_inv _ _ _ _ _ _ EM) as [[-> ->]|(s & first & Hi & Hc & outs' & Ho & Hp & _ & Hl)]; [done|].
      assert (0 <= first)%Z as Hfirst.
      { unfold ceil_size in Hc. destruct (nceil _) as [z|]; [|done]. cbn in Hc. destruct (0 <=? z)%Z eqn:Ez; [|done]. injection Hc as <-. lia. }
      exists xml, cond, env, ps, s, (fun k => match outs !! k with Some o => oIter o | None => 0%nat end).
      split; [done|]. split; [done|]. split; [done|].
      assert (forall k o, outs !! k = Some o -> exists s', stepped s (oIter o) s' /\ oNumber o = (first + Z.of_nat k)%Z /\ oParts o = cParts s' /\
        oTime o = (if (k =? 0)%nat then coStart cond else eT (cEnv s') +. coStart cond) /\ oCount o = output_count (cParts s')) as HO.
      { intros k o Hk. rewrite Ho in Hk. destruct k as [|k]; cbn in Hk.
        - injection Hk as <-. cbn. exists s. split; [constructor|]. split; [lia|]. split; [done|]. split; [done|]. by rewrite Hp.
        - destruct (ceil_size ((coEnd cond -. _) /. _)) as [endCount|]; [|by destruct Hl as [-> _]].
          apply main_loop_outputs in Hl as (H & _ & _). apply H in Hk as (n & s' & K1 & K2 & K3 & K4 & K5 & K6).
          exists s'. rewrite K2, K3, K5. split; [done|]. split; [lia|]. split; [done|]. split; [exact K4|exact K6]. }
      split; [|split].
      + intros k name content Hk. apply list_lookup_fmap_Some in Hk as (o & Hko & [= -> ->]). destruct (HO k o Hko) as (s' & H1 & H2 & H3 & H4 & H5).
        exists (report cfg print_fixed clock k o), s', (oTime o). split; [by rewrite list_lookup_imap, Hko|]. rewrite Hko. split; [done|]. split; [by rewrite H3|]. split; [done|].
        exists (pad5 (print_int (oNumber o))), (pad 8 (print_fixed (oTime o))), (pad5 (print_int (Z.of_nat (oIter o)))), (pad 12 (print_int (Z.of_nat (oCount o)))),
          (print_int (Z.of_nat (oCount o))), (clock k).
        split; [done|]. split; [done|]. split; [apply pad_aligned|]. split; [apply pad5_digits; lia|]. split; [|apply pad_aligned].
        rewrite H5, output_count_used. apply print_whole.
      + by rewrite Ho.
      + rewrite map_length. intros k l [Hkl Hll]. destruct (lookup_lt_is_Some_2 outs l Hll) as [o' Ho']. destruct (lookup_lt_is_Some_2 outs k) as [o Hko]; [lia|].
        rewrite Hko, Ho'. rewrite Ho in Hko, Ho'. destruct k as [|k]; cbn in Hko; [injection Hko as <-; cbn; lia|].
        destruct l as [|l]; [lia|]. cbn in Ho'. destruct (ceil_size ((coEnd cond -. _) /. _)) as [endCount|]; [|by destruct Hl as [-> _]].
        apply main_loop_iters in Hl as [_ Hb]. eapply Hb; [|exact Hko|exact Ho']. lia.
    - pose proof (C42_ending _ _ _ _ _ _ EM) as He. destruct e' as [|t iter number| |]; [done| |done|done].
      destruct He as (s & s1 & s2 & offset & K1 & K2 & K3 & K4 & K5 & K6). eexists. split; [|split].
      + cbn [farewell]. rewrite !app_assoc. f_equal.
      + exists (print_int number), (print_int (Z.of_nat iter)). split; [apply print_whole|]. split; [apply print_whole|]. by rewrite <- !app_assoc.
      + exists xml, cond, env, ps, s, s1, s2, offset. rewrite map_length. done.
  Qed.
End Screen.

(** C86.  The number of particles in use never goes up from line to line. *)
Theorem C86_count {N : num} {cfg : config} {wm : wallmotion N (cDim cfg)} (s s1 s2 : computer cfg wm) n m : stepped s n s1 -> stepped s m s2 -> (n <= m)%nat ->
  (length (filter (fun p => pT p <> Disabled) (cParts s2)) <= length (filter (fun p => pT p <> Disabled) (cParts s1)))%nat.
Proof.
  intros H1 H2 Hnm. destruct (stepped_before s m n s2 H2 Hnm) as (s1' & H1' & H12). rewrite (stepped_det _ _ _ _ H1' H1) in H12. apply stepped_types in H12.
  induction H12 as [|p p' l l' Hp _ IH]; [done|]. rewrite !filter_cons. destruct (decide (pT p' <> Disabled)) as [Hp'|Hp']; destruct (decide (pT p <> Disabled)) as [Hq|Hq]; cbn [length]; try lia.
  exfalso. destruct Hp as [Hp|Hp]; [rewrite Hp in Hp'; done|done].
Qed.
(** C86.  The time on the screen has four decimals and is off by at most half a unit of the fourth. *)
Theorem C86_time (x : B64) : is_finite x = true -> exists whole frac v, fixed4 x = whole ++ "."%char :: frac /\ length frac = 4%nat /\
  numeral (fixed4 x) (Bsign x) v /\ (Rabs (v - B2R x) <= / 2 * / 10 ^ 4)%R.
Proof.
  destruct x as [s|s| |s m e B]; try done; intros _.
  - exists ((if s then ["-"%char] else []) ++ ["0"%char]), (lit "0000"), 0%R. split; [by destruct s|]. split; [done|]. split.
    + exists (if s then ["-"%char] else []), (lit "0.0000"), 0%R. split; [done|]. split.
      * exists ["0"%char], ["."%char], (lit "0000"), [], 0%Z. split; [done|]. split; [repeat constructor|]. split; [repeat constructor|]. split; [done|].
        split; [by left|]. split; [by left|]. change (decimal (["0"%char] ++ lit "0000")) with 0%Z. lra.
      * destruct s; [right|left]; cbn [Bsign]; (split; [by try left|split; [done|lra]]).
    + cbn [B2R]. rewrite Rminus_0_r, Rabs_R0. lra.
  - unfold fixed4. pose proof (binary_fraction_value m e) as HV. destruct (binary_fraction m e) as [num den]. cbn [fst snd] in HV.
    set (D := round_div (Zpos num * 10 ^ 4) (Zpos den)). pose proof (round_div_spec (Zpos num * 10 ^ 4) (Zpos den) ltac:(lia)) as HD. fold D in HD.
    assert (0 <= D)%Z as HD0. { unfold D, round_div. assert (0 <= Zpos num * 10 ^ 4 / Zpos den)%Z by (apply Z.div_pos; lia). destruct (_ ?= _)%Z; [destruct (Z.even _)|..]; lia. }
    pose proof (Z.mod_pos_bound D (10 ^ 4) ltac:(lia)) as HB. destruct (width_spec 4 (D mod 10 ^ 4) ltac:(lia)) as (W1 & W2 & W3).
    destruct (print_whole (D / 10 ^ 4)) as (ds & E1 & E2 & E3 & E4). assert (0 <= D / 10 ^ 4)%Z as Hq by (apply Z.div_pos; lia).
    rewrite (proj2 (Z.ltb_ge _ _) Hq) in E1. rewrite E1.
    exists ((if s then ["-"%char] else []) ++ ds), (width 4 (D mod 10 ^ 4)), (cond_Ropp s (IZR D * / 10 ^ 4)).
    split; [by rewrite <- app_assoc|]. split; [done|]. split.
    + exists (if s then ["-"%char] else []), (ds ++ "."%char :: width 4 (D mod 10 ^ 4)), (IZR D * / 10 ^ 4)%R. split; [done|]. split.
      * exists ds, ["."%char], (width 4 (D mod 10 ^ 4)), [], 0%Z. rewrite app_nil_r. split; [done|]. split; [done|]. split; [done|].
        split; [intros E; apply app_eq_nil in E as [_ E]; rewrite E in W2; done|]. split; [by left|]. split; [by left|].
        rewrite decimal_app, W2, W3, E3. change (Z.of_nat 4) with 4%Z. rewrite Z.mod_mod by lia. rewrite (Z.abs_eq _ Hq), (Z.mul_comm _ (10 ^ 4)), <- Z.div_mod by lia.
        f_equal.
      * destruct s; [right|left]; cbn [Bsign cond_Ropp]; (split; [by try left|split; done]).
    + change (B2R (B754_finite s m e B)) with (F2R (Float radix2 (cond_Zopp s (Zpos m)) e)). rewrite F2R_cond_Zopp.
      assert (F2R (Float radix2 (Zpos m) e) = IZR (Zpos num) / IZR (Zpos den))%R as -> by (by rewrite HV).
      set (r := (IZR (Zpos num) / IZR (Zpos den))%R) in *.
      assert (Rabs (IZR D * / 10 ^ 4 - r) <= / 2 * / 10 ^ 4)%R as HR.
      { rewrite mult_IZR in HD. replace (IZR (Zpos num) * IZR (10 ^ 4) / IZR (Zpos den))%R with (r * 10 ^ 4)%R in HD
          by (unfold r; change (10 ^ 4)%Z with 10000%Z; unfold Rdiv; ring).
        replace (IZR D * / 10 ^ 4 - r)%R with ((IZR D - r * 10 ^ 4) * / 10 ^ 4)%R by field. rewrite Rabs_mult, (Rabs_pos_eq (/ 10 ^ 4)) by lra.
        apply Rmult_le_compat_r; lra. }
      destruct s; cbn [cond_Ropp]; [|exact HR]. rewrite <- Rabs_Ropp. replace (- (- (IZR D * / 10 ^ 4) - - r))%R with (IZR D * / 10 ^ 4 - r)%R by ring. exact HR.
Qed.

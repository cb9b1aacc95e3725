(** The time axis of the scripts: concrete cases (C83). *)
From Coq Require Import String Ascii Permutation.
From Verif Require Import S_Terms.
From Verif Require Import S_Frame S_Outcome S_Bench S_Mirror P_Real P_Lattice T_Csv T_Env T_Life T_Main T_Rest T_Bench S_Script T_Script S_Central T_Central M_Post S_Post T_App T_Files T_Post T_Axis.
From stdpp Require Import list.
Open Scope R_scope.

(** Files of a directory, listed in disorder. *)
Example sorted_names : map (fun f => string_of_list_ascii f.1) (py_sorted [(lit "particles_00010.csv", []); (lit "particles_00002.csv", []); (lit "particles_00001.csv", [])]) =
  ["particles_00001.csv"; "particles_00002.csv"; "particles_00010.csv"]%string.
Proof. reflexivity. Qed.

(** A program whose first step takes it to the end writes two files. *)
Lemma two_files {cfg : config} (print_num : Rnum -> text) (cond : M_Main.condition (N := Rnum)) (env : environment Rnum cfg) (ps : list (particle Rnum (cDim cfg)))
    (s s' : computer cfg (fixed_walls cfg (map pX ps))) :
  initial cond env ps s -> forward s = Done s' -> eT (cEnv s) = (0 : R) -> eT (cEnv s') = (coInterval cond : R) -> 0 < interval_of cond ->
  coStart cond = (0 : R) -> coEnd cond = (coInterval cond : R) ->
  exists outs, main_program 2 cond env ps = Some (outs, Finished) /\ length outs = 2%nat.
Proof.
  intros (s0 & Hs0 & ->) Hf HT HT' HI E0 E1. unfold interval_of in HI. unfold main_program. rewrite Hs0.
  assert (ceil_size ((coStart cond : Rnum) /. coInterval cond) = Some 0%Z) as ->.
  { rewrite E0. cbn. unfold to_index. replace (Zceil (0 / coInterval cond)) with 0%Z; [done|]. symmetry. apply Zceil_imp. change (-1 < 0 / coInterval cond <= 0). unfold Rdiv. rewrite Rmult_0_l. split; lra. }
  assert (ceil_size (((coEnd cond : Rnum) -. coStart cond) /. coInterval cond) = Some 1%Z) as ->.
  { rewrite E0, E1. cbn. unfold to_index. replace (Zceil ((coInterval cond - 0) / coInterval cond)) with 1%Z; [done|]. symmetry. apply Zceil_imp.
    replace ((coInterval cond - 0) / coInterval cond) with 1 by (field; lra). change (0 < 1 <= 1). split; lra. }
  change (Z.to_nat 1) with 1%nat. cbn [main_loop]. cbn [until].
  assert (eT (cEnv (add_particles ps s0)) <?. (nofZ 0 +. coInterval cond : Rnum) = true) as ->.
  { change ((eT (cEnv (add_particles ps s0)) : R) = 0) in HT. rewrite HT. cbn. destruct (Rlt_dec 0 (0 + coInterval cond)); [done|]. exfalso. lra. }
  rewrite Hf. assert (eT (cEnv s') <?. (nofZ 0 +. coInterval cond : Rnum) = false) as ->.
  { change ((eT (cEnv s') : R) = coInterval cond) in HT'. rewrite HT'. cbn. destruct (Rlt_dec (coInterval cond) (0 + coInterval cond)); [exfalso; lra|done]. }
  eexists. split; reflexivity.
Qed.

(** The central-gravity scene of its generator, with an output after every step, of which the first is the last: two files are written, and they are
    at time 0 and at the outputInterval, whatever order the directory lists them in. *)
Example central_axis hs hl ecs gc ds mid (print_num py_str : Rnum -> text) (parse_num parse_attr : text -> option Rnum) pad (st : settings Rnum) w h areaSize :
  let sc := central_gravity (stL0 st) w h areaSize in let cfg := plane false hs hl ecs gc ds true mid true in
  script_settings st -> read_as_written py_str parse_num parse_attr st sc ->
  (1 <= w)%Z -> (0 <= h)%Z -> (1 <= areaSize)%Z -> (areaSize * w <= 5 * 10 ^ 8)%Z -> (areaSize * h <= 5 * 10 ^ 8)%Z ->
  stSteps st = 1%Z -> stStart st = (0 : R) -> stEnd st = (stInterval st : R) -> (stInterval st <= R_sqrt.sqrt (2 * (1/10 * stL0 st) / stG st))%R ->
  exists files cond env, application cfg print_num parse_num parse_attr 2 (script_tree py_str pad st sc) = Some (files, Finished) /\ length files = 2%nat /\
    load_all cfg parse_num parse_attr (script_tree py_str pad st sc) = Loaded (cond, env, scParts sc) /\
    exists name content s n s', py_sorted (reverse (map (fun f => (drop 7 f.1, f.2)) files)) !! 1%nat = Some (name, content) /\
      initial cond env (scParts sc) s /\ stepped s n s' /\ content = write_csv print_num (cParts s') /\ stInterval st <= time_of s'.
Proof.
  intros sc cfg Hst (HA & HC & H0) Hw Hh Ha Haw Hah E1 E2 E3 HIv. pose proof Hst as [(Ec & Er & HI & Hg & Hl) HS].
  destruct (C74_loads (N := Rnum) py_str parse_num parse_attr hs hl ecs gc ds true mid true pad st sc (stL0 st) (block_shape w h) HA HC H0 ltac:(apply C73_central)) as (env & Henv & HLd); [|lia|].
  { rewrite Er. exists 3%Z. split; [|lia]. cbn. unfold to_index. replace (Zceil (24 / 10)) with 3%Z; [done|]. symmetry. apply Zceil_imp. change (2 < 24 / 10 <= 3)%R. split; lra. }
  set (cond := mkCondition (stEps st) (stStart st) (stEnd st) (stInterval st)) in HLd.
  pose proof Henv as Henv0. rewrite Ec, Er in Henv.
  assert (one_step_succeeds cond env (scParts sc)) as (s & s' & Hi & Hf & HT & _).
  { eapply C73_central_runs; [exact Henv| |done|done|done|done|done|done|done]. apply Rdiv_lt_0_compat; [done|]. apply IZR_lt. lia. }
  assert (eMaxDt env = (stInterval st : R) /\ eT env = (0 : R) /\ eMaxDx env = (1/10 * stL0 st)%R) as (HM & HT0 & HX).
  { revert Henv. unfold new_env. destruct (nceil _); [|done]. destruct (_ || _)%bool; [done|]. intros [= <-]. cbn. split; [|done]. unfold nmin. cbn.
    rewrite E1. destruct (Rlt_dec _ _) as [L|L]; [exfalso|lra]. lra. }
  assert (eT (cEnv s) = (0 : R)) as HTs.
  { destruct Hi as (s0 & Hs0 & ->). unfold new_computer in Hs0. destruct (new_grid _ _ _ _ _); [|done]. injection Hs0 as <-. exact HT0. }
  destruct (two_files print_num cond env (scParts sc) s s' Hi Hf HTs) as (outs & HMn & Hlen); [exact (eq_trans HT HM)|exact HI|exact E2|exact E3|].
  assert (application cfg print_num parse_num parse_attr 2 (script_tree py_str pad st sc) = Some (map (output_file cfg print_num) outs, Finished)) as HApp.
  { apply (main_application (N := Rnum) cfg print_num parse_num parse_attr 2 _ _ _ _ _ _ HLd HMn). }
  assert (length (map (output_file cfg print_num) outs) = 2%nat) as Hlen2 by (by rewrite map_length).
  exists (map (output_file cfg print_num) outs), cond, env. split; [exact HApp|]. split; [exact Hlen2|]. split; [exact HLd|].
  generalize dependent (map (output_file cfg print_num) outs). intros files HApp Hlen2.
  set (dir := reverse (map (fun f => (drop 7 f.1, f.2)) files)).
  assert (dir ≡ₚ map (fun f => (drop 7 f.1, f.2)) files) as Hdir by apply reverse_Permutation.
  assert (ceil_size ((coStart cond : Rnum) /. coInterval cond) = Some 0%Z) as HC0.
  { cbn. rewrite E2. cbn. unfold to_index. replace (Zceil (0 / stInterval st)) with 0%Z; [done|]. symmetry. apply Zceil_imp.
    change (-1 < 0 / stInterval st <= 0). unfold Rdiv. rewrite Rmult_0_l. split; lra. }
  assert (exists f, py_sorted dir !! 1%nat = Some f) as [[name content] Hlook].
  { rewrite (sorted_files cfg print_num parse_num parse_attr 2 _ files _ cond env _ 0 HApp HLd HC0 ltac:(rewrite Hlen2; lia) dir Hdir).
    apply lookup_lt_is_Some_2. rewrite map_length, Hlen2. lia. }
  destruct (C83_time_axis cfg print_num parse_num parse_attr 2 _ files _ cond env _ 0 HApp HLd HC0 ltac:(rewrite Hlen2; lia)) with (dir := dir) (k := 1%nat) (name := name) (content := content)
    as (t & n & t' & K1 & K2 & K3 & K4 & _).
  - intros m (txt & Ht & Hmm). apply found_get in Ht as (tr & Ht & <-). apply parse_size_means in Hmm.
    change (Some (Tree (print_int (stSteps st)) []) = Some tr) in Ht. injection Ht as <-. cbn [tree_data] in Hmm.
    rewrite parse_size_print in Hmm by lia. injection Hmm as <-. lia.
  - exact HI.
  - refine (eq_ind_r (fun x : R => 0 < x) _ HX). assert (0 < / 10 ^ 12) by (apply Rinv_0_lt_compat; lra). lra.
  - refine (eq_ind_r (fun x : R => 0 < x) _ HM). exact HI.
  - exact Hdir.
  - exact Hlook.
  - exists name, content, t, n, t'. split; [exact Hlook|]. split; [exact K1|]. split; [exact K2|]. split; [exact K3|]. change (INR 1) with 1 in K4. rewrite Rmult_1_l in K4. exact K4.
Qed.

(** Concrete settings files: the hypotheses of the theorems about the application are met (C64, C65, C66). *)
From Coq Require Import String Ascii Decimal.
From Flocq Require Import IEEE754.BinarySingleNaN.
From Verif Require Import M_NumF S_App T_App T_Files.
From stdpp Require Import list.

(** Numbers of this example are written in hundredths. *)
Definition hundredths (s : text) : option F64num := z ← parse_int s; Some (nofZ (n := F64num) z /. nofZ 100).
Definition in_hundredths (x : F64num) : text := match nceil (x ×. nofZ 100) with Some z => print_int z | None => lit "nan" end.

Definition entry (name value : string) : text * ptree := (lit name, Tree [] [(lit "<xmlattr>", Tree [] [(lit "value", Tree (lit value) [])])]).
Definition entries : list (string * list (string * string)) :=
  [("condition", [("startTime", "100"); ("endTime", "160"); ("outputInterval", "20"); ("eps", "1")]);
   ("environment", [("l_0", "25"); ("minStepCountPerOutput", "2"); ("courant", "50"); ("g", "1000"); ("rho", "100000"); ("nu", "0");
     ("r_eByl_0", "200"); ("minX", "-400"); ("minZ", "-400"); ("maxX", "200"); ("maxZ", "200"); ("comment", "?"); ("nu", "7")])]%string.
Definition example_table : text :=
  lit "Type, x, z, u, w, p, n" ++ [newline] ++ lit "0, 0, 100, 0, 0, 0, 0" ++ [newline] ++ lit "1, 0, -300, 0, 0, 0, 0" ++ [newline].
Definition settings_tree (l : list (string * list (string * string))) (format : string) (t : text) : ptree :=
  Tree [] [(lit "openmps", Tree []
    (map (fun sl => (lit sl.1, Tree [] (map (fun e => entry e.1 e.2) sl.2))) l ++
     [(lit "particles", Tree t [(lit "<xmlattr>", Tree [] [(lit "type", Tree (lit format) [])])])]))].
Definition example_settings : ptree := settings_tree entries "csv" example_table.

Notation run_of := (application default_config in_hundredths hundredths hundredths).
Definition show (l : list (text * text)) : list (string * string) :=
  map (fun f => (string_of_list_ascii f.1, string_of_list_ascii f.2)) l.
(** The whole program, by computation: a free fall of 0.8 s above a wall particle, startTime = 1, endTime = 1.6, outputInterval = 0.2. *)
Definition nl : string := String newline EmptyString.
Definition example_files : list (string * string) :=
  [("result/particles_00005.csv", "Type, x, z, u, w, p, n" ++ nl ++ "0, 0, 100, 0, 0, 0, 0" ++ nl ++ "1, 0, -300, 0, 0, 0, 0" ++ nl);
   ("result/particles_00006.csv", "Type, x, z, u, w, p, n" ++ nl ++ "0, 0, 70, 0, -200, 0, 566" ++ nl ++ "1, 0, -300, 0, 0, 0, 566" ++ nl);
   ("result/particles_00007.csv", "Type, x, z, u, w, p, n" ++ nl ++ "0, 0, -2, 0, -418, 0, 566" ++ nl ++ "1, 0, -300, 0, 0, 0, 566" ++ nl);
   ("result/particles_00008.csv", "Type, x, z, u, w, p, n" ++ nl ++ "0, 0, -107, 0, -616, 0, 566" ++ nl ++ "1, 0, -300, 0, 0, 0, 566" ++ nl);
   ("result/particles_00009.csv", "Type, x, z, u, w, p, n" ++ nl ++ "0, 0, -248, 0, -811, 0, 566" ++ nl ++ "1, 0, -300, 0, 0, 0, 566" ++ nl)]%string.
Definition outcome_of (xml : ptree) : option (list (string * string) * ending (N := F64num)) :=
  match run_of 100 xml with Some (l, e) => Some (show l, e) | None => None end.
Ltac compute_run := match goal with |- _ = ?v => vm_cast_no_check (@eq_refl _ v) end.
Lemma example_run : outcome_of example_settings = Some (example_files, Finished).
Proof. compute_run. Qed.

(** C41 does not survive rounding: (1.6 - 1) / 0.2 is 3, but the program computes a number above 3 and takes its ceiling; so besides the initial file and
    the three up to endTime it writes a fourth, for the time 1.8. *)
Theorem C41_rounding : exists xml files,
  attribute xml "condition" "startTime" (lit "100") /\ attribute xml "condition" "endTime" (lit "160") /\ attribute xml "condition" "outputInterval" (lit "20") /\
  run_of 100 xml = Some (files, Finished) /\ length files = 5%nat.
Proof.
  assert (match run_of 100 example_settings with Some (files, e) => Some (length files, e) | None => None end = Some (5%nat, Finished)) as HC by compute_run.
  exists example_settings. revert HC. generalize (run_of 100 example_settings). intros [[files e]|] HC; [|discriminate]. injection HC as HL ->. exists files.
  do 3 (split; [apply found_get; eexists; split; vm_compute; reflexivity|]). done.
Qed.

(** Its settings are readable; the radius is usable; the table is read. *)
Definition entry_ok (xml : ptree) (section name : string) : bool :=
  match get_child xml [lit "openmps"; lit section; lit name; lit "<xmlattr>"; lit "value"] with
  | Some t => if decide (name = "minStepCountPerOutput"%string) then match parse_size (tree_data t) with Some _ => true | None => false end
              else match hundredths (tree_data t) with Some _ => true | None => false end
  | None => false
  end.
Lemma entry_ok_readable xml section name : readable hundredths xml section name <-> entry_ok xml section name = true.
Proof.
  unfold readable, entry_ok, setting, count_setting, attribute. destruct (decide _); setoid_rewrite found_get.
  - destruct (get_child xml _) as [t|]; [|split; [intros (z & s & (u & Hu & _) & _); discriminate|discriminate]].
    setoid_rewrite <- parse_size_means. destruct (parse_size (tree_data t)) eqn:E; split; [done|eauto 10| |done]. intros (z & s & (u & Hu & <-) & Hz). injection Hu as <-. congruence.
  - destruct (get_child xml _) as [t|]; [|split; [intros (z & s & (u & Hu & _) & _); discriminate|discriminate]].
    destruct (hundredths (tree_data t)) eqn:E; split; [done|eauto 10| |done]. intros (z & s & (u & Hu & <-) & Hz). injection Hu as <-. congruence.
Qed.
Definition needed_entries (cfg : config) : list (string * string) :=
  [("condition", "startTime"); ("condition", "endTime"); ("condition", "outputInterval");
     ("environment", "l_0"); ("environment", "minStepCountPerOutput"); ("environment", "courant"); ("environment", "g");
     ("environment", "rho"); ("environment", "nu"); ("environment", "r_eByl_0");
     ("environment", "minX"); ("environment", "minZ"); ("environment", "maxX"); ("environment", "maxZ"); ("condition", "eps")]%string.
Lemma example_readable section name : needed default_config section name -> readable hundredths example_settings section name.
Proof.
  intros H. apply entry_ok_readable. assert (forallb (fun e => entry_ok example_settings e.1 e.2) (needed_entries default_config) = true) as HF by compute_run.
  rewrite forallb_forall in HF. apply (HF (section, name)). apply elem_of_list_In. exact H.
Qed.
Lemma example_radius : exists ratio, setting hundredths example_settings "environment" "r_eByl_0" ratio /\ usable_radius ratio.
Proof.
  assert (match hundredths (lit "200") with Some v => nceil v | None => None end = Some 2%Z) as HC by compute_run. revert HC.
  generalize (eq_refl (hundredths (lit "200"))). generalize (hundredths (lit "200")) at -1. intros [v|] E HC; [|discriminate]. exists v. split.
  - exists (lit "200"). split; [|exact E]. apply found_get. eexists. split; vm_compute; reflexivity.
  - exists 2%Z. split; [exact HC|lia].
Qed.
Lemma example_table_read : table_format example_settings (lit "csv") /\ table example_settings example_table /\
  exists a b : particle F64num D2, read_csv hundredths example_table = Read [a; b] /\ pT a = Newton /\ pT b = Wall.
Proof.
  split; [apply found_get; eexists; split; vm_compute; reflexivity|]. split; [apply found_get; eexists; split; vm_compute; reflexivity|].
  assert (match read_csv (d := D2) hundredths example_table with Read [a; b] => Some (pT a, pT b) | _ => None end = Some (Newton, Wall)) as HC by compute_run.
  revert HC. generalize (read_csv (d := D2) hundredths example_table). intros [[|a [|b [|c l]]]| | | |]; try discriminate.
  intros HC. injection HC as Ha Hb. by exists a, b.
Qed.

(** Wrong settings files. *)
Definition without (section name : string) : list (string * list (string * string)) :=
  map (fun sl => (sl.1, filter (fun e => ~ (sl.1 = section /\ e.1 = name)) sl.2)) entries.
Lemma example_missing : ~ readable hundredths (settings_tree (without "environment" "rho") "csv" example_table) "environment" "rho" /\
  outcome_of (settings_tree (without "environment" "rho") "csv" example_table) = Some ([], Terminated).
Proof. split; [rewrite entry_ok_readable; vm_compute; discriminate|compute_run]. Qed.
Lemma example_format : outcome_of (settings_tree entries "xyz" example_table) = Some ([], Terminated).
Proof. compute_run. Qed.
Lemma example_short_row : outcome_of (settings_tree entries "csv" (example_table ++ lit "0, 1")) = Some ([], Undefined).
Proof. compute_run. Qed.
(** Entries that are not needed: another comment, a second value for [nu] (the first counts), a [surfaceRatio]; the order. *)
Definition other_entries : list (string * list (string * string)) :=
  [("environment", [("maxX", "200"); ("l_0", "25"); ("minStepCountPerOutput", "2"); ("courant", "50"); ("g", "1000"); ("rho", "100000"); ("nu", "0");
     ("r_eByl_0", "200"); ("minX", "-400"); ("minZ", "-400"); ("maxZ", "200"); ("nu", "8"); ("surfaceRatio", "none")]);
   ("condition", [("eps", "1"); ("endTime", "160"); ("startTime", "100"); ("outputInterval", "20")]); ("condition", [])]%string.
Lemma example_other : same_settings default_config example_settings (settings_tree other_entries "csv" example_table) /\
  example_settings <> settings_tree other_entries "csv" example_table.
Proof.
  split; [|vm_compute; discriminate]. split; [|split].
  - intros section name s Hn.
    assert (forallb (fun e => bool_decide (
       (tree_data <$> get_child example_settings [lit "openmps"; lit e.1; lit e.2; lit "<xmlattr>"; lit "value"]) =
       (tree_data <$> get_child (settings_tree other_entries "csv" example_table) [lit "openmps"; lit e.1; lit e.2; lit "<xmlattr>"; lit "value"])))
       (needed_entries default_config) = true) as HF by compute_run.
    rewrite forallb_forall in HF. specialize (HF (section, name)). rewrite bool_decide_eq_true in HF. cbn [fst snd] in HF.
    unfold attribute. rewrite !found_get. revert HF.
    destruct (get_child example_settings _) as [t|], (get_child (settings_tree other_entries "csv" example_table) _) as [t'|]; intros HF;
      (specialize (HF (proj1 (elem_of_list_In _ _) Hn))); cbn in HF; simplify_eq; [|done].
    split; intros (u & Hu & <-); injection Hu as <-; eauto.
  - intros s. unfold table. rewrite !found_get.
    assert (get_child example_settings [lit "openmps"; lit "particles"] = get_child (settings_tree other_entries "csv" example_table) [lit "openmps"; lit "particles"]) as -> by (vm_compute; reflexivity). reflexivity.
  - intros s. unfold table_format. rewrite !found_get.
    assert (get_child example_settings [lit "openmps"; lit "particles"; lit "<xmlattr>"; lit "type"] =
      get_child (settings_tree other_entries "csv" example_table) [lit "openmps"; lit "particles"; lit "<xmlattr>"; lit "type"]) as -> by (vm_compute; reflexivity). reflexivity.
Qed.

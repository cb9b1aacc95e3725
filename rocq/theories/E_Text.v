(** Numbers as text: concrete cases (C72). *)
From Coq Require Import ZArith Reals Lra String Ascii.
From Verif Require Import S_Text P_B64 P_Text T_Text S_App T_App E_App E_Float.
From Flocq Require Import Core BinarySingleNaN.
Close Scope R_scope.

(** The whole program with the texts as they stand in the files: the free fall of E_App. *)
Definition t_entries : list (string * list (string * string)) :=
  [("condition", [("startTime", "1"); ("endTime", "1.6"); ("outputInterval", "0.2"); ("eps", "1e-2")]);
   ("environment", [("l_0", ".25"); ("minStepCountPerOutput", "2"); ("courant", "0.5"); ("g", "10"); ("rho", "1E3"); ("nu", "0");
     ("r_eByl_0", "2"); ("minX", "-4."); ("minZ", " -4"); ("maxX", "2"); ("maxZ", "+2 ")])]%string.
Definition t_table : text :=
  lit "Type, x, z, u, w, p, n" ++ [newline] ++ lit "0, 0, 1.00000049, 0, 0, 1e-3, 0" ++ [newline] ++ lit "1, 0.1, -3, 0, 0, -0, 123456789" ++ [newline].
Definition t_settings : ptree := settings_tree t_entries "csv" t_table.
Notation run_text := (application (N := B64num) default_config print_double stod get_double).
Definition t_outcome (xml : ptree) : option (list (string * string) * ending (N := B64num)) :=
  match run_text 100 xml with Some (l, e) => Some (show l, e) | None => None end.
Definition t_head : string := "Type, x, z, u, w, p, n" ++ nl.
Definition t_files : list (string * string) :=
  [("result/particles_00005.csv", t_head ++ "0, 0, 1, 0, 0, 0.001, 0" ++ nl ++ "1, 0.1, -3, 0, 0, -0, 1.23457e+08" ++ nl);
   ("result/particles_00006.csv", t_head ++ "0, 0, 0.7, 0, -2, 0.001, 5.65685" ++ nl ++ "1, 0.1, -3, 0, 0, -0, 5.65685" ++ nl);
   ("result/particles_00007.csv", t_head ++ "0, 0, -0.0261901, 0, -4.18472, 0.001, 5.65685" ++ nl ++ "1, 0.1, -3, 0, 0, -0, 5.65685" ++ nl);
   ("result/particles_00008.csv", t_head ++ "0, 0, -1.07588, 0, -6.16513, 0.001, 5.65685" ++ nl ++ "1, 0.1, -3, 0, 0, -0, 5.65685" ++ nl);
   ("result/particles_00009.csv", t_head ++ "0, 0, -2.48568, 0, -8.11522, 0.001, 5.65685" ++ nl ++ "1, 0.1, -3, 0, 0, -0, 5.65685" ++ nl)]%string.
Lemma example_text_run : t_outcome t_settings = Some (t_files, Finished).
Proof. compute_run. Qed.
(** C41 with the settings as they stand in the file: startTime 1, endTime 1.6, outputInterval 0.2; five files. *)
Theorem C41_rounding_text : exists xml files,
  attribute xml "condition" "startTime" (lit "1") /\ attribute xml "condition" "endTime" (lit "1.6") /\ attribute xml "condition" "outputInterval" (lit "0.2") /\
  run_text 100 xml = Some (files, Finished) /\ length files = 5%nat.
Proof.
  assert (match run_text 100 t_settings with Some (files, e) => Some (length files, e) | None => None end = Some (5%nat, Finished)) as HC by compute_run.
  exists t_settings. revert HC. generalize (run_text 100 t_settings). intros [[files e]|] HC; [|discriminate]. injection HC as HL ->. exists files.
  do 3 (split; [apply found_get; eexists; split; vm_compute; reflexivity|]). done.
Qed.

(** Numerals. *)
Open Scope R_scope.
Lemma example_numeral : numeral (lit "-1.25e+2") true (-125) /\ ends_numeral (lit "km").
Proof.
  split.
  - exists ["-"%char], (lit "1.25e+2"), 125. split; [done|]. split; [|right; split; [done|split; [done|ring]]].
    exists ["1"%char], ["."%char], (lit "25"), (lit "e+2"), 2%Z. split; [done|]. split; [repeat constructor; vm_compute; lia|]. split; [repeat constructor; vm_compute; lia|].
    split; [done|]. split; [by left|]. split.
    + right. exists "e"%char, ["+"%char], ["2"%char]. split; [done|]. split; [by left|]. split; [done|]. split; [repeat constructor; vm_compute; lia|]. left. auto.
    + change (decimal (["1"%char] ++ lit "25")) with 125%Z. change (2 - Z.of_nat (length (lit "25")))%Z with 0%Z. rewrite ten_0. ring.
  - intros c r [= <- <-]. split; [vm_compute; lia|done].
Qed.
Close Scope R_scope.
Definition shown (r : option B64) : option string := option_map (fun x => string_of_list_ascii (print_double x)) r.
Lemma example_stod : map (fun s => shown (stod (lit s))) ["  -1.25e+2km"; "1e400"; "1e-310"; "0x1p-1074"; "0.1e"; "x"]%string =
  [Some "-125"; None; None; Some "4.94066e-324"; Some "0.1"; None]%string.
Proof. compute_run. Qed.
Lemma example_setting : map (fun s => shown (get_double (lit s))) [" +1.25e-1  "; "1e400"; "1e-310"; "1 2"; "inf"]%string =
  [Some "0.125"; None; Some "1e-310"; None; None]%string.
Proof. compute_run. Qed.
Lemma example_print : map (fun x => string_of_list_ascii (print_double x))
    [bq 1 3; bq (-200000) 3; bq 1000000 1; bq 9999995 10; bq 1 30000; bq 1 300000; bq 12 100; bq (10 ^ 150) 1; nofZ 1 /. nofZ (2 ^ 1000) /. nofZ (2 ^ 74); bq 0 1; bq 1 0; bq 0 0] =
  ["0.333333"; "-66666.7"; "1e+06"; "1e+06"; "3.33333e-05"; "3.33333e-06"; "0.12"; "1e+150"; "4.94066e-324"; "0"; "inf"; "nan"]%string.
Proof. compute_run. Qed.

(** C72_file: particles that meet its hypotheses. *)
Definition not_tiny_test (x : B64) : bool := match x with B754_finite _ _ e _ => (-1021 <=? e)%Z | _ => true end.
Lemma not_tiny_tested x : not_tiny_test x = true -> not_tiny x.
Proof.
  intros H Hf. destruct x as [s|s| |s m e B]; [by left|done..|]. right. rewrite finite_value, signed_abs. cbn [not_tiny_test] in H. apply Z.leb_le in H.
  assert (1 <= IZR (Zpos m))%R as H1 by (apply IZR_le; lia). pose proof (bpow_le radix2 _ _ H). pose proof (bpow_gt_0 radix2 (-1021)).
  rewrite Rabs_right by (apply Rle_ge, Rmult_le_pos; lra). apply Rle_trans with (1 * bpow radix2 e)%R; [lra|]. apply Rmult_le_compat_r; lra.
Qed.
Definition t_part (t : ptype) (p n : B64num) : particle B64num D2 := @mkParticle B64num D2 (bq 1 3, bq (-2) 7) (bq 1 (10 ^ 9), bq 0 1) p n t.
Definition t_parts : list (particle B64num D2) := [t_part Newton (bq 1 0) (bq 22 7); t_part Wall (bq (-1) (2 ^ 900)) (bq 0 0)].
Definition values (p : particle B64num D2) : list B64 := [pP p; pN p; (pX p).1; (pX p).2; (pU p).1; (pU p).2].
Lemma values_of p v : value_of p v -> v ∈ values p.
Proof.
  unfold values. intros [->|[->|(k & Hk & H)]]; [left|right; left|]. destruct k as [|[|k]]; [| |cbn in Hk; lia]; destruct H as [->| ->]; cbn; rewrite !elem_of_cons; tauto.
Qed.
Lemma example_file : (forall p v, p ∈ t_parts -> value_of p v -> not_tiny v) /\ Forall (fun p => int_type (pT p)) t_parts /\
  write_csv (N := B64num) print_double t_parts = lit (t_head ++ "0, 0.333333, -0.285714, 1e-09, 0, inf, 3.14286" ++ nl ++ "1, 0.333333, -0.285714, 1e-09, 0, -1.18305e-271, nan" ++ nl)%string.
Proof.
  split; [|split; [|compute_run]].
  - assert (forallb (fun p => forallb not_tiny_test (values p)) t_parts = true) as HC by (vm_cast_no_check (@eq_refl bool true)).
    intros p v Hp Hv. apply not_tiny_tested. rewrite forallb_forall in HC. specialize (HC p (proj1 (elem_of_list_In _ _) Hp)).
    rewrite forallb_forall in HC. apply HC, elem_of_list_In, values_of, Hv.
  - constructor; [exists 0%Z|constructor; [exists 1%Z|constructor]]; (split; [lia|apply T_Csv.type_is_iff; reflexivity]).
Qed.

(** C72, limits.  Different particles, the same file: what follows the sixth digit is lost. *)
Theorem C72_refuted_lossless : exists ps ps' : list (particle B64num D2), ps <> ps' /\
  (forall p v, p ∈ ps ++ ps' -> value_of p v -> is_finite v = true) /\
  write_csv (N := B64num) print_double ps = write_csv (N := B64num) print_double ps'.
Proof.
  exists [t_part Newton (bq 1 3) (bq 1 1)], [t_part Newton (bq 333333 1000000) (bq 1 1)]. split_and!.
  - intros H. apply (f_equal (fun l => match l with [p] => Some (nltb (n := B64num) (bq 333333 1000000) (pP p)) | _ => None end)) in H. cbn [pP t_part] in H.
    assert (bq 333333 1000000 <?. bq 1 3 = true) as H1 by (vm_cast_no_check (@eq_refl bool true)).
    assert (bq 333333 1000000 <?. bq 333333 1000000 = false) as H2 by (vm_cast_no_check (@eq_refl bool false)).
    rewrite H1, H2 in H. discriminate.
  - intros p v Hp Hv. assert (forallb (fun p => forallb is_finite (values p)) [t_part Newton (bq 1 3) (bq 1 1); t_part Newton (bq 333333 1000000) (bq 1 1)] = true) as HC by (vm_cast_no_check (@eq_refl bool true)).
    rewrite forallb_forall in HC. specialize (HC p (proj1 (elem_of_list_In _ _) Hp)). rewrite forallb_forall in HC. apply HC, elem_of_list_In, values_of, Hv.
  - compute_run.
Qed.

(** C72, limits.  A file with a normal number near the smallest one cannot be read back: reading it fails. *)
Theorem C72_refuted_tiny : exists ps : list (particle B64num D2),
  (forall p v, p ∈ ps -> value_of p v -> is_finite v = true) /\ Forall (fun p => int_type (pT p)) ps /\
  read_csv (N := B64num) (d := D2) stod (write_csv (N := B64num) print_double ps) = BadValue.
Proof.
  exists [t_part Newton (bq 1 (2 ^ 1022)) (bq 1 1)]. split_and!.
  - intros p v Hp Hv. assert (forallb (fun p => forallb is_finite (values p)) [t_part Newton (bq 1 (2 ^ 1022)) (bq 1 1)] = true) as HC by (vm_cast_no_check (@eq_refl bool true)).
    rewrite forallb_forall in HC. specialize (HC p (proj1 (elem_of_list_In _ _) Hp)). rewrite forallb_forall in HC. apply HC, elem_of_list_In, values_of, Hv.
  - constructor; [exists 0%Z; split; [lia|apply T_Csv.type_is_iff; reflexivity]|constructor].
  - compute_run.
Qed.

(** Evaluation of the output files: concrete cases (C79, C80, C81). *)
From Coq Require Import ZArith Reals Lra String Ascii.
From Verif Require Import S_Text P_B64 P_Text T_Text S_App T_App E_App E_Text M_Post S_Post T_Files T_Post.
From Flocq Require Import Core BinarySingleNaN.
Close Scope R_scope.

(** The files of E_Text: sorted as written, their numbers read back. *)
Lemma example_numbers : map (fun f => py_number (drop 7 (lit f.1))) t_files = [Some 5; Some 6; Some 7; Some 8; Some 9]%Z.
Proof. reflexivity. Qed.
(** The same run, begun later: startTime 19999.6, endTime 20000, outputInterval 0.2. *)
Definition late_entries : list (string * list (string * string)) :=
  match t_entries with
  | [(c, _); e] => [(c, [("startTime", "19999.6"); ("endTime", "20000"); ("outputInterval", "0.2"); ("eps", "1e-2")]); e]
  | _ => []
  end%string.
Definition late_settings : ptree := settings_tree late_entries "csv" t_table.
Definition late_names : list string :=
  ["result/particles_99998.csv"; "result/particles_99999.csv"; "result/particles_100000.csv"; "result/particles_100001.csv"]%string.
(** C79, refuted at the level of the program: the third file, of number 100000, sorts before the first. *)
Theorem C79_refuted_run : exists xml files a b, run_text 100 xml = Some (files, Finished) /\
  (fst <$> files !! 0%nat) = Some (lit "result/" ++ a) /\ (fst <$> files !! 2%nat) = Some (lit "result/" ++ b) /\
  sorts_before b a /\ numbered 100000 (lit "result/" ++ b) /\ py_number b = Some 10000%Z.
Proof.
  assert (match run_text 100 late_settings with Some (files, e) => Some (map (fun f => string_of_list_ascii f.1) files, e) | None => None end
    = Some (late_names, Finished)) as HC by compute_run.
  exists late_settings. revert HC. generalize (run_text 100 late_settings). intros [[files e]|] HC; [|discriminate]. injection HC as HL ->. exists files.
  exists (lit "particles_99998.csv"), (lit "particles_100000.csv").
  destruct files as [|[n0 f0] [|[n1 f1] [|[n2 f2] files]]]; try discriminate HL. cbn [map fst late_names] in HL. injection HL as H0 _ H2 _.
  assert (forall (t : text) s, string_of_list_ascii t = s -> t = lit s) as HT. { intros t s <-. symmetry. apply list_ascii_of_string_of_list_ascii. }
  apply HT in H0, H2. assert (numbered 100000 (lit "result/" ++ lit "particles_100000.csv")) as HN by (apply (file_name_numbered 100000); lia).
  assert (numbered 99998 (lit "result/" ++ lit "particles_99998.csv")) as HM by (apply (file_name_numbered 99998); lia).
  split; [done|]. split; [by rewrite H0|]. split; [by rewrite H2|]. 
  destruct (C79_refuted_sorted 100000 99998 _ _ ltac:(lia) ltac:(split; [reflexivity|lia]) HN HM) as [HS HP]. done.
Qed.

(** C80: the file 00007 of E_Text: two rows, the front at x = 0. *)
Definition file_of (k : nat) : text := match t_files !! k with Some f => lit f.2 | None => [] end.
Lemma example_rows : map (fun row => map (fun name => string_of_list_ascii <$> py_get row (lit name)) ["Type"; "x"; "z"; "p"; "n"; "y"]%string) (py_dicts (file_of 2)) =
  [[Some "0"; Some "0"; Some "-0.0261901"; Some "0.001"; Some "5.65685"; None]; [Some "1"; Some "0.1"; Some "-3"; Some "-0"; Some "5.65685"; None]]%string.
Proof. reflexivity. Qed.
Lemma example_edge : match py_edge (N := B64num) stod (file_of 2) with Some x => print_double x = lit "0" | None => False end.
Proof. vm_compute. reflexivity. Qed.
(** C81: the reference density for r_e = 2; the surface of the first file and of the second, for beta = 0.97. *)
Lemma example_n0 : match stod (lit "2") with Some r => match py_n0 (N := B64num) r with Some n => print_double n = lit "5.65685" | None => False end | None => False end.
Proof. vm_compute. reflexivity. Qed.
Lemma example_surface : match stod (lit "2"), stod (lit "0.97") with
  | Some r, Some beta => match py_surface (N := B64num) stod r beta (file_of 0), py_surface (N := B64num) stod r beta (file_of 1) with
                         | Some (hi, lo), None => print_double hi = lit "1" /\ print_double lo = lit "1"
                         | _, _ => False end
  | _, _ => False end.
Proof. vm_compute. done. Qed.

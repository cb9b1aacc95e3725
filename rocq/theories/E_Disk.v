(** The result directory: concrete cases (C87). *)
From Coq Require Import String Ascii.
From Verif Require Import M_NumF M_Disk T_Disk E_App.
From stdpp Require Import list gmap.

(** Two files, an old file with the name of the second and another one; killed after 12 characters of the first, in the second, and at the end. *)
Definition two_files : list (text * text) := [(lit "1.csv", lit "Type, x" ++ [newline] ++ lit "0, 15" ++ [newline]); (lit "2.csv", lit "Type")].
Definition old_directory : gmap text text := <[lit "2.csv" := lit "old"]> (<[lit "9.csv" := lit "older"]> ∅).
Definition see (n : nat) : list (option string) :=
  map (fun name => option_map string_of_list_ascii (disk_after old_directory n two_files !! lit name)) ["1.csv"; "2.csv"; "9.csv"]%string.
Example example_killed : see 13 = [Some ("Type, x" ++ nl ++ "0, 1"); Some "old"; Some "older"]%string /\
  see 18 = [Some ("Type, x" ++ nl ++ "0, 15" ++ nl); Some "Ty"; Some "older"]%string /\
  see 100 = [Some ("Type, x" ++ nl ++ "0, 15" ++ nl); Some "Type"; Some "older"]%string.
Proof. split; [|split]; vm_compute; reflexivity. Qed.
(** The table of E_App cut: after its first row one particle is left; in a row, reading it is undefined; in the last number, the number is another one. *)
Definition cut_at (n : nat) : option (list (ptype * string)) :=
  match read_csv (d := D2) hundredths (take n example_table) with
  | Read l => Some (map (fun p : particle F64num D2 => (pT p, string_of_list_ascii (in_hundredths (tget D2 (pX p : tup D2 F64num) 1)))) l)
  | _ => None
  end.
Definition cut_undefined (n : nat) : bool := match read_csv (d := D2) hundredths (take n example_table) with CsvUndefined => true | _ => false end.
Example example_cut_file : length example_table = 68%nat /\ cut_at 68 = Some [(Newton, "100"); (Wall, "-300")]%string /\ cut_at 45 = Some [(Newton, "100")]%string /\
  cut_at 23 = Some [] /\ cut_undefined 49 = true.
Proof. split; [reflexivity|]. split; [compute_run|]. split; [compute_run|]. split; compute_run. Qed.
(** What C87_complete says of the run of E_App: an old file with a number the run does not use stays. *)
Example example_stale files e : run_of 100 example_settings = Some (files, e) -> forall d n, (length (run_events files) <= n)%nat ->
  forall name, name ∉ map fst files -> disk_after d n files !! name = d !! name.
Proof. intros H d n Hn name. by apply (C87_complete _ _ _ _ _ _ _ _ d n H Hn). Qed.

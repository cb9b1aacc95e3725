(** The screen output: a concrete run (C86). *)
From Coq Require Import ZArith String Ascii.
From Verif Require Import M_NumF M_Console E_App.
From stdpp Require Import list.

Definition text_of (entries : list (string * list (string * string))) (table : text) : text :=
  lit "<openmps>" ++
  mjoin (map (fun sl => lit "<" ++ lit sl.1 ++ lit ">" ++ mjoin (map (fun e => lit "<" ++ lit e.1 ++ lit " value='" ++ lit e.2 ++ lit "'/>") sl.2) ++ lit "</" ++ lit sl.1 ++ lit ">") entries) ++
  lit "<particles type='csv'>" ++ table ++ lit "</particles></openmps>".
Definition settings_text : text := text_of entries example_table.
Lemma example_settings_text : read_xml settings_text = Some example_settings.
Proof. vm_compute. reflexivity. Qed.
(** The program of E_App.example_run again, with its screen; times are shown in hundredths here. *)
Definition shown (file : text) : option (string * ending (N := F64num)) :=
  match session default_config in_hundredths in_hundredths hundredths hundredths (fun k => lit "now") 100 (lit "a.xml") file with
  | Some (_, screen, e) => Some (string_of_list_ascii screen, e) | None => None end.
Example example_screen : shown settings_text = Some (
  "Input XML file: a.xml" ++ nl ++
  "#00005: t=     100 (00000),            2 particles, @ now" ++ nl ++
  "#00006: t=     120 (00002),            2 particles, @ now" ++ nl ++
  "#00007: t=     142 (00007),            2 particles, @ now" ++ nl ++
  "#00008: t=     162 (00015),            2 particles, @ now" ++ nl ++
  "#00009: t=     182 (00026),            2 particles, @ now" ++ nl ++
  "finished" ++ nl, Finished)%string.
Proof. compute_run. Qed.
(** With a tolerance far below the precision of the numbers the solver gives up in the third step: the message says t=20 although the line before, after the same two steps, says
    t=120; startTime is 100. *)
Definition tiny (s : text) : option F64num := if decide (s = lit "tiny") then Some (nofZ (n := F64num) 1 /. nofZ (2 ^ 70)) else hundredths s.
Definition failing_entries : list (string * list (string * string)) :=
  [("condition", [("startTime", "100"); ("endTime", "160"); ("outputInterval", "20"); ("eps", "tiny")]);
   ("environment", [("l_0", "25"); ("minStepCountPerOutput", "2"); ("courant", "50"); ("g", "1000"); ("rho", "100000"); ("nu", "0");
     ("r_eByl_0", "200"); ("minX", "-400"); ("minZ", "-400"); ("maxX", "200"); ("maxZ", "200")])]%string.
Definition failing_table : text :=
  lit "Type, x, z, u, w, p, n" ++ [newline] ++ lit "0, 0, 100, 0, 0, 0, 0" ++ [newline] ++ lit "0, 23, 100, -70, 13, 0, 0" ++ [newline] ++
  lit "1, 3, -40, 0, 0, 0, 0" ++ [newline] ++ lit "1, 30, -43, 0, 0, 0, 0" ++ [newline].
Definition failing_screen : option string :=
  match session default_config in_hundredths in_hundredths hundredths tiny (fun k => lit "now") 100 (lit "a.xml") (text_of failing_entries failing_table) with
  | Some (_, screen, _) => Some (string_of_list_ascii screen) | None => None end.
Example example_error : failing_screen = Some (
  "Input XML file: a.xml" ++ nl ++
  "#00005: t=     100 (00000),            4 particles, @ now" ++ nl ++
  "#00006: t=     120 (00002),            4 particles, @ now" ++ nl ++
  "!!!!ERROR!!!!" ++ nl ++
  "#7: t=20 (2)" ++ nl ++
  "Conjugate Gradient method couldn't solve Pressure Poison Equation" ++ nl ++
  "finished" ++ nl)%string.
Proof. compute_run. Qed.
(** Times as printed: 1/3, 12345.67895, -0.00004 (which keeps its sign). *)
Example example_times : map (fun s => option_map (fun x => string_of_list_ascii (fixed4 x)) (stod (lit s))) ["0.33333333"; "12345.67895"; "-0.00004"; "2"]%string =
  [Some "0.3333"; Some "12345.6789"; Some "-0.0000"; Some "2.0000"]%string.
Proof. vm_compute. reflexivity. Qed.

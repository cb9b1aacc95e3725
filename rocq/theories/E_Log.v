(** The order of files and lines: a concrete run (C87). *)
From Coq Require Import String Ascii.
From Verif Require Import M_NumF S_Log E_App E_Console.
From stdpp Require Import list gmap.

(** The run of E_Console.example_screen as a history: what is opened and printed, in order. *)
Definition seen (e : event) : option string :=
  match e with Disk (Open n) => Some ("open " ++ string_of_list_ascii n)%string | Disk _ => None | Say s => Some ("say " ++ string_of_list_ascii (take 8 s))%string end.
Definition order : option (list string) :=
  option_map (fun he => omap seen he.1) (history default_config in_hundredths in_hundredths hundredths hundredths (fun k => lit "now") 100 (lit "a.xml") settings_text).
Example example_order : order = Some ["say Input XM"; "open result/particles_00005.csv"; "say #00005: "; "open result/particles_00006.csv"; "say #00006: ";
  "open result/particles_00007.csv"; "say #00007: "; "open result/particles_00008.csv"; "say #00008: "; "open result/particles_00009.csv"; "say #00009: "; "say finished"]%string.
Proof. compute_run. Qed.

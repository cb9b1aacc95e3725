(** A run on a failing disk: a concrete case (C89). *)
From Coq Require Import String Ascii.
From Verif Require Import M_NumF S_Log M_Fault E_App E_Console E_Log.
From stdpp Require Import list gmap.

(** The run of E_Log.example_order, with the second file not opened: its line is printed all the same. *)
Definition order_on (fates : nat -> fate) : option (list string) :=
  option_map (fun he => omap seen he.1) (history_on default_config in_hundredths in_hundredths hundredths hundredths (fun k => lit "now") fates 100 (lit "a.xml") (Some settings_text)).
Example example_fault : order_on (fun k => if decide (k = 1) then NotOpened else Fine) = Some ["say Input XM"; "open result/particles_00005.csv"; "say #00005: "; "say #00006: ";
  "open result/particles_00007.csv"; "say #00007: "; "open result/particles_00008.csv"; "say #00008: "; "open result/particles_00009.csv"; "say #00009: "; "say finished"]%string.
Proof. compute_run. Qed.

(** The program on a disk: concrete cases (C90). *)
From Coq Require Import String Ascii.
From Verif Require Import M_NumF S_Log M_Start S_App E_App E_Console E_Log.
From stdpp Require Import list gmap.

(** The run of E_Log.example_order, started as "openmps a.xml" on a disk with that settings file only. *)
Example example_start : option_map (fun he => omap seen he.1)
  (execute default_config in_hundredths in_hundredths hundredths hundredths (fun k => lit "now") (fun _ => Fine) true 100 [lit "openmps"; lit "a.xml"] {[lit "a.xml" := settings_text]}) = E_Log.order.
Proof. compute_run. Qed.
(** Its settings file does not have the name of an output file. *)
Example example_settings_name z : ~ numbered z (lit "a.xml").
Proof. intros (digits & E & _). cbn in E. discriminate. Qed.

(** Other number densities: a concrete run (C88). *)
From Coq Require Import String Ascii.
From Verif Require Import M_NumF S_App S_Blind T_Density0 E_App.
From stdpp Require Import list.

(** The table of E_App with other densities: the first file shows them, the others are those of E_App.example_run, to the letter. *)
Definition other_table : text := lit "Type, x, z, u, w, p, n" ++ [newline] ++ lit "0, 0, 100, 0, 0, 0, 777" ++ [newline] ++ lit "1, 0, -300, 0, 0, 0, 5" ++ [newline].
Definition other_settings : ptree := settings_tree entries "csv" other_table.
Example example_other_densities : outcome_of other_settings = Some
  (("result/particles_00005.csv", "Type, x, z, u, w, p, n" ++ nl ++ "0, 0, 100, 0, 0, 0, 777" ++ nl ++ "1, 0, -300, 0, 0, 0, 5" ++ nl)%string :: tail example_files, Finished).
Proof. compute_run. Qed.
(** The particles of the two tables are those of C88. *)
Example example_but_density (a b n n' m m' : F64num) :
  Forall2 (but_density (cfg := default_config))
    [mkParticle (N := F64num) (d := D2) (a, b) (a, a) a n Newton; mkParticle (N := F64num) (d := D2) (a, a) (a, a) b n Disabled; mkParticle (N := F64num) (d := D2) (b, b) (a, a) b m Dummy]
    [mkParticle (N := F64num) (d := D2) (a, b) (a, a) a n' Newton; mkParticle (N := F64num) (d := D2) (a, a) (a, a) a m' Disabled; mkParticle (N := F64num) (d := D2) (b, b) (a, a) b m Dummy].
Proof. repeat constructor; cbn; done. Qed.
(** C88_cut: the table of E_App cut off inside its last number.  The files after the first are the same, to the letter. *)
Definition cut_table : text := lit "Type, x, z, u, w, p, n" ++ [newline] ++ lit "0, 0, 100, 0, 0, 0, 777" ++ [newline] ++ lit "1, 0, -300, 0, 0, 0, 5".
Example example_cut : option_map (fun fe => (tail fe.1, fe.2)) (outcome_of (settings_tree entries "csv" cut_table)) = Some (tail example_files, Finished).
Proof. compute_run. Qed.

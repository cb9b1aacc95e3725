(** Main.cpp:276-295: the start of the program, and the program as something that happens to a disk.

    [mkdir] says whether a shell for [mkdir result] could be started ([system] returns a negative number otherwise); what the command does is in the fates of the files
    (M_Fault).  The settings file is read completely before the first output file is opened.  Simplification: different paths name different files. *)
From Coq Require Import String Ascii.
From Verif Require Export M_Fault.
From stdpp Require Import list gmap.

(** Main.cpp:292: [argv] without its terminating null pointer; with an empty one [argv[1]] is read beyond its end. *)
Definition settings_name (argv : list text) : option text :=
  match argv with [] => None | [_] => Some (lit "../../Benchmark/Sample/Sample.xml") | _ :: name :: _ => Some name end.
Section Start.
  Context {N : num} (cfg : config) (print_num print_fixed : N -> text) (parse_num parse_attr : text -> option N) (clock : nat -> text) (fates : nat -> fate) (mkdir : bool).
  (** Main.cpp:288-400 [main]. *)
  Definition execute (fuel : nat) (argv : list text) (d : directory) : option (list event * ending (N := N)) :=
    if mkdir then
      match settings_name argv with
      | None => Some ([], Undefined)
      | Some name => history_on cfg print_num print_fixed parse_num parse_attr clock fates fuel name (d !! name)
      end
    else Some ([], Terminated).
End Start.

(** Main.cpp:288-400: everything the program does that can be seen, in order: a file is written and closed before its line is printed (355-356, 379-384). *)
From Coq Require Import String Ascii.
From Verif Require Export M_Console M_Disk.
From stdpp Require Import list gmap.

Inductive event := Disk (e : disk_event) | Say (s : text).
Section Log.
  Context {N : num} (cfg : config) (print_num print_fixed : N -> text) (parse_num parse_attr : text -> option N) (clock : nat -> text).
  (** Main.cpp:353-357, 378-384: the [k]-th file and its line. *)
  Definition output_events (k : nat) (o : output (N := N) cfg) : list event :=
    map Disk (file_events (output_file cfg print_num o)) ++ [Say (report cfg print_fixed clock k o)].
  (** Main.cpp:288-400 [main]. *)
  Definition history (fuel : nat) (filename file : text) : option (list event * ending (N := N)) :=
    match read_xml file with
    | None => Some ([Say (greeting filename)], Terminated)
    | Some xml =>
        match load_all cfg parse_num parse_attr xml with
        | Failed _ => Some ([Say (greeting filename)], Terminated)
        | LoadUndefined => Some ([Say (greeting filename)], Undefined)
        | Loaded (cond, env, particles) =>
            match main_program fuel cond env particles with
            | Some (outs, e) => Some ([Say (greeting filename)] ++ mjoin (imap output_events outs) ++ [Say (farewell print_num e)], e)
            | None => None
            end
        end
    end.
End Log.

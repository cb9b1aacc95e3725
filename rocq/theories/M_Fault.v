(** Main.cpp:31-64, 288-400 when files cannot be opened or written.

    [std::ofstream] reports a failure only through its state, which nobody looks at: if the file cannot be opened (no directory "result", no permission) nothing is written and
    an old file stays; if writing fails later (disk full) the rest is dropped.  What is left in such a file is arbitrary here.  A settings file that cannot be
    opened makes [read_xml] (295) throw. *)
From Coq Require Import String Ascii.
From Verif Require Export M_Log.
From stdpp Require Import list gmap.

Inductive fate := Fine | NotOpened | Spoilt (left : text).
(** Main.cpp:34-60 [OutputToCsv]. *)
Definition fated_events (w : fate) (f : text * text) : list disk_event :=
  match w with Fine => file_events f | NotOpened => [] | Spoilt s => file_events (f.1, s) end.
Section Fault.
  Context {N : num} (cfg : config) (print_num print_fixed : N -> text) (parse_num parse_attr : text -> option N) (clock : nat -> text) (fates : nat -> fate).
  (** Main.cpp:353-357, 378-384: the count returned does not depend on the state of the stream. *)
  Definition output_on (k : nat) (o : output (N := N) cfg) : list event :=
    map Disk (fated_events (fates k) (output_file cfg print_num o)) ++ [Say (report cfg print_fixed clock k o)].
  (** Main.cpp:288-400 [main]; [file] is [None] if the settings file cannot be opened. *)
  Definition history_on (fuel : nat) (filename : text) (file : option text) : option (list event * ending (N := N)) :=
    match file with
    | None => Some ([Say (greeting filename)], Terminated)
    | Some file =>
        match read_xml file with
        | None => Some ([Say (greeting filename)], Terminated)
        | Some xml =>
            match load_all cfg parse_num parse_attr xml with
            | Failed _ => Some ([Say (greeting filename)], Terminated)
            | LoadUndefined => Some ([Say (greeting filename)], Undefined)
            | Loaded (cond, env, particles) =>
                match main_program fuel cond env particles with
                | Some (outs, e) => Some ([Say (greeting filename)] ++ mjoin (imap output_on outs) ++ [Say (farewell print_num e)], e)
                | None => None
                end
            end
        end
    end.
End Fault.

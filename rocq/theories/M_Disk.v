(** Main.cpp:31-64 [OutputToCsv] as operations on the directory "result": opening a file truncates it, then characters are appended.

    Simplifications: opening never fails (M_Fault is about the case that it does); a file on disk grows character by character (in fact at least line by line, as [std::endl] flushes), so that
    every cut is considered. *)
From Coq Require Import String Ascii.
From Verif Require Export M_App.
From stdpp Require Import list gmap.

Notation directory := (gmap text text).
Inductive disk_event := Open (name : text) | Put (name : text) (c : ascii).
(** Main.cpp:34-35 [std::ofstream output(filename)]; 38-60 [output << ...]. *)
Definition apply_event (d : directory) (e : disk_event) : directory :=
  match e with
  | Open name => <[name := []]> d
  | Put name c => <[name := default [] (d !! name) ++ [c]]> d
  end.
Definition file_events (f : text * text) : list disk_event := Open f.1 :: map (Put f.1) f.2.
(** Main.cpp:355, 379: one file after the other. *)
Definition run_events (files : list (text * text)) : list disk_event := flat_map file_events files.
(** The directory after the first [n] operations. *)
Definition disk_after (d : directory) (n : nat) (files : list (text * text)) : directory := foldl apply_event d (take n (run_events files)).

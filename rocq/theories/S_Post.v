(** Specification vocabulary for the evaluation of the output files. *)
From Coq Require Import String Ascii.
From Verif Require Export S_App.
From stdpp Require Import list.

(** The order in which [sorted] puts texts. *)
Inductive sorts_before : text -> text -> Prop :=
  | sb_end c s : sorts_before [] (c :: s)
  | sb_less c c' s s' : (Ascii.nat_of_ascii c < Ascii.nat_of_ascii c')%nat -> sorts_before (c :: s) (c' :: s')
  | sb_same c s s' : sorts_before s s' -> sorts_before (c :: s) (c :: s').

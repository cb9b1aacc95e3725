(** Specification: the screen output (C86). *)
From Coq Require Import ZArith String Ascii.
From Verif Require Export S_App.
From stdpp Require Import list.

(** Blanks, then [s], at least [k] characters in all. *)
Definition right_aligned (k : nat) (s t : text) : Prop :=
  exists blanks, t = blanks ++ s /\ Forall (fun c => c = " "%char) blanks /\ length t = Nat.max k (length s).
(** At least five digits, as in the names of the files. *)
Definition five_digits (n : Z) (s : text) : Prop := numbered n (lit "result/particles_" ++ s ++ lit ".csv").
(** The line about a file: the digits of its name, the time, the number of steps made, the number of particles in use. *)
Definition line_about (line name time : text) (steps particles : nat) : Prop :=
  exists a b c d d' date, line = lit "#" ++ a ++ lit ": t=" ++ b ++ lit " (" ++ c ++ lit "), " ++ d ++ lit " particles, @ " ++ date ++ [newline] /\
    name = lit "result/particles_" ++ a ++ lit ".csv" /\ right_aligned 8 time b /\ five_digits (Z.of_nat steps) c /\
    whole_text (Z.of_nat particles) d' /\ right_aligned 12 d' d.
(** The message about a step whose pressure equation was not solved. *)
Definition error_message (number : Z) (time : text) (steps : nat) (s : text) : Prop :=
  exists a c, whole_text number a /\ whole_text (Z.of_nat steps) c /\
    s = lit "!!!!ERROR!!!!" ++ [newline] ++ lit "#" ++ a ++ lit ": t=" ++ time ++ lit " (" ++ c ++ lit ")" ++ [newline] ++
        lit "Conjugate Gradient method couldn't solve Pressure Poison Equation" ++ [newline].

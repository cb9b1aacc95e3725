(** Main.cpp:293, 333-357, 380-399: what the program writes on the screen.

    Simplification: the date, the time of day and the seconds since the start (333, 342-350) come from the clock, which is a parameter. *)
From Coq Require Import ZArith String Ascii.
From Verif Require Export M_Xml M_Text.
From stdpp Require Import list.

(** [boost::format]: %8.4lf, %12d, blanks on the left up to the width. *)
Definition pad (k : nat) (s : text) : text := replicate (k - length s) " "%char ++ s.
(** [std::fixed], precision 4: the exact value rounded to four decimals, ties to even. *)
Definition fixed4 (x : B64) : text :=
  match x with
  | BinarySingleNaN.B754_zero s => (if s then ["-"%char] else []) ++ lit "0.0000"
  | BinarySingleNaN.B754_infinity s => (if s then ["-"%char] else []) ++ lit "inf"
  | BinarySingleNaN.B754_nan => lit "nan"      (* its sign is not modelled *)
  | BinarySingleNaN.B754_finite s m e _ =>
      let '(num, den) := binary_fraction m e in
      let D := round_div (Zpos num * 10 ^ 4) (Zpos den) in
      (if s then ["-"%char] else []) ++ print_int (D / 10 ^ 4) ++ "."%char :: width 4 (D mod 10 ^ 4)
  end.

Section Console.
  Context {N : num} (cfg : config) (print_num print_fixed : N -> text) (parse_num parse_attr : text -> option N) (clock : nat -> text).

  (** Main.cpp:293. *)
  Definition greeting (filename : text) : text := lit "Input XML file: " ++ filename ++ [newline].
  (** Main.cpp:334, 339-352 [printTime], for the [k]-th file: "#%3$05d: t=%1$8.4lf (%2$05d), %10$12d particles, @ ...". *)
  Definition report (k : nat) (o : output (N := N) cfg) : text :=
    lit "#" ++ pad5 (print_int (oNumber o)) ++ lit ": t=" ++ pad 8 (print_fixed (oTime o)) ++ lit " (" ++ pad5 (print_int (Z.of_nat (oIter o))) ++ lit "), " ++
    pad 12 (print_int (Z.of_nat (oCount o))) ++ lit " particles, @ " ++ clock k ++ [newline].
  (** Main.cpp:386-399; Computer.hpp:1427 has the text of the exception.  What [std::terminate] prints goes elsewhere. *)
  Definition farewell (e : ending (N := N)) : text :=
    match e with
    | Finished => lit "finished" ++ [newline]
    | ErrorMessage t iter number =>
        lit "!!!!ERROR!!!!" ++ [newline] ++
        lit "#" ++ print_int number ++ lit ": t=" ++ print_num t ++ lit " (" ++ print_int (Z.of_nat iter) ++ lit ")" ++ [newline] ++
        lit "Conjugate Gradient method couldn't solve Pressure Poison Equation" ++ [newline] ++
        lit "finished" ++ [newline]
    | Terminated | Undefined => []
    end.
  (** Main.cpp:288-400 [main]: files, screen, ending. *)
  Definition session (fuel : nat) (filename file : text) : option (list (text * text) * text * ending (N := N)) :=
    match read_xml file with
    | None => Some ([], greeting filename, Terminated)
    | Some xml =>
        match load_all cfg parse_num parse_attr xml with
        | Failed _ => Some ([], greeting filename, Terminated)
        | LoadUndefined => Some ([], greeting filename, Undefined)
        | Loaded (cond, env, particles) =>
            match main_program fuel cond env particles with
            | Some (outs, e) => Some (map (output_file cfg print_num) outs, greeting filename ++ mjoin (imap report outs) ++ farewell e, e)
            | None => None
            end
        end
    end.
End Console.

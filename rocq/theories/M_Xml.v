(** Main.cpp:295: [boost::property_tree::read_xml(filename, *xml)], and the program from the text of the settings file.

    Boost reads XML with the parser RapidXML (not in /repo; written down as documented, with the options [read_xml] uses: comments are kept, text is
    neither trimmed nor normalised, the names of closing tags are not compared).  Simplifications: the number of a character reference is unbounded;
    a file that cannot be opened is left to M_Fault; the parts of a file are the bytes of its text. *)
From Coq Require Import String Ascii.
From Verif Require Export M_App M_Script.
From stdpp Require Import list.

(** The longest beginning all of whose characters satisfy [p], and the rest. *)
Fixpoint span (p : ascii -> bool) (s : text) : text * text :=
  match s with
  | c :: r => if p c then let '(a, b) := span p r in (c :: a, b) else ([], s)
  | [] => ([], [])
  end.
(** [s] without the beginning [p]. *)
Fixpoint without (p s : text) : option text :=
  match p, s with
  | [], _ => Some s
  | a :: p, b :: s => if Ascii.eqb a b then without p s else None
  | _, [] => None
  end.
(** The text before the first [p], and the rest after it; [None]: there is none (the parser throws "unexpected end of data"). *)
Fixpoint up_to (p s : text) : option (text * text) :=
  match without p s with
  | Some r => Some ([], r)
  | None => match s with
            | [] => None
            | c :: s => match up_to p s with Some (a, r) => Some (c :: a, r) | None => None end
            end
  end.

(** Classes of characters. *)
Definition one_of (l : string) (c : ascii) : bool := existsb (Ascii.eqb c) (lit l).
Definition nul : ascii := "000"%char.
Definition xml_space (c : ascii) : bool := Ascii.eqb c " " || Ascii.eqb c "009" || Ascii.eqb c "010" || Ascii.eqb c "013".
Definition node_name_char (c : ascii) : bool := negb (xml_space c || one_of "/>?" c).
Definition attribute_name_char (c : ascii) : bool := negb (xml_space c || one_of "/<>=?!" c).
Definition skip_xml (s : text) : text := (span xml_space s).2.

(** Character references: &amp; &apos; &quot; &gt; &lt; &#n; &#xn;.  Any other & stands for itself. *)
Definition hex_digit (c : ascii) : option Z :=
  let n := Z.of_nat (Ascii.nat_of_ascii c) in
  if (48 <=? n)%Z && (n <=? 57)%Z then Some (n - 48)%Z
  else if (65 <=? n)%Z && (n <=? 70)%Z then Some (n - 55)%Z
  else if (97 <=? n)%Z && (n <=? 102)%Z then Some (n - 87)%Z else None.
Fixpoint read_code (base code : Z) (s : text) : Z * text :=
  match s with
  | c :: r => match hex_digit c with Some k => if (k <? base)%Z then read_code base (code * base + k) r else (code, s) | None => (code, s) end
  | [] => (code, [])
  end.
Definition byte (z : Z) : ascii := Ascii.ascii_of_nat (Z.to_nat z).
Definition utf8 (code : Z) : option text :=
  if (code <? 128)%Z then Some [byte code]
  else if (code <? 2048)%Z then Some [byte (192 + code / 64); byte (128 + code mod 64)]
  else if (code <? 65536)%Z then Some [byte (224 + code / 4096); byte (128 + code / 64 mod 64); byte (128 + code mod 64)]
  else if (code <? 1114112)%Z then Some [byte (240 + code / 262144); byte (128 + code / 4096 mod 64); byte (128 + code / 64 mod 64); byte (128 + code mod 64)]
  else None.
(** After a &: what it stands for, and the rest. *)
Definition numeric_ref (base : Z) (s : text) : option (text * text) :=
  let '(code, r) := read_code base 0 s in r ← without (lit ";") r; u ← utf8 code; Some (u, r).
Definition expand_ref (s : text) : option (text * text) :=
  match without (lit "amp;") s with Some r => Some (lit "&", r) | None =>
  match without (lit "apos;") s with Some r => Some (lit "'", r) | None =>
  match without (lit "quot;") s with Some r => Some (["034"%char], r) | None =>
  match without (lit "gt;") s with Some r => Some (lit ">", r) | None =>
  match without (lit "lt;") s with Some r => Some (lit "<", r) | None =>
  match without (lit "#x") s with Some r => numeric_ref 16 r | None =>
  match without (lit "#") s with Some r => numeric_ref 10 r | None => Some (lit "&", s) end end end end end end end.
Fixpoint expand (fuel : nat) (s : text) : option text :=
  match fuel, s with
  | _, [] => Some []
  | O, _ => None
  | S fuel, c :: s =>
      if Ascii.eqb c "&" then match expand_ref s with Some (u, r) => app u <$> expand fuel r | None => None end
      else cons c <$> expand fuel s
  end.
Definition expand_all (s : text) : option text := expand (length s) s.

(** Attributes, up to the first character that cannot begin the name of one. *)
Definition quote_char (c : ascii) : bool := Ascii.eqb c "'" || Ascii.eqb c "034".
Fixpoint attributes (fuel : nat) (s : text) : option (list (text * ptree) * text) :=
  match fuel with
  | O => None
  | S fuel =>
      let '(name, r) := span attribute_name_char s in
      if decide (name = []) then Some ([], s)
      else
        r ← without (lit "=") (skip_xml r);
        match skip_xml r with
        | q :: r =>
            if quote_char q then
              match span (fun c => negb (Ascii.eqb c q)) r with
              | (raw, _ :: r) => v ← expand_all raw; '(l, r) ← attributes fuel (skip_xml r); Some ((name, Tree v []) :: l, r)
              | _ => None
              end
            else None
        | [] => None
        end
  end.

(** What a piece of markup adds to the element around it: nothing, text, or a child. *)
Inductive xml_item := Nothing | Data (d : text) | Child (name : text) (t : ptree).
Definition add_item (i : xml_item) (x : text * list (text * ptree)) : text * list (text * ptree) :=
  match i with Nothing => x | Data d => (d ++ x.1, x.2) | Child n t => (x.1, (n, t) :: x.2) end.
(** [read_xml_node]: the attributes become children of a first child <xmlattr>, if there are any. *)
Definition element_tree (attrs : list (text * ptree)) (x : text * list (text * ptree)) : ptree :=
  Tree x.1 (match attrs with [] => x.2 | _ => (lit "<xmlattr>", Tree [] attrs) :: x.2 end).
Section Markup.
  Context (contents : text -> option (text * list (text * ptree) * text)).
  (** After <: an element. *)
  Definition element (s : text) : option (xml_item * text) :=
    let '(name, r) := span node_name_char s in
    if decide (name = []) then None
    else
      '(attrs, r) ← attributes (length s) (skip_xml r);
      match without (lit ">") r with
      | Some r => '(x, r) ← contents r; Some (Child name (element_tree attrs x), r)
      | None => r ← without (lit "/>") r; Some (Child name (element_tree attrs ([], [])), r)
      end.
  (** After <!DOCTYPE: up to the > outside of brackets. *)
  Fixpoint doctype (depth : nat) (s : text) : option text :=
    match s with
    | [] => None
    | c :: s =>
        if Ascii.eqb c "[" then doctype (S depth) s
        else if Ascii.eqb c "]" then doctype (Nat.pred depth) s
        else if Ascii.eqb c ">" && Nat.eqb depth 0 then Some s else doctype depth s
    end.
  (** After <: any piece of markup. *)
  Definition markup (s : text) : option (xml_item * text) :=
    match without (lit "?") s with Some r => '(_, r) ← up_to (lit "?>") r; Some (Nothing, r) | None =>
    match without (lit "!") s with
    | Some r =>
        match without (lit "--") r with Some r => '(c, r) ← up_to (lit "-->") r; Some (Child (lit "<xmlcomment>") (Tree c []), r) | None =>
        match without (lit "[CDATA[") r with Some r => '(d, r) ← up_to (lit "]]>") r; Some (Data d, r) | None =>
        match without (lit "DOCTYPE") r with
        | Some ((c :: _) as r') => if xml_space c then r ← doctype 0 r'; Some (Nothing, r) else '(_, r) ← up_to (lit ">") r; Some (Nothing, r)
        | _ => '(_, r) ← up_to (lit ">") r; Some (Nothing, r)
        end end end
    | None => element s
    end end.
End Markup.
(** The inside of an element, up to its closing tag; white space alone before markup is dropped. *)
Fixpoint contents (fuel : nat) (s : text) : option (text * list (text * ptree) * text) :=
  match fuel with
  | O => None
  | S fuel =>
      if decide (skip_xml s = []) then None
      else match without (lit "<") (skip_xml s) with
      | Some r =>
          match without (lit "/") r with
          | Some r => r ← without (lit ">") (skip_xml (span node_name_char r).2); Some (([], []), r)
          | None => '(i, r) ← markup (contents fuel) r; '(x, r) ← contents fuel r; Some (add_item i x, r)
          end
      | None => let '(raw, r) := span (fun c => negb (Ascii.eqb c "<")) s in
                d ← expand_all raw; '(x, r) ← contents fuel r; Some (add_item (Data d) x, r)
      end
  end.
(** The whole text: markup with white space around. *)
Fixpoint document_items (fuel : nat) (s : text) : option (text * list (text * ptree)) :=
  match fuel with
  | O => None
  | S fuel =>
      if decide (skip_xml s = []) then Some ([], [])
      else r ← without (lit "<") (skip_xml s); '(i, r) ← markup (contents (length r)) r; x ← document_items fuel r; Some (add_item i x)
  end.
(** The text ends at a NUL; a byte order mark is skipped. *)
Definition byte_order_mark : text := ["239"; "187"; "191"]%char.
Definition read_xml (s : text) : option ptree :=
  let s := (span (fun c => negb (Ascii.eqb c nul)) s).1 in
  let s := default s (without byte_order_mark s) in
  x ← document_items (S (length s)) s; Some (Tree x.1 x.2).

(** Main.cpp:287-361 [main], from the text of the settings file; [xml_parser_error] is not caught. *)
Definition program {N : num} (cfg : config) (print_num : N -> text) (parse_num parse_attr : text -> option N) (fuel : nat) (file : text)
    : option (list (text * text) * ending (N := N)) :=
  match read_xml file with
  | Some xml => application cfg print_num parse_num parse_attr fuel xml
  | None => Some ([], Terminated)
  end.

(** The text the scripts write: [minidom.parseString(ET.tostring(openmps)).toprettyxml(indent="\t")] (generate.py of StaticPressure:205-207,
    generate_koshizukaoka1996.py:162-164, generate_zhouetal1999.py:161-163, generate.py of CentralGravity:80-82).  Python's library is written down as
    documented: [_write_data] replaces ampersands, angle brackets and quotation marks, an element without children is closed with />, the only child of an element is written in line if it
    is text. *)
Definition py_escape (s : text) : text :=
  flat_map (fun c => if Ascii.eqb c "&" then lit "&amp;" else if Ascii.eqb c "<" then lit "&lt;" else if Ascii.eqb c "034" then lit "&quot;"
                     else if Ascii.eqb c ">" then lit "&gt;" else [c]) s.
Definition py_attribute (name : string) (value : text) : text := lit " " ++ lit name ++ lit "=" ++ ["034"%char] ++ py_escape value ++ ["034"%char].
Definition py_setting (e : string * text) : text := [tab; tab] ++ lit "<" ++ lit e.1 ++ py_attribute "value" e.2 ++ lit "/>" ++ [newline].
Definition py_group (name : string) (l : list (string * text)) : text :=
  [tab] ++ lit "<" ++ lit name ++ lit ">" ++ [newline] ++ mjoin (map py_setting l) ++ [tab] ++ lit "</" ++ lit name ++ lit ">" ++ [newline].
Definition script_text {N : num} (py_str : N -> text) (st : settings N) (sc : scene N) : text :=
  lit "<?xml version=" ++ ["034"%char] ++ lit "1.0" ++ ["034"%char] ++ lit " ?>" ++ [newline] ++
  lit "<openmps>" ++ [newline] ++
  py_group "condition" (script_condition py_str st) ++
  py_group "environment" (script_environment py_str st ++ script_corners py_str sc) ++
  [tab] ++ lit "<particles" ++ py_attribute "type" (lit "csv") ++ lit ">" ++ py_escape (script_csv py_str (scParts sc)) ++ lit "</particles>" ++ [newline] ++
  lit "</openmps>" ++ [newline].

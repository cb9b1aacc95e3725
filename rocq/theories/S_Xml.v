(** Specification: the XML files that are settings files, and the trees they stand for (C85); after the grammar of XML 1.0, without document type
    declarations. *)
From Coq Require Import String Ascii.
From Verif Require Export M_App.
From stdpp Require Import list.

(** Text of white space only. *)
Definition blank_char (c : ascii) : Prop := c = " "%char \/ c = "009"%char \/ c = "010"%char \/ c = "013"%char.
Definition blank (s : text) : Prop := Forall blank_char s.
(** [p] occurs in [s]. *)
Definition occurs (p s : text) : Prop := exists a b, s = a ++ p ++ b.
(** The five named characters. *)
Inductive named : ascii -> string -> Prop :=
  | n_amp : named "&" "&amp;" | n_apos : named "'" "&apos;" | n_quot : named "034" "&quot;" | n_gt : named ">" "&gt;" | n_lt : named "<" "&lt;".
(** The digits [s], after digits of the value [a], have the value [z] in the base [base]. *)
Inductive code_digit : ascii -> Z -> Prop :=
  | d_decimal n : (n < 10)%nat -> code_digit (Ascii.ascii_of_nat (48 + n)) (Z.of_nat n)
  | d_upper n : (n < 6)%nat -> code_digit (Ascii.ascii_of_nat (65 + n)) (10 + Z.of_nat n)
  | d_lower n : (n < 6)%nat -> code_digit (Ascii.ascii_of_nat (97 + n)) (10 + Z.of_nat n).
Inductive code_numeral (base : Z) : Z -> text -> Z -> Prop :=
  | nm_end a : code_numeral base a [] a
  | nm_digit a c k s z : code_digit c k -> (k < base)%Z -> code_numeral base (a * base + k) s z -> code_numeral base a (c :: s) z.
(** The bytes of the character number [z] (UTF-8). *)
Definition octet (z : Z) : ascii := Ascii.ascii_of_nat (Z.to_nat z).
Definition six_bits (z : Z) : Prop := (0 <= z < 64)%Z.
Inductive encoded : Z -> text -> Prop :=
  | en_one z : (0 < z < 128)%Z -> encoded z [octet z]
  | en_two a b : (2 <= a < 32)%Z -> six_bits b -> encoded (64 * a + b) [octet (192 + a); octet (128 + b)]
  | en_three a b c : (0 <= a < 16)%Z -> six_bits b -> six_bits c -> (2048 <= 4096 * a + 64 * b + c)%Z ->
      encoded (4096 * a + 64 * b + c) [octet (224 + a); octet (128 + b); octet (128 + c)]
  | en_four a b c d : (0 <= a < 8)%Z -> six_bits b -> six_bits c -> six_bits d -> (65536 <= 262144 * a + 4096 * b + 64 * c + d < 1114112)%Z ->
      encoded (262144 * a + 4096 * b + 64 * c + d) [octet (240 + a); octet (128 + b); octet (128 + c); octet (128 + d)].
(** The text [s] in the file stands for the text [v]: each character for itself ([stop], which ends the text, and & excepted), by name, or by its
    number, decimal or hexadecimal. *)
Inductive spelled (stop : ascii) : text -> text -> Prop :=
  | sp_end : spelled stop [] []
  | sp_plain c v s : c <> stop -> c <> "&"%char -> spelled stop v s -> spelled stop (c :: v) (c :: s)
  | sp_named c e v s : named c e -> spelled stop v s -> spelled stop (c :: v) (lit e ++ s)
  | sp_number mark base ds z u v s : (mark, base) = ("&#"%string, 10%Z) \/ (mark, base) = ("&#x"%string, 16%Z) -> ds <> [] -> code_numeral base 0 ds z ->
      encoded z u -> spelled stop v s -> spelled stop (u ++ v) (lit mark ++ ds ++ lit ";" ++ s).
(** Names of elements and attributes. *)
Definition name_char (c : ascii) : Prop := ~ blank_char c /\ c ∉ lit "/<>=?!&'" /\ c <> "034"%char.
Definition xml_name (s : text) : Prop := s <> [] /\ Forall name_char s.
(** Attributes, each after white space, in either kind of quotes. *)
Inductive attributes_text : list (text * ptree) -> text -> Prop :=
  | at_none : attributes_text [] []
  | at_one name v w w1 w2 q raw l s : w <> [] -> blank w -> blank w1 -> blank w2 -> xml_name name -> q = "'"%char \/ q = "034"%char -> spelled q v raw ->
      attributes_text l s -> attributes_text ((name, Tree v []) :: l) (w ++ name ++ w1 ++ lit "=" ++ w2 ++ q :: raw ++ q :: s).
(** The tree of an element: its text (all pieces together) and its children, after a child <xmlattr> with the attributes, if any. *)
Definition tree_of (attrs : list (text * ptree)) (d : text) (l : list (text * ptree)) : ptree :=
  Tree d (match attrs with [] => l | _ => (lit "<xmlattr>", Tree [] attrs) :: l end).
(** Text between markup: white space alone does not count. *)
Definition chunk (d s : text) : Prop := (blank s /\ d = []) \/ (~ blank s /\ spelled "<" d s).
(** Markup and the inside of elements: data, children, text. *)
Inductive markup_text : text -> list (text * ptree) -> text -> Prop :=
  | mk_comment c : ~ occurs (lit "-->") c -> markup_text [] [(lit "<xmlcomment>", Tree c [])] (lit "<!--" ++ c ++ lit "-->")
  | mk_instruction c : ~ occurs (lit "?>") c -> markup_text [] [] (lit "<?" ++ c ++ lit "?>")
  | mk_cdata d : ~ occurs (lit "]]>") d -> markup_text d [] (lit "<![CDATA[" ++ d ++ lit "]]>")
  | mk_element name t s : element_text name t s -> markup_text [] [(name, t)] s
with element_text : text -> ptree -> text -> Prop :=
  | el_empty name attrs sa w : xml_name name -> attributes_text attrs sa -> blank w -> element_text name (tree_of attrs [] []) (lit "<" ++ name ++ sa ++ w ++ lit "/>")
  | el_full name attrs sa w d l s w' : xml_name name -> attributes_text attrs sa -> blank w -> content_text d l s -> blank w' ->
      element_text name (tree_of attrs d l) (lit "<" ++ name ++ sa ++ w ++ lit ">" ++ s ++ lit "</" ++ name ++ w' ++ lit ">")
with content_text : text -> list (text * ptree) -> text -> Prop :=
  | ct_end d s : chunk d s -> content_text d [] s
  | ct_more d s d1 l1 s1 d2 l2 s2 : chunk d s -> markup_text d1 l1 s1 -> content_text d2 l2 s2 -> content_text (d ++ d1 ++ d2) (l1 ++ l2) (s ++ s1 ++ s2).
(** Before and after the root element: white space, comments, the XML declaration and other instructions. *)
Inductive misc_text : list (text * ptree) -> text -> Prop :=
  | ms_end w : blank w -> misc_text [] w
  | ms_comment w c l s : blank w -> ~ occurs (lit "-->") c -> misc_text l s ->
      misc_text ((lit "<xmlcomment>", Tree c []) :: l) (w ++ lit "<!--" ++ c ++ lit "-->" ++ s)
  | ms_instruction w c l s : blank w -> ~ occurs (lit "?>") c -> misc_text l s -> misc_text l (w ++ lit "<?" ++ c ++ lit "?>" ++ s).
(** A document: what comes before the root element, the root element, what comes after; no NUL, no byte order mark (or one: T_Xml). *)
Definition document (t : ptree) (before root after : text) : Prop :=
  exists l1 name r l2, misc_text l1 before /\ element_text name r root /\ misc_text l2 after /\ t = Tree [] (l1 ++ (name, r) :: l2) /\
    "000"%char ∉ before ++ root ++ after.

(** The tree without its comments. *)
Fixpoint uncommented (t : ptree) : ptree :=
  let 'Tree d l := t in Tree d (flat_map (fun '(name, u) => if decide (name = lit "<xmlcomment>") then [] else [(name, uncommented u)]) l).

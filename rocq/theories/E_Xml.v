(** The text of settings files: concrete cases (C85). *)
From Coq Require Import String Ascii ZArith Reals.
From Verif Require Import S_Script P_Xml T_Xml T_XmlScript E_Script E_App.
From Flocq Require Import Core BinarySingleNaN.
From stdpp Require Import list.

(** A declaration, comments, a stray --> (as in Benchmark/Sample/Sample.xml), both kinds of quotes, references, a table in pieces. *)
Definition before_text : text := lit "<?xml version='1.0'?> <!-- settings -->".
Definition root_text : text :=
  lit "<openmps >" ++ (lit " " ++ (lit "<c value = '1.5' />") ++ (lit " --> " ++ (lit "<!--sound-->") ++ (lit " " ++
    (lit "<particles type='&#99;sv'>" ++ (lit "a &lt; " ++ lit "<![CDATA[<b>]]>" ++ lit "c") ++ lit "</particles >") ++ lit ""))) ++ lit "</openmps>".
Definition the_tree : ptree :=
  Tree [] [(lit "<xmlcomment>", Tree (lit " settings ") []);
           (lit "openmps", Tree (lit " --> ")
             [(lit "c", Tree [] [(lit "<xmlattr>", Tree [] [(lit "value", Tree (lit "1.5") [])])]);
              (lit "<xmlcomment>", Tree (lit "sound") []);
              (lit "particles", Tree (lit "a < <b>c") [(lit "<xmlattr>", Tree [] [(lit "type", Tree (lit "csv") [])])])])].
Definition absent (p s : text) : bool := forallb (fun n => negb (bool_decide (take (length p) (drop n s) = p))) (seq 0 (S (length s))).
Lemma absent_occurs p s : absent p s = true -> ~ occurs p s.
Proof.
  intros H (a & b & ->). unfold absent in H. rewrite forallb_forall in H. specialize (H (length a)). rewrite drop_app, take_app in H.
  rewrite bool_decide_true in H by done. discriminate H. apply in_seq. rewrite app_length. lia.
Qed.
Lemma spelled_itself stop s : forallb (fun c => negb (Ascii.eqb c stop) && negb (Ascii.eqb c "&")) s = true -> spelled stop s s.
Proof.
  induction s as [|c s IH]; [constructor|]. cbn [forallb]. rewrite !andb_true_iff, !negb_true_iff. intros [[H1%Ascii.eqb_neq H2%Ascii.eqb_neq] H3]. constructor; [done|done|by apply IH].
Qed.
Lemma not_blank c s : xml_space c = false -> ~ blank (c :: s).
Proof. intros H H'. inversion H' as [|? ? H0]; subst. apply xml_space_true in H0. by rewrite H0 in H. Qed.
Lemma not_blank_in s : existsb (fun c => negb (xml_space c)) s = true -> ~ blank s.
Proof. intros (c & Hc & H)%existsb_exists Hb. unfold blank in Hb. rewrite list.Forall_forall in Hb. apply elem_of_list_In, Hb, xml_space_true in Hc. by rewrite Hc in H. Qed.
Example example_document : document the_tree before_text root_text (lit " ").
Proof.
  set (ac := [(lit "value", Tree (lit "1.5") [])]). set (ap := [(lit "type", Tree (lit "csv") [])]).
  set (tc := tree_of ac [] []). set (tp := tree_of ap (lit "a < " ++ lit "<b>" ++ lit "c") []).
  set (comment := fun s => (lit "<xmlcomment>", Tree (lit s) [])).
  exists [comment " settings "%string], (lit "openmps"), (tree_of [] ([] ++ [] ++ lit " --> " ++ [] ++ [] ++ [] ++ []) ([(lit "c", tc)] ++ [comment "sound"%string] ++ [(lit "particles", tp)] ++ [])), [].
  split; [|split; [|split; [by apply ms_end, blanks|split; [reflexivity|]]]].
  - apply (ms_instruction [] (lit "xml version='1.0'")); [constructor|by apply absent_occurs|]. apply (ms_comment (lit " ") (lit " settings ") [] []); [by apply blanks|by apply absent_occurs|].
    apply (ms_end []). constructor.
  - apply (el_full (lit "openmps") [] [] (lit " ") _ _ _ []); [by apply name_ok_name|constructor|by apply blanks| |constructor].
    apply (ct_more [] (lit " ") [] [(lit "c", tc)] (lit "<c value = '1.5' />")); [left; split; [by apply blanks|done]| |].
    + apply mk_element. apply (el_empty (lit "c") ac (lit " value = '1.5'") (lit " ")); [by apply name_ok_name| |by apply blanks].
      apply (at_one (lit "value") (lit "1.5") (lit " ") (lit " ") (lit " ") "'" (lit "1.5") [] []); [done|by apply blanks..|by apply name_ok_name|by left|by apply spelled_itself|constructor].
    + apply (ct_more (lit " --> ") (lit " --> ") [] [comment "sound"%string] (lit "<!--sound-->") ([] ++ [] ++ [])).
      { right; split; [by apply not_blank_in|by apply spelled_itself]. } { by apply (mk_comment (lit "sound")), absent_occurs. }
      apply (ct_more [] (lit " ") [] [(lit "particles", tp)] _ [] [] []); [left; split; [by apply blanks|done]| |apply ct_end; left; split; [constructor|done]].
      apply mk_element. apply (el_full (lit "particles") ap (lit " type='&#99;sv'") [] _ _ _ (lit " ")); [by apply name_ok_name| |constructor| |by apply blanks].
      * apply (at_one (lit "type") (lit "csv") (lit " ") [] [] "'" (lit "&#99;sv") [] []); [done|by apply blanks|constructor|constructor|by apply name_ok_name|by left| |constructor].
        apply (sp_number "'" "&#" 10 (lit "99") 99 (lit "c") (lit "sv") (lit "sv")); [by left|done| |by apply (en_one 99)|by apply spelled_itself].
        apply (nm_digit 10 0 "9" 9); [by apply (d_decimal 9), Nat.ltb_lt|done|]. apply (nm_digit 10 9 "9" 9); [by apply (d_decimal 9), Nat.ltb_lt|done|]. apply nm_end.
      * apply (ct_more (lit "a < ") (lit "a &lt; ") (lit "<b>") [] (lit "<![CDATA[<b>]]>") (lit "c") [] (lit "c")).
        -- right. split; [by apply not_blank_in|]. do 2 (apply sp_plain; [done|done|]). apply (sp_named "<" "<" "&lt;" (lit " ") (lit " ")); [constructor|]. by apply spelled_itself.
        -- by apply (mk_cdata (lit "<b>")), absent_occurs.
        -- apply ct_end. right. split; [by apply not_blank_in|by apply spelled_itself].
  - assert (forall s, forallb (fun c => negb (Ascii.eqb c nul)) s = true -> nul ∉ s) as HN; [|by apply HN].
    intros s H Hin%elem_of_list_In. rewrite forallb_forall in H. specialize (H _ Hin). done.
Qed.
Example example_read : read_xml (before_text ++ root_text ++ lit " ") = Some the_tree.
Proof. apply (C85_reads _ _ _ _ example_document). Qed.
(** The script of the static scene with its own numbers. *)
Example example_script_text hs hl ecs gc ds spp mid central : exists xml,
  read_xml (script_text (N := B64num) exact_text static_doubles (static_pressure (N := B64num) (stL0 static_doubles) 50 100)) = Some xml /\
  loads_as (N := B64num) hs hl ecs gc ds spp mid central stod get_double xml static_doubles (static_pressure (N := B64num) (stL0 static_doubles) 50 100).
Proof.
  apply (C85_static exact_text hs hl ecs gc ds spp mid central static_doubles 50 100 exact_python static_doubles_finite); [exact thousandth|lia|lia| |].
  - exists 3%Z. split; [|lia]. vm_cast_no_check (@eq_refl (option Z) (Some 3%Z)).
  - change (stSteps static_doubles) with 100%Z. lia.
Qed.
(** A file that ends after the root's first tag, one without a root, and an empty one: nothing is written. *)
Definition text_outcome (s : text) : option (list (string * string) * ending (N := F64num)) :=
  match program default_config in_hundredths hundredths hundredths 100 s with Some (l, e) => Some (show l, e) | None => None end.
Example example_cut : text_outcome (lit "<openmps><condition>") = Some ([], Terminated) /\ text_outcome (lit "<?xml version='1.0'?><!-- x -->") = Some ([], Terminated) /\
  text_outcome [] = Some ([], Terminated).
Proof. split; [compute_run|split; compute_run]. Qed.
(** White space alone between two pieces of markup is lost, even in a table: here two rows become one. *)
Example example_lost_line : read_xml (lit "<p>0, 1<!--a-->" ++ [newline] ++ lit "<!--b-->0, 2</p>") =
  Some (Tree [] [(lit "p", Tree (lit "0, 10, 2") [(lit "<xmlcomment>", Tree (lit "a") []); (lit "<xmlcomment>", Tree (lit "b") [])])]).
Proof. vm_compute. reflexivity. Qed.
(** A Greek letter by its number. *)
Example example_spelled : spelled "<" [octet 206; octet 177] (lit "&#x3b1;") /\ spelled "<" [octet 206; octet 177] (lit "&#945;").
Proof.
  split.
  - apply (sp_number "<" "&#x" 16 (lit "3b1") 945 [octet 206; octet 177] [] []); [by right|done| |apply (en_two 14 49); unfold six_bits; lia|constructor].
    apply (nm_digit 16 0 "3" 3); [apply (d_decimal 3); lia|done|]. apply (nm_digit 16 3 "b" 11); [apply (d_lower 1); lia|done|].
    apply (nm_digit 16 59 "1" 1); [apply (d_decimal 1); lia|done|]. apply nm_end.
  - apply (sp_number "<" "&#" 10 (lit "945") 945 [octet 206; octet 177] [] []); [by left|done| |apply (en_two 14 49); unfold six_bits; lia|constructor].
    apply (nm_digit 10 0 "9" 9); [apply (d_decimal 9); lia|done|]. apply (nm_digit 10 9 "4" 4); [apply (d_decimal 4); lia|done|].
    apply (nm_digit 10 94 "5" 5); [apply (d_decimal 5); lia|done|]. apply nm_end.
Qed.
(** Two files that differ in comments and layout. *)
Definition plain_root : text := lit "<openmps>" ++ lit "<!--x-->" ++ lit "</openmps>".
Example example_commented : document (Tree [] [(lit "openmps", Tree [] [(lit "<xmlcomment>", Tree (lit "x") [])])]) [] plain_root [] /\
  document (Tree [] [(lit "<xmlcomment>", Tree (lit " y ") []); (lit "openmps", Tree [] [])]) (lit "<!-- y -->") (lit "<openmps />") (lit " ") /\
  uncommented (Tree [] [(lit "openmps", Tree [] [(lit "<xmlcomment>", Tree (lit "x") [])])]) =
  uncommented (Tree [] [(lit "<xmlcomment>", Tree (lit " y ") []); (lit "openmps", Tree [] [])]).
Proof.
  assert (forall s, forallb (fun c => negb (Ascii.eqb c nul)) s = true -> nul ∉ s) as HN.
  { intros s H Hin%elem_of_list_In. rewrite forallb_forall in H. specialize (H _ Hin). done. }
  split; [|split; [|reflexivity]].
  - exists [], (lit "openmps"), (Tree [] [(lit "<xmlcomment>", Tree (lit "x") [])]), []. split; [apply ms_end; constructor|]. split; [|split; [apply ms_end; constructor|split; [done|by apply HN]]].
    apply (el_full (lit "openmps") [] [] [] [] [(lit "<xmlcomment>", Tree (lit "x") [])] (lit "<!--x-->") []); [by apply name_ok_name|constructor|constructor| |constructor].
    apply (ct_more [] [] [] [(lit "<xmlcomment>", Tree (lit "x") [])] (lit "<!--x-->") [] [] []); [left; split; [constructor|done]|by apply (mk_comment (lit "x")), absent_occurs|].
    apply ct_end. left. split; [constructor|done].
  - exists [(lit "<xmlcomment>", Tree (lit " y ") [])], (lit "openmps"), (Tree [] []), []. split; [|split; [|split; [by apply ms_end, blanks|split; [done|by apply HN]]]].
    + apply (ms_comment [] (lit " y ") [] []); [constructor|by apply absent_occurs|]. apply ms_end. constructor.
    + apply (el_empty (lit "openmps") [] [] (lit " ")); [by apply name_ok_name|constructor|by apply blanks].
Qed.

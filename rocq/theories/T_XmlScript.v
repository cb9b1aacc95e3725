(** Property theorems: the files of the benchmark scripts, from their text (C85, C74). *)
From Coq Require Import String Ascii ZArith.
From Verif Require Import T_Csv S_Script P_Xml T_Xml T_Script.
From Flocq Require Import Core BinarySingleNaN.
From stdpp Require Import list.

Lemma escape_spelled stop v : stop = "034"%char \/ stop = "<"%char -> spelled stop v (py_escape v).
Proof.
  intros Hs. induction v as [|c v IH]; [constructor|]. unfold py_escape. cbn [flat_map]. fold (py_escape v).
  destruct (Ascii.eqb c "&") eqn:E1; [apply Ascii.eqb_eq in E1 as ->; by apply sp_named; [constructor|]|].
  destruct (Ascii.eqb c "<") eqn:E2; [apply Ascii.eqb_eq in E2 as ->; by apply sp_named; [constructor|]|].
  destruct (Ascii.eqb c "034") eqn:E3; [apply Ascii.eqb_eq in E3 as ->; by apply sp_named; [constructor|]|].
  destruct (Ascii.eqb c ">") eqn:E4; [apply Ascii.eqb_eq in E4 as ->; by apply sp_named; [constructor|]|].
  apply Ascii.eqb_neq in E1, E2, E3. cbn [app]. apply sp_plain; [|done|done]. by destruct Hs as [-> | ->].
Qed.
Definition name_ok (s : text) : bool := negb (bool_decide (s = [])) && forallb (fun c => attribute_name_char c && negb (one_of "&'" c) && negb (Ascii.eqb c "034")) s.
Lemma one_of_true l c : c ∈ lit l -> one_of l c = true.
Proof. intros H. apply existsb_exists. exists c. split; [by apply elem_of_list_In|apply Ascii.eqb_refl]. Qed.
Lemma name_ok_name s : name_ok s = true -> xml_name s.
Proof.
  unfold name_ok. intros [H1 H2]%andb_true_iff. split; [intros ->; done|]. rewrite forallb_forall in H2. apply list.Forall_forall. intros c Hc%elem_of_list_In. specialize (H2 c Hc).
  rewrite !andb_true_iff in H2. destruct H2 as [[H2 H3] H4]. unfold attribute_name_char in H2. rewrite negb_true_iff, orb_false_iff in H2. destruct H2 as [H2 H5].
  split; [|split].
  - intros Hb%xml_space_true. by rewrite Hb in H2.
  - intros Hin. change (c ∈ ["/"; "<"; ">"; "="; "?"; "!"; "&"; "'"]%char) in Hin.
    assert (c ∈ lit "/<>=?!" \/ c ∈ lit "&'") as [H%one_of_true|H%one_of_true]; [|by rewrite H in H5|by rewrite H in H3].
    change (c ∈ ["/"; "<"; ">"; "="; "?"; "!"]%char \/ c ∈ ["&"; "'"]%char). rewrite !elem_of_cons in *. tauto.
  - intros ->. done.
Qed.
Lemma blanks w : forallb xml_space w = true -> blank w.
Proof. intros H. rewrite forallb_forall in H. apply list.Forall_forall. intros c Hc%elem_of_list_In. by apply xml_space_blank, H. Qed.
Lemma one_attribute name v : xml_name (lit name) -> attributes_text [(lit name, Tree v [])] (py_attribute name v).
Proof.
  intros Hn. unfold py_attribute. change (lit name ++ lit "=" ++ ["034"%char] ++ py_escape v ++ ["034"%char]) with (lit name ++ [] ++ lit "=" ++ [] ++ "034"%char :: py_escape v ++ "034"%char :: []).
  apply (at_one (lit name) v (lit " ") [] [] "034" (py_escape v) [] []); [done|by apply blanks|constructor|constructor|done|by right|apply escape_spelled; by left|constructor].
Qed.
Lemma setting_element e : xml_name (lit e.1) -> element_text (lit e.1) (script_entry [] e).2 (lit "<" ++ lit e.1 ++ py_attribute "value" e.2 ++ lit "/>").
Proof.
  intros Hn. change (lit "/>") with ([] ++ lit "/>"). change (script_entry [] e).2 with (tree_of [(lit "value", Tree e.2 [])] [] []).
  apply el_empty; [done| |constructor]. apply one_attribute. by apply name_ok_name.
Qed.
Lemma group_content l w w' : Forall (fun e => xml_name (lit e.1)) l -> blank w -> blank w' -> content_text [] (map (script_entry []) l) (w ++ mjoin (map py_setting l) ++ w').
Proof.
  intros HF. revert w. induction HF as [|e l He _ IH]; intros w Hw Hw'.
  - apply ct_end. left. split; [|done]. by apply Forall_app.
  - change (mjoin (map py_setting (e :: l))) with (py_setting e ++ mjoin (map py_setting l)). unfold py_setting at 1.
    replace (w ++ _ ++ w') with ((w ++ [tab; tab]) ++ (lit "<" ++ lit e.1 ++ py_attribute "value" e.2 ++ lit "/>") ++ ([newline] ++ mjoin (map py_setting l) ++ w'))
      by (by rewrite <- !app_assoc).
    change (map (script_entry []) (e :: l)) with ([script_entry [] e] ++ map (script_entry []) l).
    apply (ct_more [] (w ++ [tab; tab]) [] [script_entry [] e] _ []).
    + left. split; [|done]. apply Forall_app. split; [done|]. by apply blanks.
    + change (script_entry [] e) with (lit e.1, (script_entry [] e).2). apply mk_element. by apply setting_element.
    + apply IH; [by apply blanks|done].
Qed.
Definition group_element (name : string) (l : list (string * text)) : text :=
  lit "<" ++ lit name ++ lit ">" ++ ([newline] ++ mjoin (map py_setting l) ++ [tab]) ++ lit "</" ++ lit name ++ lit ">".
Lemma group_is name l : py_group name l = [tab] ++ group_element name l ++ [newline].
Proof. unfold py_group, group_element. by rewrite <- !app_assoc. Qed.
Lemma group_markup name l : xml_name (lit name) -> Forall (fun e => xml_name (lit e.1)) l ->
  markup_text [] [(lit name, Tree [] (map (script_entry []) l))] (group_element name l).
Proof.
  intros Hn Hl. apply mk_element. apply (el_full (lit name) [] [] [] [] _ _ []); [done|constructor|constructor| |constructor].
  apply group_content; [done|by apply blanks..].
Qed.

Lemma names_ok (l : list (string * text)) : forallb (fun e => name_ok (lit e.1)) l = true -> Forall (fun e => xml_name (lit e.1)) l.
Proof. intros H. rewrite forallb_forall in H. apply list.Forall_forall. intros e He%elem_of_list_In. by apply name_ok_name, H. Qed.
Section Script.
  Context {N : num} (py_str : N -> text) (st : settings N) (sc : scene N).
  Definition particles_element : text := lit "<" ++ lit "particles" ++ py_attribute "type" (lit "csv") ++ [] ++ lit ">" ++ py_escape (script_csv py_str (scParts sc)) ++ lit "</" ++ lit "particles" ++ [] ++ lit ">".
  Definition root_element : text :=
    lit "<" ++ lit "openmps" ++ [] ++ [] ++ lit ">" ++
      (([newline] ++ [tab]) ++ group_element "condition" (script_condition py_str st) ++
       (([newline] ++ [tab]) ++ group_element "environment" (script_environment py_str st ++ script_corners py_str sc) ++
        (([newline] ++ [tab]) ++ particles_element ++ [newline])))
    ++ lit "</" ++ lit "openmps" ++ [] ++ lit ">".
  Definition declaration : text := lit "<?" ++ (lit "xml version=" ++ ["034"%char] ++ lit "1.0" ++ ["034"%char] ++ lit " ") ++ lit "?>" ++ [newline].
  Lemma text_is : script_text py_str st sc = declaration ++ root_element ++ [newline].
  Proof. unfold script_text, declaration, root_element, particles_element. rewrite !group_is. rewrite <- !app_assoc. reflexivity. Qed.
  Lemma csv_not_blank : ~ blank (py_escape (script_csv py_str (scParts sc))).
  Proof. intros H. change (blank ("T"%char :: py_escape (tail (script_csv py_str (scParts sc))))) in H. inversion H as [|? ? H0]; subst. by destruct H0 as [|[|[|]]]. Qed.
  Lemma root_written : element_text (lit "openmps") (Tree [] (tree_children (match tree_children (script_tree py_str [] st sc) with [(_, t)] => t | _ => Tree [] [] end))) root_element.
  Proof.
    cbn [script_tree tree_children]. unfold root_element.
    apply (el_full (lit "openmps") [] [] [] [] _ _ []); [by apply name_ok_name|constructor|constructor| |constructor].
    assert (blank ([newline] ++ [tab])) as HB by (by apply blanks).
    apply (ct_more [] _ [] [_] _ []); [by left|apply group_markup; [by apply name_ok_name|by apply names_ok]|].
    apply (ct_more [] _ [] [_] _ []); [by left|apply group_markup; [by apply name_ok_name|by apply names_ok]|].
    apply (ct_more [] _ [] [(lit "particles", _)] _ [] []); [by left| |apply ct_end; left; split; [by apply blanks|done]].
    apply mk_element.
    change (Tree (script_csv py_str (scParts sc)) _) with (tree_of [(lit "type", Tree (lit "csv") [])] (script_csv py_str (scParts sc)) []).
    apply el_full; [by apply name_ok_name|apply one_attribute; by apply name_ok_name|constructor| |constructor].
    apply ct_end. right. split; [apply csv_not_blank|]. apply escape_spelled. by right.
  Qed.
End Script.

(** ** No NUL *)
Lemma nul_lit (s : string) : forallb (fun c => negb (Ascii.eqb c nul)) (lit s) = true -> nul ∉ lit s.
Proof. intros H Hin%elem_of_list_In. rewrite forallb_forall in H. specialize (H _ Hin). by rewrite Ascii.eqb_refl in H. Qed.
Lemma nul_escape v : nul ∉ v -> nul ∉ py_escape v.
Proof.
  induction v as [|c v IH]; [done|]. intros [H1 H2]%not_elem_of_cons. unfold py_escape. cbn [flat_map]. fold (py_escape v). apply not_elem_of_app. split; [|by apply IH].
  destruct (Ascii.eqb c "&"); [by apply nul_lit|]. destruct (Ascii.eqb c "<"); [by apply nul_lit|]. destruct (Ascii.eqb c "034"); [by apply nul_lit|].
  destruct (Ascii.eqb c ">"); [by apply nul_lit|]. set_solver.
Qed.
Lemma nul_digit : ~ digit nul.
Proof. intros [H _]. change (48 <= 0)%nat in H. lia. Qed.
Lemma nul_print_int z : nul ∉ print_int z.
Proof.
  destruct (print_int_cases z) as (u & _ & [[-> _]|[-> _]]).
  - intros H. pose proof (uint_digits_digit u) as HF. rewrite list.Forall_forall in HF. rewrite uint_text_digits_eq in H. apply HF in H. by apply nul_digit in H.
  - intros [H|H]%elem_of_cons; [done|]. pose proof (uint_digits_digit u) as HF. rewrite list.Forall_forall in HF. rewrite uint_text_digits_eq in H. apply HF in H. by apply nul_digit in H.
Qed.
Lemma nul_settings (l : list (string * text)) : Forall (fun e => nul ∉ lit e.1 /\ nul ∉ e.2) l -> nul ∉ mjoin (map py_setting l).
Proof.
  induction 1 as [|e l [H1 H2] _ IH]; [cbn; set_solver|]. change (mjoin (map py_setting (e :: l))) with (py_setting e ++ mjoin (map py_setting l)).
  unfold py_setting, py_attribute. rewrite !not_elem_of_app. repeat split; try done; try (by apply nul_lit); try by apply nul_escape. all: unfold nul, tab, newline; set_solver.
Qed.
Lemma nul_group name l : nul ∉ lit name -> Forall (fun e => nul ∉ lit e.1 /\ nul ∉ e.2) l -> nul ∉ group_element name l.
Proof.
  intros H1 H2. unfold group_element. rewrite !not_elem_of_app. repeat split; try done; try (by apply nul_lit); try by apply nul_settings. all: unfold nul, tab, newline; set_solver.
Qed.
Section Written.
  Context {N : num} (py_str : N -> text) (st : settings N) (sc : scene N).
  Context (Hs : forall v, v ∈ setting_numbers st sc -> nul ∉ py_str v) (Hc : forall v, v ∈ coordinates (scParts sc) -> nul ∉ py_str v).
  Lemma nul_csv : nul ∉ script_csv py_str (scParts sc).
  Proof.
    unfold script_csv. rewrite !not_elem_of_app. split; [split; [by apply nul_lit|unfold nul, newline; set_solver]|].
    revert Hc. unfold coordinates. induction (scParts sc) as [|p ps IH]; intros HC; [cbn; set_solver|].
    change (mjoin (map (script_line py_str) (p :: ps))) with (script_line py_str p ++ mjoin (map (script_line py_str) ps)). apply not_elem_of_app. split.
    - unfold script_line. rewrite !not_elem_of_app. repeat split; try (by apply nul_lit); try apply nul_print_int; [apply HC; cbn; set_solver..|unfold nul, newline; set_solver].
    - apply IH. intros v Hv. apply HC. cbn [flat_map]. apply elem_of_app. by right.
  Qed.
  Lemma script_document : document (script_tree py_str [] st sc) declaration (root_element py_str st sc) [newline].
  Proof.
    exists [], (lit "openmps"). eexists _, []. split; [|split; [|split; [|split]]]; [| |by apply ms_end, blanks| |].
    - change declaration with ([] ++ lit "<?" ++ (lit "xml version=" ++ ["034"%char] ++ lit "1.0" ++ ["034"%char] ++ lit " ") ++ lit "?>" ++ [newline]).
      apply ms_instruction; [constructor| |by apply ms_end, blanks].
      intros (a & b & E). assert ("?"%char ∈ lit "xml version=" ++ ["034"%char] ++ lit "1.0" ++ ["034"%char] ++ lit " ") as H.
      { rewrite E. change (lit "?>") with ["?"; ">"]%char. set_solver. }
      revert H. rewrite !elem_of_app. assert (forall s, forallb (fun c => negb (Ascii.eqb c "?")) s = true -> "?"%char ∉ s) as HH.
      { intros s H Hin%elem_of_list_In. rewrite forallb_forall in H. specialize (H _ Hin). done. }
      intros [H|[H|[H|[H|H]]]]; revert H; by apply HH.
    - apply root_written.
    - done.
    - fold nul. unfold declaration, root_element, particles_element, py_attribute.
      assert (forall e, e ∈ script_condition py_str st -> nul ∉ e.2) as H1.
      { intros e He. unfold script_condition in He. rewrite !elem_of_cons, elem_of_nil in He. destruct He as [-> | [-> | [-> | [-> | []]]]]; apply Hs; unfold setting_numbers; set_solver. }
      assert (forall e, e ∈ script_environment py_str st ++ script_corners py_str sc -> nul ∉ e.2) as H2.
      { intros e He. unfold script_environment, script_corners in He. rewrite elem_of_app, !elem_of_cons, elem_of_nil in He.
        repeat (destruct He as [He|He]); try done; subst e; try apply nul_print_int; apply Hs; unfold setting_numbers; set_solver. }
      assert (forall l : list (string * text), forallb (fun e => forallb (fun c => negb (Ascii.eqb c nul)) (lit e.1)) l = true -> (forall e, e ∈ l -> nul ∉ e.2) ->
        Forall (fun e => nul ∉ lit e.1 /\ nul ∉ e.2) l) as HF.
      { intros l Hl Hv. apply list.Forall_forall. intros e He. split; [|by apply Hv]. apply nul_lit. rewrite forallb_forall in Hl. by apply Hl, elem_of_list_In. }
      rewrite !not_elem_of_app. repeat split; try (by apply nul_lit); try (apply nul_group; [by apply nul_lit|apply HF; [reflexivity|done]]);
        try (apply nul_escape; first [by apply nul_lit|apply nul_csv]); unfold nul, tab, newline; set_solver.
  Qed.
  (** C85.  The text a script writes is read as the tree of C74 (whose text between elements is then empty), so that C74 holds for the files. *)
  Theorem C85_script : read_xml (script_text py_str st sc) = Some (script_tree py_str [] st sc).
  Proof. rewrite text_is. apply (C85_reads _ _ _ _ script_document). Qed.
  (** ... and a file the script has not finished writing is not run, in any build. *)
  Theorem C85_script_cut cfg print_num (parse_num parse_attr : text -> option N) fuel n : (S n < length (script_text py_str st sc))%nat ->
    program cfg print_num parse_num parse_attr fuel (take n (script_text py_str st sc)) = Some ([], Terminated).
  Proof.
    pose proof script_document as HD. rewrite text_is, app_assoc. set (R := declaration ++ root_element py_str st sc).
    intros Hn. rewrite app_length in Hn. change (length [newline]) with 1%nat in Hn. rewrite take_app_le by lia.
    apply (C85_cut cfg print_num parse_num parse_attr fuel _ _ _ _ _ (drop n R) HD).
    - symmetry. apply take_drop.
    - intros E. apply (f_equal length) in E. rewrite drop_length in E. change (length (@nil ascii)) with 0%nat in E. lia.
  Qed.
End Written.

(** ** In binary64 *)
Lemma nul_numeral s neg v : numeral s neg v -> nul ∉ s.
Proof.
  assert (forall ds, Forall digit ds -> nul ∉ ds) as HD. { intros ds HF Hin. rewrite list.Forall_forall in HF. by apply nul_digit, HF. }
  intros (sign & s' & v' & -> & (whole & point & frac & ex & e & -> & Hw & Hf & _ & Hp & He & _) & Hs). rewrite !not_elem_of_app.
  repeat split; [destruct Hs as [[[-> | ->] _]|[-> _]]; unfold nul; set_solver|by apply HD|destruct Hp as [-> |[-> _]]; unfold nul; set_solver|by apply HD|].
  destruct He as [[-> _]|(c & sg & ds & -> & Hc & _ & Hds & Hsg)]; [set_solver|]. apply not_elem_of_cons. split; [by destruct Hc as [-> | ->]|].
  apply not_elem_of_app. split; [destruct Hsg as [[[-> | ->] _]|[-> _]]; unfold nul; set_solver|by apply HD].
Qed.
(** C74, C85.  From the text of the file to the loaded scene, in binary64, with the numbers as Python writes them. *)
Theorem C85_python (py_str : B64 -> text) hs hl ecs gc ds spp mid central (st : settings B64num) (sc : scene B64num) l_0 shape : python_str py_str ->
  (forall v, v ∈ setting_numbers st sc -> is_finite (v : B64) = true) ->
  (forall v, v ∈ coordinates (scParts sc) -> is_finite (v : B64) = true /\ not_tiny v) ->
  laid_out l_0 (scParts sc) shape -> usable_radius (stRatio st) -> (0 <= stSteps st < 2 ^ 64)%Z ->
  exists xml, read_xml (script_text (N := B64num) py_str st sc) = Some xml /\ loads_as (N := B64num) hs hl ecs gc ds spp mid central stod get_double xml st sc.
Proof.
  intros Hpy Hs Hc HL HR HS. assert (forall v : B64, is_finite v = true -> nul ∉ py_str v) as Hn.
  { intros v Hv. destruct (Hpy v Hv) as (_ & x & Hx & _). by eapply nul_numeral. }
  eexists. split; [apply (C85_script (N := B64num)); [intros v Hv; by apply Hn, Hs|intros v Hv; by apply Hn; destruct (Hc v Hv)]|].
  eapply C74_python; eauto.
Qed.
(** ... for the static scene, every size up to 10^8. *)
Theorem C85_static (py_str : B64 -> text) hs hl ecs gc ds spp mid central (st : settings B64num) w h : python_str py_str ->
  Forall (fun v : B64num => is_finite (v : B64) = true)
    [stStart st; stEnd st; stInterval st; stEps st; stCourant st; stG st; stRho st; stNu st; stRatio st; stSurf st] ->
  (/ 10 ^ 12 <= B2R (stL0 st : B64) <= 10 ^ 12)%R -> (0 <= w <= 10 ^ 8)%Z -> (0 <= h <= 10 ^ 8)%Z ->
  usable_radius (stRatio st) -> (0 <= stSteps st < 2 ^ 64)%Z ->
  let sc := static_pressure (N := B64num) (stL0 st) w h in
  exists xml, read_xml (script_text (N := B64num) py_str st sc) = Some xml /\ loads_as (N := B64num) hs hl ecs gc ds spp mid central stod get_double xml st sc.
Proof.
  intros Hpy HF Hl Hw Hh HR HS sc. pose proof (T_Bench.C73_static (N := B64num) (stL0 st) w h ltac:(lia) ltac:(lia)) as HL. fold sc in HL.
  destruct (static_finite st w h HF Hl Hw Hh) as [H1 H2].
  apply (C85_python py_str hs hl ecs gc ds spp mid central st sc (stL0 st) _ Hpy H1 H2 HL HR HS).
Qed.

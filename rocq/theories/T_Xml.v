(** Property theorems: the text of the settings file (C85). *)
From Coq Require Import String Ascii.
From Verif Require Import S_App T_App P_Xml.
From stdpp Require Import list.

(** ** Reading what was written *)
Scheme markup_ind := Induction for markup_text Sort Prop
  with element_ind := Induction for element_text Sort Prop
  with content_ind := Induction for content_text Sort Prop.
Combined Scheme xml_ind from markup_ind, element_ind, content_ind.

Lemma name_first name : xml_name name -> exists c n, name = c :: n /\ name_char c.
Proof. intros [Hn HF]. destruct name as [|c n]; [done|]. inversion HF; subst. eauto. Qed.
Lemma name_is c (x : ascii) : name_char c -> c ∉ lit "/<>=?!&'".
Proof. by intros (_ & H & _). Qed.
Definition opens (s s' : text) : Prop := s = "<"%char :: s' /\ exists c r, s' = c :: r /\ c <> "/"%char.
Definition P_markup (d : text) (l : list (text * ptree)) (s : text) : Prop :=
  exists s' i, opens s s' /\ (forall x, add_item i x = (d ++ x.1, l ++ x.2)) /\
    forall fuel rest, (length s <= S fuel)%nat -> markup (contents fuel) (s' ++ rest) = Some (i, rest).
Definition P_element (name : text) (t : ptree) (s : text) : Prop :=
  exists s', opens s s' /\ forall fuel rest, (length s <= S fuel)%nat -> markup (contents fuel) (s' ++ rest) = Some (Child name t, rest).
Definition P_content (d : text) (l : list (text * ptree)) (s : text) : Prop :=
  forall fuel name w rest, xml_name name -> blank w -> (length s < fuel)%nat ->
    contents fuel (s ++ lit "</" ++ name ++ w ++ lit ">" ++ rest) = Some ((d, l), rest).

Lemma name_markup ct c n : name_char c -> markup ct (c :: n) = element ct (c :: n).
Proof.
  intros H. pose proof (name_is c c H) as Hn. unfold markup. change (lit "?") with ["?"%char]. change (lit "!") with ["!"%char]. rewrite !without_head; [done|..]; intros <-; apply Hn; set_solver.
Qed.
Lemma contents_close fuel s name w rest : blank s -> xml_name name -> blank w ->
  contents (S fuel) (s ++ lit "</" ++ name ++ w ++ lit ">" ++ rest) = Some (([], []), rest).
Proof.
  intros Hs Hn Hw. cbn [contents]. rewrite skip_blank by done. change (lit "</" ++ name ++ w ++ lit ">" ++ rest) with ("<"%char :: "/"%char :: name ++ w ++ lit ">" ++ rest).
  rewrite skip_at by done. destruct (decide _) as [|_]; [done|]. change (without (lit "<") ("<"%char :: "/"%char :: name ++ w ++ lit ">" ++ rest)) with (Some ("/"%char :: name ++ w ++ lit ">" ++ rest)).
  cbn beta iota. change (without (lit "/") ("/"%char :: name ++ w ++ lit ">" ++ rest)) with (Some (name ++ w ++ lit ">" ++ rest)). cbn beta iota.
  rewrite (span_name node_name_char name w (lit ">" ++ rest) name_node node_space Hn Hw eq_refl). cbn [snd]. rewrite skip_blank by done.
  change (lit ">" ++ rest) with (">"%char :: rest). rewrite skip_at by done. done.
Qed.
Lemma contents_markup fuel w s s' i rest x r : blank w -> opens s s' -> markup (contents fuel) (s' ++ rest) = Some (i, rest) -> contents fuel rest = Some (x, r) ->
  contents (S fuel) (w ++ s ++ rest) = Some (add_item i x, r).
Proof.
  intros Hw (-> & c & r' & -> & Hc) HM HC. cbn [contents]. rewrite skip_blank by done. cbn [app]. rewrite skip_at by done. destruct (decide _) as [|_]; [done|].
  change (without (lit "<") ("<"%char :: c :: r' ++ rest)) with (Some (c :: r' ++ rest)). cbn beta iota. change (lit "/") with ["/"%char]. rewrite without_head by done.
  change (c :: r' ++ rest) with ((c :: r') ++ rest). rewrite HM. cbn [mbind option_bind]. by rewrite HC.
Qed.
Lemma contents_data fuel d s rest x r : ~ blank s -> spelled "<" d s -> contents fuel ("<"%char :: rest) = Some (x, r) ->
  contents (S fuel) (s ++ "<"%char :: rest) = Some (add_item (Data d) x, r).
Proof.
  intros Hs Hsp HC. pose proof (spelled_stop _ _ _ (or_introl eq_refl) Hsp) as HF. cbn [contents].
  assert (skip_xml s <> []) as Hne by (intros E; by apply Hs, skip_blank_nil). rewrite skip_ext by done.
  destruct (decide _) as [E|_]; [by apply app_eq_nil in E as [E _]|].
  assert (without (lit "<") (skip_xml s ++ "<"%char :: rest) = None) as ->.
  { destruct (skip_xml s) as [|c s'] eqn:E; [done|]. change (lit "<") with ["<"%char]. apply without_head. intros <-.
    rewrite (span_split xml_space s) in HF. apply Forall_app in HF as [_ HF]. unfold skip_xml in E. rewrite E in HF. inversion HF; subst. done. }
  rewrite span_app; [|exact HF|done]. unfold expand_all. rewrite (expand_spelled _ _ _ _ Hsp) by done. cbn [mbind option_bind]. by rewrite HC.
Qed.

Lemma element_read name attrs sa w ct s t : xml_name name -> attributes_text attrs sa -> blank w -> (t = ">"%char :: s \/ t = "/"%char :: s) ->
  element ct (name ++ sa ++ w ++ t) =
    match without (lit ">") t with
    | Some r => '(x, r) ← ct r; Some (Child name (element_tree attrs x), r)
    | None => r ← without (lit "/>") t; Some (Child name (element_tree attrs ([], [])), r)
    end.
Proof.
  intros Hn Ha Hw Ht. unfold element.
  assert (span node_name_char (name ++ sa ++ w ++ t) = (name, sa ++ w ++ t)) as ->.
  { apply span_app; [destruct Hn as [_ Hn]; eapply Forall_impl; [exact Hn|apply name_node]|].
    assert (match w ++ t with c :: _ => node_name_char c = false | [] => True end) as Hwt.
    { destruct Hw as [|c w Hc _]; [by destruct Ht as [-> | ->]|]. cbn. by apply node_space, xml_space_true. }
    destruct Ha as [|n v w0 ? ? ? ? ? ? Hw0 Hw0']; [done|]. destruct w0 as [|c w0]; [done|]. inversion Hw0'; subst. cbn. by apply node_space, xml_space_true. }
  destruct (decide (name = [])) as [E|_]; [by destruct Hn|].
  assert (skip_xml (w ++ t) = t) as Hs. { rewrite skip_blank by done. destruct Ht as [-> | ->]; by apply skip_at. }
  rewrite (attributes_read attrs sa _ (w ++ t) Ha); [by rewrite Hs| |rewrite Hs; by destruct Ht as [-> | ->]].
  destruct Hn as [Hn _]. rewrite !app_length. destruct name; [done|]. cbn. lia.
Qed.

Lemma comment_read ct c rest : ~ occurs (lit "-->") c -> markup ct (lit "!--" ++ c ++ lit "-->" ++ rest) = Some (Child (lit "<xmlcomment>") (Tree c []), rest).
Proof.
  intros H. change (markup ct (lit "!--" ++ c ++ lit "-->" ++ rest)) with ('(c, r) ← up_to (lit "-->") (c ++ lit "-->" ++ rest); Some (Child (lit "<xmlcomment>") (Tree c []), r)).
  change (lit "-->") with (["-"; "-"]%char ++ [">"%char]) in *. rewrite up_to_app; [done|set_solver|done].
Qed.
Lemma instruction_read ct c rest : ~ occurs (lit "?>") c -> markup ct (lit "?" ++ c ++ lit "?>" ++ rest) = Some (Nothing, rest).
Proof.
  intros H. change (markup ct (lit "?" ++ c ++ lit "?>" ++ rest)) with ('(_, r) ← up_to (lit "?>") (c ++ lit "?>" ++ rest); Some (Nothing, r)).
  change (lit "?>") with (["?"]%char ++ [">"%char]) in *. rewrite up_to_app; [done|set_solver|done].
Qed.
Lemma cdata_read ct c rest : ~ occurs (lit "]]>") c -> markup ct (lit "![CDATA[" ++ c ++ lit "]]>" ++ rest) = Some (Data c, rest).
Proof.
  intros H. change (markup ct (lit "![CDATA[" ++ c ++ lit "]]>" ++ rest)) with ('(d, r) ← up_to (lit "]]>") (c ++ lit "]]>" ++ rest); Some (Data d, r)).
  change (lit "]]>") with (["]"; "]"]%char ++ [">"%char]) in *. rewrite up_to_app; [done|set_solver|done].
Qed.
Lemma name_opens name r : xml_name name -> opens (lit "<" ++ name ++ r) (name ++ r).
Proof. intros (c & n & -> & Hc)%name_first. split; [done|]. exists c, (n ++ r). split; [done|]. intros ->. apply (name_is _ "/"%char Hc). set_solver. Qed.
Lemma name_markup_app ct name r : xml_name name -> markup ct (name ++ r) = element ct (name ++ r).
Proof. intros (c & n & -> & Hc)%name_first. by apply name_markup. Qed.

Lemma xml_read : (forall d l s, markup_text d l s -> P_markup d l s) /\ (forall n t s, element_text n t s -> P_element n t s) /\
  (forall d l s, content_text d l s -> P_content d l s).
Proof.
  apply (xml_ind (fun d l s _ => P_markup d l s) (fun n t s _ => P_element n t s) (fun d l s _ => P_content d l s)).
  - intros c Hc. exists (lit "!--" ++ c ++ lit "-->"), (Child (lit "<xmlcomment>") (Tree c [])). split; [split; [done|by eexists _, _]|]. split; [done|].
    intros fuel rest _. rewrite <- !app_assoc. by apply comment_read.
  - intros c Hc. exists (lit "?" ++ c ++ lit "?>"), Nothing. split; [split; [done|by eexists _, _]|]. split; [by intros []|].
    intros fuel rest _. rewrite <- !app_assoc. by apply instruction_read.
  - intros c Hc. exists (lit "![CDATA[" ++ c ++ lit "]]>"), (Data c). split; [split; [done|by eexists _, _]|]. split; [by intros []|].
    intros fuel rest _. rewrite <- !app_assoc. by apply cdata_read.
  - intros name t s _ (s' & Ho & HR). exists s', (Child name t). split; [done|]. split; [done|]. done.
  - intros name attrs sa w Hn Ha Hw. exists (name ++ sa ++ w ++ lit "/>"). split; [by apply name_opens|]. intros fuel rest _.
    rewrite <- !app_assoc. rewrite name_markup_app by done. rewrite (element_read name attrs sa w _ (lit ">" ++ rest) _ Hn Ha Hw (or_intror eq_refl)). done.
  - intros name attrs sa w d l s w' Hn Ha Hw _ HC Hw'. exists (name ++ sa ++ w ++ lit ">" ++ s ++ lit "</" ++ name ++ w' ++ lit ">"). split; [by apply name_opens|].
    intros fuel rest Hf. rewrite <- !app_assoc. rewrite name_markup_app by done.
    rewrite (element_read name attrs sa w _ (s ++ lit "</" ++ name ++ w' ++ lit ">" ++ rest) (lit ">" ++ s ++ lit "</" ++ name ++ w' ++ lit ">" ++ rest) Hn Ha Hw (or_introl eq_refl)).
    change (without (lit ">") (lit ">" ++ s ++ lit "</" ++ name ++ w' ++ lit ">" ++ rest)) with (Some (s ++ lit "</" ++ name ++ w' ++ lit ">" ++ rest)). cbn beta iota.
    rewrite HC; [done..|]. rewrite !app_length in Hf. cbn in Hf. lia.
  - intros d s [[Hb ->] |[Hb Hsp]] fuel name w rest Hn Hw Hf.
    + destruct fuel as [|fuel]; [lia|]. by apply contents_close.
    + destruct fuel as [|fuel]; [lia|]. assert (0 < length s)%nat. { destruct s; [|cbn; lia]. exfalso. apply Hb. constructor. }
      destruct fuel as [|fuel]; [lia|]. pose proof (contents_close fuel [] name w rest ltac:(constructor) Hn Hw) as HC.
      change (lit "</" ++ name ++ w ++ lit ">" ++ rest) with ("<"%char :: lit "/" ++ name ++ w ++ lit ">" ++ rest) in *. cbn [app] in HC.
      rewrite (contents_data _ d s _ _ _ Hb Hsp HC). cbn. by rewrite app_nil_r.
  - intros d s d1 l1 s1 d2 l2 s2 Hch _ (s1' & i & Ho & Hi & HM) _ HC fuel name w rest Hn Hw Hf.
    rewrite !app_length in Hf. assert (0 < length s1)%nat by (destruct Ho as [-> _]; cbn; lia).
    rewrite <- !app_assoc. set (rest' := s2 ++ lit "</" ++ name ++ w ++ lit ">" ++ rest).
    assert (forall f w0, blank w0 -> (length s1 + length s2 < f)%nat -> contents f (w0 ++ s1 ++ rest') = Some ((d1 ++ d2, l1 ++ l2), rest)) as HB.
    { intros f w0 Hw0 Hf'. destruct f as [|f]; [lia|]. rewrite (contents_markup f w0 s1 s1' i rest' (d2, l2) rest); [by rewrite Hi|done|done|apply HM; lia|].
      apply HC; [done..|lia]. }
    destruct Hch as [[Hb ->] |[Hb Hsp]]; [apply HB; [done|lia]|].
    assert (0 < length s)%nat. { destruct s; [|cbn; lia]. exfalso. apply Hb. constructor. }
    destruct fuel as [|fuel]; [lia|]. pose proof (HB fuel [] ltac:(constructor) ltac:(lia)) as HB0. destruct Ho as (-> & _). cbn [app] in HB0 |- *.
    rewrite (contents_data _ d s _ _ _ Hb Hsp HB0). done.
Qed.

(** ** The document *)
Lemma items_step fuel s : document_items (S fuel) s =
  if decide (skip_xml s = []) then Some ([], [])
  else r ← without (lit "<") (skip_xml s); '(i, r) ← markup (contents (length r)) r; x ← document_items fuel r; Some (add_item i x).
Proof. done. Qed.
Lemma items_blank fuel w s : blank w -> document_items fuel (w ++ s) = document_items fuel s.
Proof. intros Hw. destruct fuel as [|fuel]; [done|]. rewrite !items_step. by rewrite skip_blank. Qed.
Lemma items_markup fuel s : document_items (S fuel) ("<"%char :: s) =
  '(i, r) ← markup (contents (length s)) s; x ← document_items fuel r; Some (add_item i x).
Proof. rewrite items_step. rewrite skip_at by done. by destruct (decide _). Qed.
Lemma items_mono fuel fuel' s x : document_items fuel s = Some x -> (fuel <= fuel')%nat -> document_items fuel' s = Some x.
Proof.
  revert fuel' s x. induction fuel as [|fuel IH]; intros fuel' s x; [done|]. destruct fuel' as [|fuel']; [lia|]. rewrite !items_step. intros H Hf.
  destruct (decide _); [done|]. destruct (without _ _) as [r|]; [|done]. cbn [mbind option_bind] in *. destruct (markup _ r) as [[i r']|]; [|done]. cbn [mbind option_bind] in *.
  destruct (document_items fuel r') as [y|] eqn:E; [|done]. by rewrite (IH fuel' _ _ E) by lia.
Qed.
Lemma misc_read l s : misc_text l s -> forall f F rest y, document_items f rest = Some y -> (f + length s <= F)%nat -> document_items F (s ++ rest) = Some (y.1, l ++ y.2).
Proof.
  induction 1 as [w Hw|w c l s Hw Hc _ IH|w c l s Hw Hc _ IH]; intros f F rest y Hy HF.
  - rewrite items_blank by done. destruct y. cbn. apply (items_mono f); [done|lia].
  - rewrite <- !app_assoc. rewrite items_blank by done. rewrite !app_length in HF. cbn in HF. destruct F as [|F]; [lia|].
    change (lit "<!--" ++ c ++ lit "-->" ++ s ++ rest) with ("<"%char :: lit "!--" ++ c ++ lit "-->" ++ s ++ rest).
    rewrite items_markup, (comment_read _ _ _ Hc). cbn [mbind option_bind]. rewrite (IH f F rest y Hy) by lia. done.
  - rewrite <- !app_assoc. rewrite items_blank by done. rewrite !app_length in HF. cbn in HF. destruct F as [|F]; [lia|].
    change (lit "<?" ++ c ++ lit "?>" ++ s ++ rest) with ("<"%char :: lit "?" ++ c ++ lit "?>" ++ s ++ rest).
    rewrite items_markup, (instruction_read _ _ _ Hc). cbn [mbind option_bind]. rewrite (IH f F rest y Hy) by lia. done.
Qed.
Lemma misc_refused l s : misc_text l s -> forall F rest, (forall f, document_items f rest = None) -> document_items F (s ++ rest) = None.
Proof.
  induction 1 as [w Hw|w c l s Hw Hc _ IH|w c l s Hw Hc _ IH]; intros F rest Hy.
  - by rewrite items_blank.
  - rewrite <- !app_assoc. rewrite items_blank by done. destruct F as [|F]; [done|].
    change (lit "<!--" ++ c ++ lit "-->" ++ s ++ rest) with ("<"%char :: lit "!--" ++ c ++ lit "-->" ++ s ++ rest).
    rewrite items_markup, (comment_read _ _ _ Hc). cbn [mbind option_bind]. by rewrite IH.
  - rewrite <- !app_assoc. rewrite items_blank by done. destruct F as [|F]; [done|].
    change (lit "<?" ++ c ++ lit "?>" ++ s ++ rest) with ("<"%char :: lit "?" ++ c ++ lit "?>" ++ s ++ rest).
    rewrite items_markup, (instruction_read _ _ _ Hc). cbn [mbind option_bind]. by rewrite IH.
Qed.
(** A document begins with white space or <, so it has no byte order mark of its own. *)
Lemma no_mark s : match s with c :: _ => blank_char c \/ c = "<"%char | [] => True end -> without byte_order_mark s = None.
Proof. destruct s as [|c s]; [done|]. intros H. apply without_head. intros <-. by destruct H as [[|[|[|]]]|]. Qed.
Lemma misc_first l s rest : misc_text l s -> (match rest with c :: _ => blank_char c \/ c = "<"%char | [] => True end) ->
  match s ++ rest with c :: _ => blank_char c \/ c = "<"%char | [] => True end.
Proof.
  intros H Hr. assert (forall w t, blank w -> match t with c :: _ => blank_char c \/ c = "<"%char | [] => True end ->
    match w ++ t with c :: _ => blank_char c \/ c = "<"%char | [] => True end) as HB.
  { intros w t Hw Ht. destruct Hw; [done|]. by left. }
  destruct H as [w Hw|w c l s Hw _ _|w c l s Hw _ _]; [by apply HB|rewrite <- app_assoc; apply HB; [done|by right]..].
Qed.
Lemma span_nul s : nul ∉ s -> (span (fun c => negb (Ascii.eqb c nul)) s).1 = s.
Proof.
  intros Hn. pose proof (span_app (fun c => negb (Ascii.eqb c nul)) s []) as H. rewrite app_nil_r in H. rewrite H; [done| |done].
  apply list.Forall_forall. intros c Hc. destruct (Ascii.eqb c nul) eqn:E; [|done]. by apply Ascii.eqb_eq in E as ->.
Qed.
Lemma read_items s : nul ∉ s -> match s with c :: _ => blank_char c \/ c = "<"%char | [] => True end ->
  read_xml s = (x ← document_items (S (length s)) s; Some (Tree x.1 x.2)).
Proof. intros Hn Hs. unfold read_xml. rewrite (span_nul s Hn). by rewrite (no_mark _ Hs). Qed.
Lemma read_marked s : nul ∉ s -> match s with c :: _ => blank_char c \/ c = "<"%char | [] => True end -> read_xml (byte_order_mark ++ s) = read_xml s.
Proof.
  intros Hn Hs. rewrite (read_items s Hn Hs). unfold read_xml. rewrite span_nul; [by rewrite without_app|].
  intros Hc. apply elem_of_app in Hc as [Hc|Hc]; [|done]. revert Hc. unfold byte_order_mark, nul. set_solver.
Qed.
Lemma element_opens n t s : element_text n t s -> exists s', s = "<"%char :: s'.
Proof. destruct 1; by eexists. Qed.
(** C85.  A settings file is read as the tree it stands for: however its attributes are quoted and its characters spelled, whatever the white space in tags and
    between elements, with comments and processing instructions anywhere, with or without a byte order mark. *)
Theorem C85_reads t before root after : document t before root after ->
  read_xml (before ++ root ++ after) = Some t /\ read_xml (byte_order_mark ++ before ++ root ++ after) = Some t.
Proof.
  intros (l1 & name & r & l2 & H1 & He & H2 & -> & Hn). destruct (element_opens _ _ _ He) as [root' Hroot].
  assert (match before ++ root ++ after with c :: _ => blank_char c \/ c = "<"%char | [] => True end) as Hf.
  { apply (misc_first _ _ _ H1). rewrite Hroot. by right. }
  rewrite (read_marked _ Hn Hf). assert (read_xml (before ++ root ++ after) = Some (Tree [] (l1 ++ (name, r) :: l2))) as HR; [|done].
  rewrite (read_items _ Hn Hf).
  assert (document_items (S (length after)) after = Some ([], l2)) as Ha.
  { rewrite <- (app_nil_r after) at 2. rewrite (misc_read _ _ H2 1 (S (length after)) [] ([], [])); [by rewrite app_nil_r|done|lia]. }
  assert (document_items (S (S (length after))) (root ++ after) = Some ([], (name, r) :: l2)) as Hr.
  { destruct (proj1 (proj2 xml_read) _ _ _ He) as (s' & (Hs' & _) & HM). rewrite Hs'. cbn [app]. rewrite items_markup.
    rewrite HM by (rewrite Hs', app_length; cbn; lia). cbn [mbind option_bind]. by rewrite Ha. }
  rewrite (misc_read _ _ H1 _ (S (length (before ++ root ++ after))) _ _ Hr); [done|]. rewrite Hroot, !app_length. cbn. lia.
Qed.

(** ** Files cut short *)
Lemma span_pair p s a b x : span p s = (a, b) -> b <> [] -> span p (s ++ x) = (a, b ++ x).
Proof. intros E Hb. rewrite span_ext; by rewrite E. Qed.
Lemma attributes_ext fuel : forall fuel' s l r x, attributes fuel s = Some (l, r) -> r <> [] -> (fuel <= fuel')%nat -> attributes fuel' (s ++ x) = Some (l, r ++ x).
Proof.
  induction fuel as [|fuel IH]; intros fuel' s l r x; [done|]. destruct fuel' as [|fuel']; [lia|]. cbn [attributes]. intros H Hr Hf.
  destruct (span attribute_name_char s) as [name s1] eqn:E. destruct (decide (name = [])) as [->|Hname].
  - injection H as <- <-. pose proof (span_split attribute_name_char s) as Hs. rewrite E in Hs. cbn in Hs. subst s1. by rewrite (span_pair _ _ _ _ x E Hr).
  - destruct (without (lit "=") (skip_xml s1)) as [s2|] eqn:E2; [|done]. cbn [mbind option_bind] in H.
    assert (skip_xml s1 <> []) as Hs1 by (intros E0; by rewrite E0 in E2). assert (s1 <> []) as Hs1' by (by intros ->).
    rewrite (span_pair _ _ _ _ x E Hs1'). destruct (decide (name = [])) as [|_]; [done|]. rewrite skip_ext by done. rewrite (without_ext _ _ _ x E2). cbn [mbind option_bind].
    destruct (skip_xml s2) as [|q s3] eqn:E3; [done|]. assert (skip_xml s2 <> []) as Hs2 by (by rewrite E3). rewrite skip_ext by done. rewrite E3. cbn [app].
    destruct (quote_char q); [|done]. destruct (span _ s3) as [raw [|c s4]] eqn:E4; [done|]. rewrite (span_pair _ _ _ _ x E4) by done. cbn [app].
    destruct (expand_all raw) as [v|]; [|done]. cbn [mbind option_bind] in *. destruct (attributes fuel (skip_xml s4)) as [[l' r']|] eqn:E5; [|done]. cbn [mbind option_bind] in H.
    injection H as <- <-. destruct (skip_xml s4) as [|c5 s5] eqn:E6.
    + exfalso. destruct fuel; [done|]. cbn in E5. by injection E5 as <- <-.
    + assert (skip_xml s4 <> []) as Hs4 by (by rewrite E6). rewrite skip_ext, E6 by done. rewrite (IH fuel' _ _ _ x E5 Hr) by lia. done.
Qed.
Definition extends (ct ct' : text -> option (text * list (text * ptree) * text)) : Prop := forall s y r x, ct s = Some (y, r) -> ct' (s ++ x) = Some (y, r ++ x).
Lemma element_ext ct ct' s i r x : extends ct ct' -> element ct s = Some (i, r) -> element ct' (s ++ x) = Some (i, r ++ x).
Proof.
  intros Hct. unfold element. destruct (span node_name_char s) as [name s1] eqn:E. destruct (decide (name = [])) as [|Hname]; [done|].
  destruct (attributes (length s) (skip_xml s1)) as [[attrs r1]|] eqn:EA; [|done]. cbn [mbind option_bind]. intros H.
  assert (r1 <> []) as Hr1 by (intros ->; done).
  assert (skip_xml s1 <> []) as Hs1. { intros E0. rewrite E0 in EA. destruct (length s); [done|]. cbn in EA. by injection EA as <- <-. }
  assert (s1 <> []) as Hs1' by (by intros ->).
  rewrite (span_pair _ _ _ _ x E Hs1'). destruct (decide (name = [])) as [|_]; [done|]. rewrite skip_ext by done.
  rewrite (attributes_ext _ (length (s ++ x)) _ _ _ x EA Hr1) by (rewrite app_length; lia). cbn [mbind option_bind].
  destruct (without (lit ">") r1) as [r2|] eqn:E2.
  - rewrite (without_ext _ _ _ x E2). destruct (ct r2) as [[y r3]|] eqn:E3; [|done]. cbn [mbind option_bind] in H. injection H as <- <-. by rewrite (Hct _ _ _ x E3).
  - destruct (without (lit "/>") r1) as [r2|] eqn:E3; [|done]. cbn [mbind option_bind] in H. injection H as <- <-.
    rewrite (without_ext _ _ _ x E3). apply without_Some in E3. rewrite E3. done.
Qed.
Lemma up_to_gt p s : ">"%char ∉ p -> (exists y, p = s ++ y) -> up_to (lit ">") s = None.
Proof.
  intros Hp [y ->]. destruct (up_to (lit ">") s) as [[a r]|] eqn:E; [|done]. exfalso. apply up_to_Some in E as ->. apply Hp. change (lit ">") with [">"%char]. set_solver.
Qed.
Lemma doctype_ext s : forall n r x, doctype n s = Some r -> doctype n (s ++ x) = Some (r ++ x).
Proof.
  induction s as [|c s IH]; intros n r x; [done|]. cbn. destruct (Ascii.eqb c "["); [apply IH|]. destruct (Ascii.eqb c "]"); [apply IH|].
  destruct (Ascii.eqb c ">" && Nat.eqb n 0); [by intros [= <-]|apply IH].
Qed.
Lemma markup_ext ct ct' s i r x : extends ct ct' -> markup ct s = Some (i, r) -> markup ct' (s ++ x) = Some (i, r ++ x).
Proof.
  intros Hct. destruct s as [|c0 s0]; [done|]. set (s := c0 :: s0). unfold markup.
  assert (forall p a, p = [a] -> without p s = None -> without p (s ++ x) = None) as H1.
  { intros p a -> H. cbn in H |- *. by destruct (Ascii.eqb a c0). }
  destruct (without (lit "?") s) as [s1|] eqn:E1.
  { rewrite (without_ext _ _ _ x E1). destruct (up_to (lit "?>") s1) as [[c s2]|] eqn:E2; [|done]. cbn [mbind option_bind]. intros [= <- <-]. by rewrite (up_to_ext (lit "?>") _ _ _ x ltac:(discriminate) E2). }
  rewrite (H1 (lit "?") "?"%char eq_refl E1). destruct (without (lit "!") s) as [s1|] eqn:E2.
  2:{ rewrite (H1 (lit "!") "!"%char eq_refl E2). by apply element_ext. }
  rewrite (without_ext _ _ _ x E2). clear s E1 E2 H1.
  assert (forall i r, ('(_, r) ← up_to (lit ">") s1; Some (Nothing, r)) = Some (i, r) -> ('(_, r) ← up_to (lit ">") (s1 ++ x); Some (Nothing, r)) = Some (i, r ++ x)) as HO.
  { intros i' r'. destruct (up_to (lit ">") s1) as [[c s2]|] eqn:E; [|done]. cbn [mbind option_bind]. intros [= <- <-]. by rewrite (up_to_ext (lit ">") _ _ _ x ltac:(discriminate) E). }
  assert (forall p i r, ">"%char ∉ p -> (exists y, p = s1 ++ y) -> ('(_, r) ← up_to (lit ">") s1; Some (Nothing, r)) = Some (i, r) -> False) as HN.
  { intros p i' r' Hp Hy. by rewrite (up_to_gt p s1 Hp Hy). }
  assert (">"%char ∉ lit "--") as G1 by (change (lit "--") with ["-"; "-"]%char; set_solver).
  assert (">"%char ∉ lit "[CDATA[") as G2 by (change (lit "[CDATA[") with ["["; "C"; "D"; "A"; "T"; "A"; "["]%char; set_solver).
  assert (">"%char ∉ lit "DOCTYPE") as G3 by (change (lit "DOCTYPE") with ["D"; "O"; "C"; "T"; "Y"; "P"; "E"]%char; set_solver).
  destruct (without (lit "--") s1) as [s2|] eqn:E1.
  { rewrite (without_ext _ _ _ x E1). destruct (up_to (lit "-->") s2) as [[c s3]|] eqn:E; [|done]. cbn [mbind option_bind]. intros [= <- <-]. by rewrite (up_to_ext (lit "-->") _ _ _ x ltac:(discriminate) E). }
  destruct (without (lit "[CDATA[") s1) as [s2|] eqn:E2.
  { assert (without (lit "--") (s1 ++ x) = None) as ->. { apply without_Some in E2 as ->. done. }
    rewrite (without_ext _ _ _ x E2). destruct (up_to (lit "]]>") s2) as [[c s3]|] eqn:E; [|done]. cbn [mbind option_bind]. intros [= <- <-]. by rewrite (up_to_ext (lit "]]>") _ _ _ x ltac:(discriminate) E). }
  destruct (without (lit "DOCTYPE") s1) as [s2|] eqn:E3.
  { assert (without (lit "--") (s1 ++ x) = None /\ without (lit "[CDATA[") (s1 ++ x) = None) as [-> ->]. { apply without_Some in E3 as ->. done. }
    rewrite (without_ext _ _ _ x E3). destruct s2 as [|c s2].
    - intros H. exfalso. apply (HN _ _ _ G3) in H; [done|]. exists []. apply without_Some in E3. by rewrite app_nil_r in E3 |- *.
    - cbn [app]. destruct (xml_space c); [|apply HO]. destruct (doctype 0 (c :: s2)) as [r'|] eqn:E; [|done]. cbn [mbind option_bind]. intros [= <- <-].
      change (c :: s2 ++ x) with ((c :: s2) ++ x). by rewrite (doctype_ext _ _ _ x E). }
  intros H. destruct (without_None _ _ E1) as [Hy|HZ]; [by destruct (HN _ _ _ G1 Hy H)|]. rewrite HZ; clear HZ. destruct (without_None _ _ E2) as [Hy|HZ]; [by destruct (HN _ _ _ G2 Hy H)|]. rewrite HZ; clear HZ.
  destruct (without_None _ _ E3) as [Hy|HZ]; [by destruct (HN _ _ _ G3 Hy H)|]. rewrite HZ; clear HZ. by apply HO.
Qed.
Lemma without_one a c (s x : text) : without [a] (c :: s) = None -> without [a] ((c :: s) ++ x) = None.
Proof. cbn [without app]. by destruct (Ascii.eqb a c). Qed.
Lemma contents_ext fuel : forall fuel', (fuel <= fuel')%nat -> extends (contents fuel) (contents fuel').
Proof.
  induction fuel as [|fuel IH]; intros fuel' Hf s y r x H; [done|]. destruct fuel' as [|fuel']; [lia|]. specialize (IH fuel' ltac:(lia)). cbn [contents] in H |- *.
  destruct (decide (skip_xml s = [])) as [|Hs]; [done|]. rewrite skip_ext by done. destruct (decide (skip_xml s ++ x = [])) as [E|_]; [by apply app_eq_nil in E as [E _]|].
  destruct (without (lit "<") (skip_xml s)) as [s1|] eqn:E1.
  - rewrite (without_ext _ _ _ x E1). destruct (without (lit "/") s1) as [s2|] eqn:E2.
    + rewrite (without_ext _ _ _ x E2). destruct (without (lit ">") _) as [s3|] eqn:E3; [|done]. cbn [mbind option_bind] in H. injection H as <- <-.
      assert (skip_xml (span node_name_char s2).2 <> []) as Hn by (intros E; by rewrite E in E3). rewrite span_ext; [|by intros E; rewrite E in Hn]. cbn [snd].
      rewrite skip_ext by done. by rewrite (without_ext _ _ _ x E3).
    + destruct (markup (contents fuel) s1) as [[i s2]|] eqn:E3; [|done]. cbn [mbind option_bind] in H. destruct (contents fuel s2) as [[y' r']|] eqn:E4; [|done].
      cbn [mbind option_bind] in H. injection H as <- <-.
      assert (without (lit "/") (s1 ++ x) = None) as ->. { destruct s1 as [|c s1]; [done|]. by apply (without_one "/"). }
      rewrite (markup_ext _ (contents fuel') _ _ _ x IH E3). cbn [mbind option_bind]. by rewrite (IH _ _ _ x E4).
  - assert (without (lit "<") (skip_xml s ++ x) = None) as ->. { destruct (skip_xml s) as [|c s1]; [done|]. by apply (without_one "<"). }
    destruct (span _ s) as [raw s1] eqn:E2. destruct (expand_all raw) as [v|] eqn:Ev; [|done]. cbn [mbind option_bind] in H.
    destruct (contents fuel s1) as [[y' r']|] eqn:E4; [|done]. cbn [mbind option_bind] in H. injection H as <- <-.
    assert (s1 <> []) as Hs1. { intros ->. by destruct fuel. }
    rewrite (span_pair _ _ _ _ x E2 Hs1). rewrite Ev. cbn [mbind option_bind]. by rewrite (IH _ _ _ x E4).
Qed.
Lemma items_prefix fuel : forall fuel' p q x y, document_items fuel p = Some x -> document_items fuel' (p ++ q) = Some y -> exists z, y.2 = x.2 ++ z.
Proof.
  induction fuel as [|fuel IH]; intros fuel' p q x y; [done|]. destruct fuel' as [|fuel']; [done|]. rewrite !items_step.
  destruct (decide (skip_xml p = [])) as [|Hp]; [intros [= <-]; by exists y.2|]. rewrite skip_ext by done.
  destruct (decide (skip_xml p ++ q = [])) as [E|_]; [by apply app_eq_nil in E as [E _]|].
  destruct (without (lit "<") (skip_xml p)) as [r|] eqn:E1; [|done]. rewrite (without_ext _ _ _ q E1). cbn [mbind option_bind].
  destruct (markup (contents (length r)) r) as [[i r1]|] eqn:E2; [|done]. cbn [mbind option_bind].
  rewrite (markup_ext _ (contents (length (r ++ q))) _ _ _ q (contents_ext (length r) (length (r ++ q)) ltac:(rewrite app_length; lia)) E2). cbn [mbind option_bind].
  destruct (document_items fuel r1) as [x'|] eqn:E3; [|done]. destruct (document_items fuel' (r1 ++ q)) as [y'|] eqn:E4; [|done]. cbn [mbind option_bind].
  intros [= <-] [= <-]. destruct (IH _ _ _ _ _ E3 E4) as [z Hz]. exists z. destruct i; cbn; by rewrite Hz.
Qed.
Lemma misc_comments l s : misc_text l s -> Forall (fun c => c.1 = lit "<xmlcomment>") l.
Proof. induction 1; [constructor|by constructor|done]. Qed.
Lemma no_root_child l : Forall (fun c : text * ptree => c.1 = lit "<xmlcomment>") l -> first_child (lit "openmps") l = None.
Proof. induction 1 as [|[k t] l H _ IH]; [done|]. cbn in *. destruct (decide _) as [->|_]; [done|done]. Qed.
(** ** Comments *)
Lemma first_uncommented name l : name <> lit "<xmlcomment>" ->
  first_child name (flat_map (fun '(k, u) => if decide (k = lit "<xmlcomment>") then [] else [(k, uncommented u)]) l) = uncommented <$> first_child name l.
Proof.
  intros Hn. induction l as [|[k u] l IH]; [done|]. cbn [flat_map]. destruct (decide (k = lit "<xmlcomment>")) as [->|Hk]; cbn [app first_child].
  - rewrite IH. by rewrite decide_False.
  - destruct (decide _); [done|exact IH].
Qed.
Lemma get_uncommented t path : lit "<xmlcomment>" ∉ path -> get_child (uncommented t) path = uncommented <$> get_child t path.
Proof.
  revert t. induction path as [|name path IH]; intros t; [done|]. rewrite not_elem_of_cons. intros [Hn Hp]. cbn [get_child]. destruct t as [d l].
  cbn [uncommented tree_children]. rewrite first_uncommented by done. destruct (first_child name l) as [u|]; [|done]. by apply IH.
Qed.
Lemma found_uncommented t path s : lit "<xmlcomment>" ∉ path -> found (uncommented t) path s <-> found t path s.
Proof.
  intros Hp. rewrite !found_get, (get_uncommented t path Hp). destruct (get_child t path) as [[d l]|]; cbn; split; intros (u & Hu & <-); try done; injection Hu as <-; eauto.
Qed.
Lemma lit_inj a b : lit a = lit b -> a = b.
Proof. intros E. apply (f_equal string_of_list_ascii) in E. unfold lit in E. by rewrite !string_of_list_ascii_of_string in E. Qed.
Lemma needed_no_comment cfg section name : needed cfg section name -> lit "<xmlcomment>" ∉ [lit "openmps"; lit section; lit name; lit "<xmlattr>"; lit "value"].
Proof.
  intros H. assert (section <> "<xmlcomment>"%string /\ name <> "<xmlcomment>"%string) as [H1 H2].
  { assert (Forall (fun p : string * string => p.1 <> "<xmlcomment>"%string /\ p.2 <> "<xmlcomment>"%string) [(section, name)]) as HF; [|by inversion HF].
    constructor; [|constructor]. revert H. unfold needed. revert section name.
    assert (forall l : list (string * string), Forall (fun p => p.1 <> "<xmlcomment>"%string /\ p.2 <> "<xmlcomment>"%string) l ->
      forall section name, (section, name) ∈ l -> (section, name).1 <> "<xmlcomment>"%string /\ (section, name).2 <> "<xmlcomment>"%string) as HL.
    { intros l Hl section name Hin. rewrite list.Forall_forall in Hl. by apply (Hl _ Hin). }
    apply HL. destruct cfg as [[] [] ? ? ? ? ? [] ? ?]; repeat constructor; discriminate. }
  rewrite !not_elem_of_cons. split; [done|]. split; [intros E%lit_inj; by subst|]. split; [intros E%lit_inj; by subst|]. split; [done|]. split; [done|]. apply not_elem_of_nil.
Qed.
Lemma uncommented_same cfg t t' : uncommented t = uncommented t' -> same_settings cfg t t'.
Proof.
  intros E. assert (forall path s, lit "<xmlcomment>" ∉ path -> found t path s <-> found t' path s) as HF.
  { intros path s Hp. by rewrite <- (found_uncommented t path s Hp), E, (found_uncommented t' path s Hp). }
  split; [|split].
  - intros section name s H. apply HF. by apply (needed_no_comment cfg).
  - intros s. apply HF. rewrite !not_elem_of_cons. repeat split; first [apply not_elem_of_nil | by intros E'%lit_inj].
  - intros s. apply HF. rewrite !not_elem_of_cons. repeat split; first [apply not_elem_of_nil | by intros E'%lit_inj].
Qed.
(** Only an order of unfolding. *)
Local Strategy expand [load_condition load_env load_particles load_all].
Section Program.
  Context {N : num} (cfg : config) (print_num : N -> text) (parse_num parse_attr : text -> option N) (fuel : nat).
  Notation run := (program cfg print_num parse_num parse_attr fuel).
  (** C85.  So the run is the one the tree prescribes (C64, C65, C66 say what that is). *)
  Theorem C85_runs t before root after : document t before root after ->
    run (before ++ root ++ after) = application cfg print_num parse_num parse_attr fuel t.
  Proof. intros H. unfold program. by rewrite (proj1 (C85_reads _ _ _ _ H)). Qed.
  (** C85.  Two files that stand for the same tree, up to comments, are run alike: neither the layout nor the comments have an effect. *)
  Theorem C85_comments t before root after t' before' root' after' : document t before root after -> document t' before' root' after' ->
    uncommented t = uncommented t' -> run (before ++ root ++ after) = run (before' ++ root' ++ after').
  Proof. intros H H' E. rewrite (C85_runs _ _ _ _ H), (C85_runs _ _ _ _ H'). apply C65_other_entries. by apply uncommented_same. Qed.
  Lemma no_root_get {A} (tr : text -> option A) d l : Forall (fun c : text * ptree => c.1 = lit "<xmlcomment>") l ->
    get tr (Tree d l) "openmps.condition.startTime.<xmlattr>.value" = Failed BadPath.
  Proof.
    intros H. unfold get. assert (get_child (Tree d l) (path_of "openmps.condition.startTime.<xmlattr>.value") = None) as E; [|by rewrite E].
    assert (path_of "openmps.condition.startTime.<xmlattr>.value" = [lit "openmps"; lit "condition"; lit "startTime"; lit "<xmlattr>"; lit "value"]) as -> by (vm_compute; reflexivity).
    cbn [get_child tree_children]. by rewrite (no_root_child l H).
  Qed.
  Lemma no_root_run d l : Forall (fun c : text * ptree => c.1 = lit "<xmlcomment>") l -> application cfg print_num parse_num parse_attr fuel (Tree d l) = Some ([], Terminated).
  Proof.
    intros H. assert (M_App.load_all cfg parse_num parse_attr (Tree d l) = Failed BadPath) as HL.
    { unfold M_App.load_all, load_condition. rewrite no_root_get by done. reflexivity. }
    unfold application. by rewrite HL.
  Qed.
  (** C85.  A settings file that ends anywhere before the end of its root element (because it was being written, or cut off) is never run: the program is
      aborted and no output file is written. *)
  Theorem C85_cut t before root after p q : document t before root after -> before ++ root = p ++ q -> q <> [] -> run p = Some ([], Terminated).
  Proof.
    intros (l1 & name & r & l2 & H1 & He & H2 & -> & Hn) Hpq Hq. unfold program.
    assert (nul ∉ p) as Hp. { intros Hin. apply Hn. rewrite app_assoc, Hpq. set_solver. }
    destruct (element_opens _ _ _ He) as [root' Hroot].
    assert (match p with c :: _ => blank_char c \/ c = "<"%char | [] => True end) as Hf.
    { pose proof (misc_first _ _ root H1) as Hf. rewrite Hroot in Hf at 1. specialize (Hf ltac:(by right)). rewrite Hpq in Hf. by destruct p. }
    rewrite (read_items p Hp Hf).
    destruct (decide (length p < length before)%nat) as [L|L].
    - assert (before = p ++ take (length before - length p) q) as Hb.
      { apply (f_equal (take (length before))) in Hpq. rewrite take_app in Hpq. rewrite take_app_ge in Hpq by lia. done. }
      assert (document_items (S (length before)) before = Some ([], l1)) as Ha.
      { rewrite <- (app_nil_r before) at 2. rewrite (misc_read _ _ H1 1 (S (length before)) [] ([], [])); [by rewrite app_nil_r|done|lia]. }
      destruct (document_items (S (length p)) p) as [x|] eqn:Ex; [|done]. cbn [mbind option_bind]. rewrite Hb in Ha at 2.
      destruct (items_prefix _ _ _ _ _ _ Ex Ha) as [z Hz]. cbn in Hz. apply no_root_run. pose proof (misc_comments _ _ H1) as HC. rewrite Hz in HC. by apply Forall_app in HC as [HC _].
    - assert (p = before ++ drop (length before) p) as Hb.
      { rewrite <- (take_drop (length before) p) at 1. f_equal. apply (f_equal (take (length before))) in Hpq. rewrite take_app in Hpq. rewrite take_app_le in Hpq by lia. done. }
      set (r1 := drop (length before) p) in *.
      assert (root = r1 ++ q) as Hr. { rewrite Hb, <- app_assoc in Hpq. by apply app_inv_head in Hpq. }
      destruct r1 as [|c r1].
      + rewrite app_nil_r in Hb. subst p. assert (document_items (S (length before)) before = Some ([], l1)) as Ha.
        { rewrite <- (app_nil_r before) at 2. rewrite (misc_read _ _ H1 1 (S (length before)) [] ([], [])); [by rewrite app_nil_r|done|lia]. }
        rewrite Ha. cbn [mbind option_bind]. apply no_root_run. by apply (misc_comments _ before).
      + rewrite Hroot in Hr. cbn [app] in Hr. injection Hr as <- Hr.
        assert (forall f, document_items f ("<"%char :: r1) = None) as HN.
        { intros [|f]; [done|]. rewrite items_markup. destruct (markup (contents (length r1)) r1) as [[i r2]|] eqn:EM; [|done]. exfalso.
          destruct (proj1 (proj2 xml_read) _ _ _ He) as (s' & (Hs' & _) & HM). rewrite Hroot in Hs'. injection Hs' as <-.
          specialize (HM (length root') [] ltac:(rewrite Hroot; cbn; lia)). rewrite app_nil_r in HM.
          pose proof (markup_ext _ (contents (length root')) _ _ _ q (contents_ext (length r1) (length root') ltac:(rewrite Hr, app_length; lia)) EM) as EM'. rewrite <- Hr, HM in EM'.
          injection EM' as _ E. symmetry in E. by apply app_eq_nil in E as [_ E]. }
        rewrite Hb. rewrite (misc_refused _ _ H1 _ _ HN). done.
  Qed.
End Program.

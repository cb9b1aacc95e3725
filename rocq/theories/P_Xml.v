(** Proofs about the XML reader: scanning. *)
From Coq Require Import String Ascii.
From Verif Require Export M_Xml S_Xml.
From stdpp Require Import list.

(** ** Scanning *)
Lemma span_app p a b : Forall (fun c => p c = true) a -> match b with c :: _ => p c = false | [] => True end -> span p (a ++ b) = (a, b).
Proof.
  induction 1 as [|c a Hc _ IH]; intros Hb; cbn.
  - destruct b as [|c b]; [done|]. cbn. by rewrite Hb.
  - rewrite Hc. by rewrite (IH Hb).
Qed.
Lemma span_split p s : s = (span p s).1 ++ (span p s).2.
Proof. induction s as [|c s IH]; [done|]. cbn. destruct (p c); [|done]. destruct (span p s). cbn in *. by rewrite IH at 1. Qed.
Lemma span_rest p s : match (span p s).2 with c :: _ => p c = false | [] => True end.
Proof. induction s as [|c s IH]; [done|]. cbn. destruct (p c) eqn:E; [|done]. by destruct (span p s). Qed.
Lemma span_ext p s x : (span p s).2 <> [] -> span p (s ++ x) = ((span p s).1, (span p s).2 ++ x).
Proof.
  induction s as [|c s IH]; [done|]. cbn. destruct (p c); [|done]. destruct (span p s) as [a b]. cbn in *. intros H. by rewrite (IH H).
Qed.
Lemma xml_space_true c : blank_char c -> xml_space c = true.
Proof. by intros [-> | [-> | [-> | ->]]]. Qed.
Lemma xml_space_blank c : xml_space c = true -> blank_char c.
Proof. unfold xml_space, blank_char. rewrite !orb_true_iff, !Ascii.eqb_eq. tauto. Qed.
Lemma skip_blank w s : blank w -> skip_xml (w ++ s) = skip_xml s.
Proof.
  unfold skip_xml. induction 1 as [|c w Hc _ IH]; [done|]. cbn. rewrite xml_space_true by done. by destruct (span xml_space (w ++ s)).
Qed.
Lemma skip_at c s : xml_space c = false -> skip_xml (c :: s) = c :: s.
Proof. unfold skip_xml. cbn. by intros ->. Qed.
Lemma skip_nil w : blank w -> skip_xml w = [].
Proof. intros H. rewrite <- (app_nil_r w), skip_blank; done. Qed.
Lemma skip_blank_nil s : skip_xml s = [] -> blank s.
Proof.
  unfold skip_xml. induction s as [|c s IH]; [constructor|]. cbn. destruct (xml_space c) eqn:E; [|done]. destruct (span xml_space s); cbn in *.
  intros H. constructor; [by apply xml_space_blank|by apply IH].
Qed.
Lemma skip_ext s x : skip_xml s <> [] -> skip_xml (s ++ x) = skip_xml s ++ x.
Proof. unfold skip_xml. intros H. by rewrite span_ext. Qed.
Lemma skip_head s : match skip_xml s with c :: _ => xml_space c = false | [] => True end.
Proof. apply span_rest. Qed.
Lemma skip_idem s : skip_xml (skip_xml s) = skip_xml s.
Proof. pose proof (skip_head s) as H. destruct (skip_xml s) as [|c r]; [done|]. by rewrite skip_at. Qed.
Lemma without_app p s : without p (p ++ s) = Some s.
Proof. induction p as [|a p IH]; [done|]. cbn. by rewrite Ascii.eqb_refl. Qed.
Lemma without_Some p s r : without p s = Some r -> s = p ++ r.
Proof.
  revert s. induction p as [|a p IH]; intros s H; [by injection H|]. destruct s as [|b s]; [done|]. cbn in H.
  destruct (Ascii.eqb a b) eqn:E; [|done]. apply Ascii.eqb_eq in E as ->. by rewrite (IH _ H).
Qed.
Lemma without_ext p s r x : without p s = Some r -> without p (s ++ x) = Some (r ++ x).
Proof. intros ->%without_Some. by rewrite <- app_assoc, without_app. Qed.
Lemma without_None p s : without p s = None -> (exists y, p = s ++ y) \/ forall x, without p (s ++ x) = None.
Proof.
  revert s. induction p as [|a p IH]; intros s H; [done|]. destruct s as [|b s]; [left; by exists (a :: p)|]. cbn in H |- *.
  destruct (Ascii.eqb a b) eqn:E; [|by right]. apply Ascii.eqb_eq in E as ->. destruct (IH _ H) as [[y ->] |H']; [left; by exists y|by right].
Qed.
Lemma without_head a p b s : a <> b -> without (a :: p) (b :: s) = None.
Proof. intros H. cbn. destruct (Ascii.eqb a b) eqn:E; [apply Ascii.eqb_eq in E; congruence|done]. Qed.
Lemma up_to_here p s r : without p s = Some r -> up_to p s = Some ([], r).
Proof. intros H. destruct s; cbn [up_to]; by rewrite H. Qed.
Lemma up_to_app p l c s : l ∉ p -> ~ occurs (p ++ [l]) c -> up_to (p ++ [l]) (c ++ (p ++ [l]) ++ s) = Some (c, s).
Proof.
  intros Hl. induction c as [|a c IH]; intros Hc.
  - cbn [app]. apply up_to_here. apply without_app.
  - change ((a :: c) ++ (p ++ [l]) ++ s) with (a :: (c ++ (p ++ [l]) ++ s)). cbn [up_to].
    destruct (without (p ++ [l]) (a :: (c ++ (p ++ [l]) ++ s))) as [r|] eqn:E.
    + exfalso. apply without_Some in E. destruct (decide (length (a :: c) < length (p ++ [l]))%nat) as [L|L].
      * apply Hl. apply (elem_of_list_lookup_2 _ (length p - length (a :: c))%nat).
        assert (((a :: c) ++ (p ++ [l]) ++ s) !! length p = Some l) as H1.
        { change ((a :: c) ++ (p ++ [l]) ++ s) with (a :: c ++ (p ++ [l]) ++ s). rewrite E. rewrite <- app_assoc. by apply list_lookup_middle. }
        rewrite lookup_app_r in H1 by (rewrite app_length in L; cbn [length] in L |- *; lia). rewrite <- app_assoc in H1. rewrite lookup_app_l in H1; [done|]. rewrite app_length in L. cbn [length] in L |- *. lia.
      * apply Hc. exists [], (drop (length (p ++ [l])) (a :: c)). change (a :: c = (p ++ [l]) ++ drop (length (p ++ [l])) (a :: c)).
        rewrite <- (take_drop (length (p ++ [l])) (a :: c)) at 1. f_equal.
        change (a :: c ++ (p ++ [l]) ++ s) with ((a :: c) ++ (p ++ [l]) ++ s) in E. apply (f_equal (take (length (p ++ [l])))) in E.
        rewrite take_app, take_app_le in E by lia. done.
    + rewrite IH; [done|]. intros (u & v & ->). apply Hc. by exists (a :: u), v.
Qed.
Lemma up_to_Some p s a r : up_to p s = Some (a, r) -> s = a ++ p ++ r.
Proof.
  revert a. induction s as [|c s IH]; intros a; cbn [up_to].
  - destruct (without p []) as [r'|] eqn:E; [|done]. intros [= <- <-]. by apply without_Some in E.
  - destruct (without p (c :: s)) as [r'|] eqn:E; [intros [= <- <-]; by apply without_Some in E|]. destruct (up_to p s) as [[a' r']|]; [|done].
    intros [= <- <-]. by rewrite (IH a').
Qed.
(** The first occurrence stays the first. *)
Lemma up_to_ext p s a r x : p <> [] -> up_to p s = Some (a, r) -> up_to p (s ++ x) = Some (a, r ++ x).
Proof.
  intros Hp. revert a. induction s as [|c s IH]; intros a.
  - cbn. destruct p; [done|]. done.
  - cbn [up_to app]. change (c :: s ++ x) with ((c :: s) ++ x). destruct (without p (c :: s)) as [r'|] eqn:E.
    + intros [= <- <-]. by rewrite (without_ext _ _ _ x E).
    + destruct (up_to p s) as [[a' r']|] eqn:Eu; [|done]. intros [= <- <-]. rewrite (IH _ eq_refl).
      destruct (without_None _ _ E) as [[y Hy]|H]; [|by rewrite H].
      exfalso. apply up_to_Some in Eu. apply (f_equal length) in Eu, Hy. rewrite !app_length in *. cbn in *. lia.
Qed.

(** ** Spelling *)
Lemma expand_named c e s : named c e -> exists r, lit e = "&"%char :: r /\ expand_ref (r ++ s) = Some ([c], s).
Proof. destruct 1; eexists; (split; [reflexivity|]); reflexivity. Qed.
Lemma digit_char c k : code_digit c k -> hex_digit c = Some k /\ Ascii.eqb c ";" = false /\ Ascii.eqb c "<" = false /\ Ascii.eqb c "'" = false /\ Ascii.eqb c "034" = false /\
  ((k < 10)%Z -> Ascii.eqb "x" c = false).
Proof.
  destruct 1 as [n Hn|n Hn|n Hn].
  - do 10 (destruct n as [|n]; [by repeat split|]). lia.
  - do 6 (destruct n as [|n]; [repeat split; intros; exfalso; lia|]). lia.
  - do 6 (destruct n as [|n]; [repeat split; intros; exfalso; lia|]). lia.
Qed.
Lemma read_numeral base a ds z s : code_numeral base a ds z -> read_code base a (ds ++ lit ";" ++ s) = (z, lit ";" ++ s).
Proof.
  induction 1 as [a|a c k ds z Hd Hk _ IH]; [reflexivity|]. cbn [app read_code]. destruct (digit_char c k Hd) as [-> _].
  by rewrite (proj2 (Z.ltb_lt _ _) Hk).
Qed.
Lemma utf8_encoded z u : encoded z u -> utf8 z = Some u.
Proof.
  destruct 1 as [z H|a b Ha Hb|a b c Ha Hb Hc H|a b c e Ha Hb Hc He H]; unfold six_bits in *; unfold utf8.
  - by rewrite (proj2 (Z.ltb_lt _ _)) by lia.
  - rewrite (proj2 (Z.ltb_ge _ _)) by lia. rewrite (proj2 (Z.ltb_lt _ _)) by lia.
    replace ((64 * a + b) / 64)%Z with a by (apply Z.div_unique with b; lia).
    replace ((64 * a + b) mod 64)%Z with b by (apply Z.mod_unique with a; lia). done.
  - rewrite (proj2 (Z.ltb_ge _ 128)) by lia. rewrite (proj2 (Z.ltb_ge _ 2048)) by lia. rewrite (proj2 (Z.ltb_lt _ _)) by lia. set (z := (4096 * a + 64 * b + c)%Z).
    replace (z / 4096)%Z with a by (apply Z.div_unique with (64 * b + c)%Z; lia).
    replace (z / 64)%Z with (64 * a + b)%Z by (apply Z.div_unique with c; lia).
    replace (z mod 64)%Z with c by (apply Z.mod_unique with (64 * a + b)%Z; lia).
    replace ((64 * a + b) mod 64)%Z with b by (apply Z.mod_unique with a; lia). done.
  - rewrite (proj2 (Z.ltb_ge _ 128)) by lia. rewrite (proj2 (Z.ltb_ge _ 2048)) by lia. rewrite (proj2 (Z.ltb_ge _ 65536)) by lia. rewrite (proj2 (Z.ltb_lt _ _)) by lia.
    set (z := (262144 * a + 4096 * b + 64 * c + e)%Z).
    replace (z / 262144)%Z with a by (apply Z.div_unique with (4096 * b + 64 * c + e)%Z; lia).
    replace (z / 4096)%Z with (64 * a + b)%Z by (apply Z.div_unique with (64 * c + e)%Z; lia).
    replace (z / 64)%Z with (4096 * a + 64 * b + c)%Z by (apply Z.div_unique with e; lia).
    replace (z mod 64)%Z with e by (apply Z.mod_unique with (4096 * a + 64 * b + c)%Z; lia).
    replace ((64 * a + b) mod 64)%Z with b by (apply Z.mod_unique with a; lia).
    replace ((4096 * a + 64 * b + c) mod 64)%Z with c by (apply Z.mod_unique with (64 * a + b)%Z; lia). done.
Qed.
Lemma expand_number mark base ds z u s : (mark, base) = ("&#"%string, 10%Z) \/ (mark, base) = ("&#x"%string, 16%Z) -> ds <> [] -> code_numeral base 0 ds z -> encoded z u ->
  exists r, lit mark = "&"%char :: r /\ expand_ref (r ++ ds ++ lit ";" ++ s) = Some (u, s).
Proof.
  intros Hm Hds Hn Hu. assert (forall b, b = base -> numeric_ref b (ds ++ lit ";" ++ s) = Some (u, s)) as HR.
  { intros b ->. unfold numeric_ref. rewrite (read_numeral _ _ _ _ s Hn). change (without (lit ";") (lit ";" ++ s)) with (Some s).
    cbn [mbind option_bind]. by rewrite (utf8_encoded _ _ Hu). }
  destruct Hm as [[= -> ->] | [= -> ->]]; eexists; (split; [reflexivity|]).
  - unfold expand_ref. assert (without (lit "#x") (["#"%char] ++ ds ++ lit ";" ++ s) = None) as HX.
    { destruct Hn as [|a c k ds z Hd Hk]; [done|]. change (without (lit "#x") (["#"%char] ++ (c :: ds) ++ lit ";" ++ s)) with (if Ascii.eqb "x" c then Some (ds ++ lit ";" ++ s) else None). destruct (digit_char c k Hd) as (_ & _ & _ & _ & _ & H). by rewrite (H Hk). }
    change (lit "&#") with ["&"%char; "#"%char]. cbn [tl]. rewrite HX. change (without (lit "#") (["#"%char] ++ ds ++ lit ";" ++ s)) with (Some (ds ++ lit ";" ++ s)).
    cbv iota beta. rewrite (HR _ eq_refl). reflexivity.
  - apply HR. reflexivity.
Qed.
Lemma expand_spelled stop v raw fuel : spelled stop v raw -> (length raw <= fuel)%nat -> expand fuel raw = Some v.
Proof.
  intros H. revert fuel. induction H as [|c v s H1 H2 _ IH|c e v s Hn _ IH|mark base ds z u v s Hm Hds Hn Hu _ IH]; intros fuel Hf.
  - by destruct fuel.
  - destruct fuel as [|fuel]; [cbn in Hf; lia|]. cbn. destruct (Ascii.eqb c "&") eqn:E; [by apply Ascii.eqb_eq in E|]. rewrite IH by (cbn in Hf; lia). done.
  - destruct (expand_named c e s Hn) as (r & He & Hx). rewrite He in *. destruct fuel as [|fuel]; [cbn in Hf; lia|].
    change (("&"%char :: r) ++ s) with ("&"%char :: (r ++ s)) in *. cbn [expand Ascii.eqb]. rewrite Hx.
    change (Ascii.eqb "&" "&") with true. cbn [length] in Hf. rewrite app_length in Hf. rewrite IH by lia. done.
  - destruct (expand_number mark base ds z u s Hm Hds Hn Hu) as (r & Hr & Hx). rewrite Hr in *. destruct fuel as [|fuel]; [cbn in Hf; lia|].
    change (("&"%char :: r) ++ ds ++ lit ";" ++ s) with ("&"%char :: (r ++ ds ++ lit ";" ++ s)) in *. cbn [expand]. change (Ascii.eqb "&" "&") with true. rewrite Hx.
    cbn [length] in Hf. rewrite !app_length in Hf. rewrite IH by lia. done.
Qed.
Definition stops (q : ascii) : Prop := q = "<"%char \/ q = "'"%char \/ q = "034"%char.
Lemma spelled_stop q v raw : stops q -> spelled q v raw -> Forall (fun c => negb (Ascii.eqb c q) = true) raw.
Proof.
  intros Hq. assert (forall c, c <> q -> negb (Ascii.eqb c q) = true) as HN.
  { intros c H. destruct (Ascii.eqb c q) eqn:E; [by apply Ascii.eqb_eq in E|done]. }
  induction 1 as [|c v s H1 H2 _ IH|c e v s Hn _ IH|mark base ds z u v s Hm Hds Hn Hu _ IH]; [constructor| | |].
  - constructor; auto.
  - apply Forall_app. split; [|done]. destruct Hn, Hq as [-> | [-> | ->]]; repeat constructor.
  - rewrite !Forall_app. split; [|split; [|split; [|done]]].
    + destruct Hm as [[= -> ->] | [= -> ->]], Hq as [-> | [-> | ->]]; repeat constructor.
    + clear Hds Hu. induction Hn as [|a c k ds z Hd Hk _ IHn]; [constructor|]. constructor; [|done]. destruct (digit_char c k Hd) as (_ & _ & E1 & E2 & E3 & _).
      destruct Hq as [-> | [-> | ->]]; by rewrite ?E1, ?E2, ?E3.
    + destruct Hq as [-> | [-> | ->]]; repeat constructor.
Qed.

(** ** Names and attributes *)
Lemma name_not_space c : name_char c -> xml_space c = false.
Proof. intros [H _]. apply not_true_is_false. by intros E%xml_space_blank. Qed.
Lemma one_of_false l c : c ∉ lit l -> one_of l c = false.
Proof.
  intros H. apply not_true_is_false. unfold one_of. intros (x & Hx & E)%existsb_exists. apply Ascii.eqb_eq in E as <-. by apply H, elem_of_list_In.
Qed.
Lemma name_node c : name_char c -> node_name_char c = true.
Proof.
  intros H. unfold node_name_char. rewrite (name_not_space c H). destruct H as (_ & H & _). rewrite one_of_false; [done|].
  intros Hin. apply H. revert Hin. change (c ∈ ["/"; ">"; "?"]%char -> c ∈ ["/"; "<"; ">"; "="; "?"; "!"; "&"; "'"]%char). rewrite !elem_of_cons. tauto.
Qed.
Lemma name_attribute c : name_char c -> attribute_name_char c = true.
Proof.
  intros H. unfold attribute_name_char. rewrite (name_not_space c H). destruct H as (_ & H & _). rewrite one_of_false; [done|].
  intros Hin. apply H. revert Hin. change (c ∈ ["/"; "<"; ">"; "="; "?"; "!"]%char -> c ∈ ["/"; "<"; ">"; "="; "?"; "!"; "&"; "'"]%char). rewrite !elem_of_cons. tauto.
Qed.
Lemma span_name p name w t : (forall c, name_char c -> p c = true) -> (forall c, xml_space c = true -> p c = false) -> xml_name name -> blank w ->
  match t with c :: _ => p c = false | [] => True end -> span p (name ++ w ++ t) = (name, w ++ t).
Proof.
  intros H1 H2 [_ Hn] Hw Ht. apply span_app; [eapply Forall_impl; [exact Hn|done]|]. destruct w as [|c w]; [done|]. inversion Hw; subst. cbn. apply H2. by apply xml_space_true.
Qed.
Lemma attribute_space c : xml_space c = true -> attribute_name_char c = false.
Proof. unfold attribute_name_char. by intros ->. Qed.
Lemma node_space c : xml_space c = true -> node_name_char c = false.
Proof. unfold node_name_char. by intros ->. Qed.
Lemma attributes_read l sa fuel rest : attributes_text l sa -> (length sa < fuel)%nat ->
  match skip_xml rest with c :: _ => attribute_name_char c = false | [] => True end -> attributes fuel (skip_xml (sa ++ rest)) = Some (l, skip_xml rest).
Proof.
  intros H. revert fuel. induction H as [|name v w w1 w2 q raw l s Hw0 Hw Hw1 Hw2 Hname Hq Hraw Hl IH]; intros fuel Hf Hrest.
  - cbn [app]. destruct fuel as [|fuel]; [cbn in Hf; lia|]. cbn [attributes]. destruct (span attribute_name_char (skip_xml rest)) as [a b] eqn:E.
    destruct (skip_xml rest) as [|c r]; [by injection E as <- <-|]. cbn in E. rewrite Hrest in E. by injection E as <- <-.
  - rewrite <- !app_assoc. rewrite skip_blank by done.
    assert (skip_xml (name ++ w1 ++ lit "=" ++ w2 ++ (q :: raw ++ q :: s) ++ rest) = name ++ w1 ++ lit "=" ++ w2 ++ (q :: raw ++ q :: s) ++ rest) as ->.
    { destruct Hname as [Hn HF]. destruct name as [|c name]; [done|]. inversion HF; subst. cbn [app]. apply skip_at. by apply name_not_space. }
    destruct fuel as [|fuel]; [cbn in Hf; lia|]. cbn [attributes].
    rewrite (span_name attribute_name_char name w1 (lit "=" ++ w2 ++ (q :: raw ++ q :: s) ++ rest) name_attribute attribute_space Hname Hw1 eq_refl).
    destruct (decide (name = [])) as [E|_]; [by destruct Hname|].
    rewrite skip_blank by done. change (lit "=" ++ w2 ++ (q :: raw ++ q :: s) ++ rest) with ("="%char :: w2 ++ (q :: raw ++ q :: s) ++ rest). rewrite skip_at by done.
    change (without (lit "=") ("="%char :: w2 ++ (q :: raw ++ q :: s) ++ rest)) with (Some (w2 ++ (q :: raw ++ q :: s) ++ rest)). cbn [mbind option_bind].
    rewrite skip_blank by done. cbn [app]. rewrite skip_at by (by destruct Hq as [-> | ->]).
    assert (quote_char q = true) as -> by (by destruct Hq as [-> | ->]).
    rewrite <- app_assoc. rewrite span_app; [|eapply spelled_stop; [|exact Hraw]; destruct Hq; unfold stops; tauto|cbn; by rewrite Ascii.eqb_refl].
    cbn [app]. unfold expand_all. rewrite (expand_spelled _ _ _ _ Hraw) by done. cbn [mbind option_bind].
    rewrite IH; [done| |done]. rewrite !app_length in Hf. cbn in Hf. rewrite app_length in Hf. cbn in Hf. lia.
Qed.

(** Property theorems: the order of files and lines (C87). *)
From Coq Require Import String Ascii.
From Verif Require Import S_App S_Log T_App T_Files T_Disk T_Console.
From stdpp Require Import list gmap.

Lemma disk_app d a b : disk_of d (a ++ b) = disk_of (disk_of d a) b.
Proof. apply foldl_app. Qed.
Lemma disk_map d l : disk_of d (map Disk l) = foldl apply_event d l.
Proof. revert d. induction l as [|e l IH]; intros d; [done|apply IH]. Qed.
Lemma said_app a b : said (a ++ b) = said a ++ said b.
Proof. apply omap_app. Qed.
Lemma joined (a b : list text) : mjoin (a ++ b) = mjoin a ++ mjoin b.
Proof. induction a as [|x a IH]; [done|]. cbn. rewrite <- app_assoc. by f_equal. Qed.
Lemma said_map l : said (map Disk l) = [].
Proof. by induction l. Qed.
Lemma disk_said d h : (forall e, e ∈ h -> exists s, e = Say s) -> disk_of d h = d.
Proof.
  revert d. induction h as [|e h IH]; intros d H; [done|]. destruct (H e) as [s ->]; [left|]. apply (IH d). intros e' He'. apply H. by right.
Qed.
Lemma partial_file d n f name : name <> f.1 -> foldl apply_event d (take n (file_events f)) !! name = d !! name.
Proof.
  intros Hne. pose proof (after_moment [f] d n) as H. unfold disk_after, run_events in H. cbn [flat_map] in H. rewrite app_nil_r in H.
  destruct H as (done & now & later & E & _ & _ & H); [apply NoDup_singleton|]. apply H. rewrite elem_of_list_fmap. intros (f' & -> & Hin).
  apply Hne. assert (f' ∈ [f]) as Hf by (rewrite E, app_assoc; apply elem_of_app; by left). by apply elem_of_list_singleton in Hf as ->.
Qed.
(** One block of events after the other. *)
Definition block (x : (text * text) * text) : list event := map Disk (file_events x.1) ++ [Say x.2].
Lemma blocks_moment (l : list ((text * text) * text)) (tail : list text) : forall n d, NoDup (map (fun x => x.1.1) l) ->
  let h := take n (mjoin (map block l) ++ map Say tail) in
  (forall k name content line, l !! k = Some ((name, content), line) -> (k < length (said h))%nat -> disk_of d h !! name = Some content) /\
  (forall k name content line, l !! k = Some ((name, content), line) -> (length (said h) < k)%nat -> disk_of d h !! name = d !! name) /\
  (forall name, name ∉ map (fun x => x.1.1) l -> disk_of d h !! name = d !! name).
Proof.
  induction l as [|[f line] l IH]; intros n d Hn h.
  { split; [intros k ? ? ? H; by rewrite lookup_nil in H|]. split; [intros k ? ? ? H; by rewrite lookup_nil in H|]. intros name _. unfold h. cbn [map mjoin list_join app].
    rewrite disk_said; [done|]. intros e He. assert (e ∈ map Say tail) as Ht. { rewrite <- (take_drop n (map Say tail)). apply elem_of_app. by left. }
    apply elem_of_list_fmap in Ht as (s & -> & _). by exists s. }
  cbn [map fst] in Hn. apply NoDup_cons in Hn as [Hni Hn].
  assert (h = take n (block (f, line) ++ (mjoin (map block l) ++ map Say tail))) as Eh by (unfold h; cbn [map]; by rewrite app_assoc).
  clearbody h. destruct (decide (length (block (f, line)) <= n)%nat) as [L|L].
  - rewrite take_app_ge in Eh by done. set (h' := take (n - length (block (f, line))) (mjoin (map block l) ++ map Say tail)) in *.
    assert (length (said h) = S (length (said h'))) as Es. { rewrite Eh, said_app. unfold block. rewrite said_app, said_map. done. }
    assert (disk_of d h = disk_of (<[f.1 := f.2]> d) h') as Ed.
    { rewrite Eh, disk_app. unfold block. rewrite disk_app, disk_map. cbn [fst]. rewrite file_all. done. }
    destruct (IH (n - length (block (f, line)))%nat (<[f.1 := f.2]> d) Hn) as (H1 & H2 & H3). fold h' in H1, H2, H3. rewrite Es, Ed. split; [|split].
    + intros [|k] name content line' Hk Hlt; cbn in Hk; [|eapply H1; [exact Hk|lia]]. injection Hk as -> ->. cbn [fst snd] in *. rewrite H3 by done. apply lookup_insert.
    + intros [|k] name content line' Hk Hlt; [lia|]. cbn in Hk. rewrite (H2 k name content line') by (done || lia). rewrite lookup_insert_ne; [done|].
      intros <-. apply Hni. apply elem_of_list_fmap. exists ((f.1, content), line'). split; [done|]. by eapply elem_of_list_lookup_2.
    + intros name Hname. cbn [map fst] in Hname. apply not_elem_of_cons in Hname as [Hn1 Hn2]. rewrite H3 by done. by rewrite lookup_insert_ne.
  - rewrite take_app_le in Eh by lia. unfold block in Eh, L. cbn [fst snd] in Eh, L. rewrite app_length, map_length in L. cbn [length] in L.
    rewrite take_app_le in Eh by (rewrite map_length; lia). rewrite firstn_map in Eh.
    assert (length (said h) = 0%nat) as Es by (by rewrite Eh, said_map).
    assert (forall name, name <> f.1 -> disk_of d h !! name = d !! name) as Hother. { intros name Hne. rewrite Eh, disk_map. by apply partial_file. }
    rewrite Es. split; [intros; lia|]. split.
    + intros [|k] name content line' Hk Hlt; [lia|]. apply Hother. intros ->. apply Hni. apply elem_of_list_fmap. exists ((f.1, content), line'). split; [done|].
      cbn in Hk. by eapply elem_of_list_lookup_2.
    + intros name Hname. cbn [map fst] in Hname. apply not_elem_of_cons in Hname as [Hn1 _]. by apply Hother.
Qed.

Section Log.
  Context {N : num} (cfg : config) (print_num print_fixed : N -> text) (parse_num parse_attr : text -> option N) (clock : nat -> text).
  Notation history := (history cfg print_num print_fixed parse_num parse_attr clock).
  Notation session := (session cfg print_num print_fixed parse_num parse_attr clock).
  (** C87.  The screen can be trusted at any moment: the first text printed is the name of the settings file, the next ones are the lines about the files (C86), and
      when a line has been printed its file is complete; of the files whose lines have not been printed, at most the next one has been touched. *)
  Theorem C87_reported fuel filename file h e : history fuel filename file = Some (h, e) ->
    exists files screen, session fuel filename file = Some (files, screen, e) /\ mjoin (said h) = screen /\
      forall (d : directory) n, let h' := take n h in
        (forall k name content, files !! k = Some (name, content) -> (S k < length (said h'))%nat -> disk_of d h' !! name = Some content) /\
        (forall k name content, files !! k = Some (name, content) -> (length (said h') <= k)%nat -> disk_of d h' !! name = d !! name) /\
        (forall name, name ∉ map fst files -> disk_of d h' !! name = d !! name).
  Proof.
    assert (forall g, exists screen, greeting filename = screen /\ mjoin (said [Say (greeting filename)]) = screen /\ forall (d : directory) n, let h' := take n [Say (greeting filename)] in
        (forall k name content, g !! k = Some (name, content) -> (S k < length (said h'))%nat -> disk_of d h' !! name = Some content) /\
        (forall k name content, g !! k = Some (name, content) -> (length (said h') <= k)%nat -> disk_of d h' !! name = d !! name) /\
        (forall name : text, name ∉ map fst g -> disk_of d h' !! name = d !! name)) as Hg.
    { intros g. exists (greeting filename). split; [done|]. split; [cbn; by rewrite app_nil_r|]. intros d n h'.
      assert (disk_of d h' = d) as Hd. { apply disk_said. intros e0 He. exists (greeting filename). unfold h' in He. destruct n; cbn in He; [by apply elem_of_nil in He|].
        rewrite take_nil in He. by apply elem_of_list_singleton in He. }
      assert (length (said h') <= 1)%nat as Hl by (unfold h'; destruct n; cbn; [lia|]; rewrite take_nil; cbn; lia).
      rewrite Hd. split; [intros; lia|]. done. }
    intros H. pose proof H as H0. revert H. unfold M_Log.history, M_Console.session. destruct (read_xml file) as [xml|] eqn:EX.
    2: { intros [= <- <-]. destruct (Hg []) as (screen & <- & H1 & H2). by exists [], (greeting filename). }
    destruct (load_all cfg parse_num parse_attr xml) as [[[cond env] ps]|err|] eqn:EL.
    2, 3: intros [= <- <-]; destruct (Hg []) as (screen & <- & H1 & H2); by exists [], (greeting filename).
    destruct (main_program fuel cond env ps) as [[outs e']|] eqn:EM; [|done]. intros [= <- <-].
    eexists _, _. split; [reflexivity|].
    set (l := imap (fun k o => (output_file cfg print_num o, report cfg print_fixed clock k o)) outs).
    assert (mjoin (imap (output_events cfg print_num print_fixed clock) outs) = mjoin (map block l)) as El.
    { f_equal. unfold l. apply list_eq. intros i. rewrite list_lookup_fmap, !list_lookup_imap. by destruct (outs !! i). }
    assert (map fst l = map (output_file cfg print_num) outs) as Ef.
    { unfold l. apply list_eq. intros i. rewrite !list_lookup_fmap, !list_lookup_imap. by destruct (outs !! i). }
    assert (map snd l = imap (report cfg print_fixed clock) outs) as Er.
    { unfold l. apply list_eq. intros i. rewrite !list_lookup_fmap, !list_lookup_imap. by destruct (outs !! i). }
    rewrite El, <- Ef, <- Er. clearbody l. split.
    - change (said (Say (greeting filename) :: mjoin (map block l) ++ [Say (farewell print_num e')])) with
        (greeting filename :: said (mjoin (map block l) ++ [Say (farewell print_num e')])).
      rewrite said_app. assert (said (mjoin (map block l)) = map snd l) as ->.
      { clear. induction l as [|x l IH]; [done|]. change (mjoin (map block (x :: l))) with (block x ++ mjoin (map block l)). rewrite said_app, IH. unfold block. by rewrite said_app, said_map. }
      change (said [Say (farewell print_num e')]) with [farewell print_num e'].
      change (mjoin (greeting filename :: map snd l ++ [farewell print_num e'])) with (greeting filename ++ mjoin (map snd l ++ [farewell print_num e'])).
      rewrite joined. do 2 f_equal. cbn. by rewrite app_nil_r.
    - assert (NoDup (map (fun x => x.1.1) l)) as Hn.
      { assert (map fst (map fst l) = map (fun x => x.1.1) l) as <- by (by rewrite map_map). rewrite Ef. assert (application cfg print_num parse_num parse_attr fuel xml = Some (map (output_file cfg print_num) outs, e')) as HA.
        { unfold application. by rewrite EL, EM. } by destruct (C66_files _ _ _ _ _ _ _ _ HA). }
      intros d n. destruct n as [|n].
      { cbn. split; [intros; lia|]. done. }
      cbn [app take]. destruct (blocks_moment l [farewell print_num e'] n d Hn) as (H1 & H2 & H3). cbn [map] in H1, H2, H3.
      change (said (Say (greeting filename) :: take n (mjoin (map block l) ++ [Say (farewell print_num e')]))) with
        (greeting filename :: said (take n (mjoin (map block l) ++ [Say (farewell print_num e')]))). cbn [length].
      change (disk_of d (Say (greeting filename) :: take n (mjoin (map block l) ++ [Say (farewell print_num e')]))) with
        (disk_of d (take n (mjoin (map block l) ++ [Say (farewell print_num e')]))).
      split; [|split].
      + intros k name content Hk Hlt. apply list_lookup_fmap_Some in Hk as ([f line] & Hk & E). cbn [fst] in E. subst f. apply (H1 k name content line Hk). lia.
      + intros k name content Hk Hle. apply list_lookup_fmap_Some in Hk as ([f line] & Hk & E). cbn [fst] in E. subst f. apply (H2 k name content line Hk). lia.
      + intros name Hname. apply H3. by rewrite map_map in Hname.
  Qed.
End Log.

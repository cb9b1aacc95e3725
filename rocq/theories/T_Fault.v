(** Property theorems: files that cannot be written (C89). *)
From Coq Require Import String Ascii.
From Verif Require Import S_App S_Log M_Fault T_App T_Files T_Disk T_Console T_Log.
From stdpp Require Import list gmap.

(** Blocks of events whose files have a fate. *)
Definition fblock (x : (text * text) * (fate * text)) : list event := map Disk (fated_events x.2.1 x.1) ++ [Say x.2.2].
Definition left_behind (w : fate) (content : text) (old : option text) : option text :=
  match w with Fine => Some content | NotOpened => old | Spoilt s => Some s end.
Lemma fated_all w f d name : foldl apply_event d (fated_events w f) !! name = if decide (name = f.1) then left_behind w f.2 (d !! name) else d !! name.
Proof.
  destruct w as [| |s]; cbn [fated_events left_behind].
  - rewrite file_all. destruct (decide _) as [->|Hne]; [apply lookup_insert|by rewrite lookup_insert_ne].
  - by destruct (decide _).
  - rewrite file_all. cbn [fst snd]. destruct (decide _) as [->|Hne]; [apply lookup_insert|by rewrite lookup_insert_ne].
Qed.
Lemma fblocks_said l : said (mjoin (map fblock l)) = map (fun x => x.2.2) l.
Proof. induction l as [|x l IH]; [done|]. change (mjoin (map fblock (x :: l))) with (fblock x ++ mjoin (map fblock l)). rewrite said_app, IH. unfold fblock. by rewrite said_app, said_map. Qed.
Lemma fblocks_disk l : forall d, NoDup (map (fun x => x.1.1) l) ->
  (forall k f w, l !! k = Some (f, w) -> disk_of d (mjoin (map fblock l)) !! f.1 = left_behind w.1 f.2 (d !! f.1)) /\
  (forall name, name ∉ map (fun x => x.1.1) l -> disk_of d (mjoin (map fblock l)) !! name = d !! name).
Proof.
  induction l as [|[f w] l IH]; intros d Hn; [split; [intros k ? ? H; by rewrite lookup_nil in H|done]|].
  cbn [map fst] in Hn. apply NoDup_cons in Hn as [Hni Hn]. change (mjoin (map fblock ((f, w) :: l))) with (fblock (f, w) ++ mjoin (map fblock l)).
  set (d' := disk_of d (fblock (f, w))). assert (forall name, d' !! name = if decide (name = f.1) then left_behind w.1 f.2 (d !! name) else d !! name) as Hd'.
  { intros name. unfold d', fblock. rewrite disk_app, disk_map. apply fated_all. }
  destruct (IH d' Hn) as [H1 H2]. split.
  - intros k f' w' Hk. rewrite disk_app. fold d'. destruct k as [|k]; cbn in Hk.
    + injection Hk as <- <-. rewrite H2 by done. rewrite Hd'. by destruct (decide _).
    + rewrite (H1 k f' w' Hk), Hd'. destruct (decide _) as [E|]; [|done]. exfalso. apply Hni. apply elem_of_list_fmap. exists (f', w'). split; [done|]. by eapply elem_of_list_lookup_2.
  - intros name Hname. cbn [map fst] in Hname. apply not_elem_of_cons in Hname as [Hn1 Hn2]. rewrite disk_app. fold d'. rewrite (H2 name Hn2), Hd'. by destruct (decide _).
Qed.

Section Fault.
  Context {N : num} (cfg : config) (print_num print_fixed : N -> text) (parse_num parse_attr : text -> option N) (clock : nat -> text).
  Notation session := (session cfg print_num print_fixed parse_num parse_attr clock).
  Notation history_on := (history_on cfg print_num print_fixed parse_num parse_attr clock).
  (** C89.  Whatever happens to the files - never opened, spoilt, each one on its own -: the program prints the same and ends the same way as when all is well, and
      the files that were not hit are complete; one that could not be opened is still what it was before the run. *)
  Theorem C89_unnoticed fates fuel filename file files screen e : session fuel filename file = Some (files, screen, e) ->
    exists h, history_on fates fuel filename (Some file) = Some (h, e) /\ mjoin (said h) = screen /\
      forall d : directory,
        (forall k name content, files !! k = Some (name, content) -> disk_of d h !! name =
           match fates k with Fine => Some content | NotOpened => d !! name | Spoilt s => Some s end) /\
        (forall name, name ∉ map fst files -> disk_of d h !! name = d !! name).
  Proof.
    unfold M_Fault.history_on, M_Console.session. destruct (read_xml file) as [xml|].
    2:{ intros [= <- <- <-]. eexists. split; [reflexivity|]. split; [cbn; by rewrite app_nil_r|]. intros d. split; [intros k ? ? H; by rewrite lookup_nil in H|done]. }
    destruct (load_all cfg parse_num parse_attr xml) as [[[cond env] ps]|err|] eqn:EL.
    2, 3: intros [= <- <- <-]; eexists; (split; [reflexivity|]); (split; [cbn; by rewrite app_nil_r|]); intros d; (split; [intros k ? ? H; by rewrite lookup_nil in H|done]).
    destruct (main_program fuel cond env ps) as [[outs e']|] eqn:EM; [|done]. intros [= <- <- <-]. eexists. split; [reflexivity|].
    set (l := imap (fun k o => (output_file cfg print_num o, (fates k, report cfg print_fixed clock k o))) outs).
    assert (mjoin (imap (output_on cfg print_num print_fixed clock fates) outs) = mjoin (map fblock l)) as El.
    { f_equal. unfold l. apply list_eq. intros i. rewrite list_lookup_fmap, !list_lookup_imap. by destruct (outs !! i). }
    assert (map fst l = map (output_file cfg print_num) outs) as Ef.
    { unfold l. apply list_eq. intros i. rewrite !list_lookup_fmap, !list_lookup_imap. by destruct (outs !! i). }
    assert (map (fun x => x.2.2) l = imap (report cfg print_fixed clock) outs) as Er.
    { unfold l. apply list_eq. intros i. rewrite !list_lookup_fmap, !list_lookup_imap. by destruct (outs !! i). }
    assert (forall k f w, l !! k = Some (f, w) -> w.1 = fates k) as Ew.
    { intros k f w. unfold l. rewrite list_lookup_imap. destruct (outs !! k); [|done]. cbn. by intros [= <- <-]. }
    rewrite El, <- Ef, <- Er. clearbody l. split.
    - change (said ([Say (greeting filename)] ++ mjoin (map fblock l) ++ [Say (farewell print_num e')])) with
        (greeting filename :: said (mjoin (map fblock l) ++ [Say (farewell print_num e')])).
      rewrite said_app, fblocks_said. change (said [Say (farewell print_num e')]) with [farewell print_num e'].
      change (mjoin (greeting filename :: map (fun x => x.2.2) l ++ [farewell print_num e'])) with (greeting filename ++ mjoin (map (fun x => x.2.2) l ++ [farewell print_num e'])).
      rewrite joined. do 2 f_equal. cbn. by rewrite app_nil_r.
    - assert (NoDup (map (fun x => x.1.1) l)) as Hn.
      { assert (map fst (map fst l) = map (fun x => x.1.1) l) as <- by (by rewrite map_map). rewrite Ef. assert (application cfg print_num parse_num parse_attr fuel xml = Some (map (output_file cfg print_num) outs, e')) as HA.
        { unfold application. by rewrite EL, EM. } by destruct (C66_files _ _ _ _ _ _ _ _ HA). }
      intros d. destruct (fblocks_disk l d Hn) as [H1 H2].
      assert (disk_of d ([Say (greeting filename)] ++ mjoin (map fblock l) ++ [Say (farewell print_num e')]) = disk_of d (mjoin (map fblock l))) as Ed.
      { rewrite disk_app. change (disk_of d [Say (greeting filename)]) with d. rewrite disk_app. done. }
      rewrite Ed. split.
      + intros k name content Hk. apply list_lookup_fmap_Some in Hk as ([f w] & Hk & E). cbn [fst] in E. subst f. rewrite <- (Ew k _ w Hk). exact (H1 k (name, content) w Hk).
      + intros name Hname. apply H2. by rewrite map_map in Hname.
  Qed.
  (** C89.  In the extreme: nothing could be written at all, for instance because there is no directory.  The screen shows every file, the program ends with exit code 0. *)
  Corollary C89_nothing_written fuel filename file files screen e : session fuel filename file = Some (files, screen, e) ->
    exists h, history_on (fun _ => NotOpened) fuel filename (Some file) = Some (h, e) /\ mjoin (said h) = screen /\ forall d : directory, disk_of d h = d.
  Proof.
    intros H. destruct (C89_unnoticed (fun _ => NotOpened) _ _ _ _ _ _ H) as (h & H1 & H2 & H3). exists h. split; [done|]. split; [done|]. intros d. destruct (H3 d) as [HA HB].
    apply map_eq. intros name. destruct (decide (name ∈ map fst files)) as [Hin|Hni]; [|by apply HB]. apply elem_of_list_fmap in Hin as ([n c] & -> & Hin).
    apply elem_of_list_lookup in Hin as [k Hk]. exact (HA k n c Hk).
  Qed.
  (** C89.  Without its settings file the program ends without files. *)
  Theorem C89_no_settings fates fuel filename : exists h, history_on fates fuel filename None = Some (h, Terminated) /\
    mjoin (said h) = lit "Input XML file: " ++ filename ++ [newline] /\ forall d : directory, disk_of d h = d.
  Proof. eexists. split; [reflexivity|]. split; [cbn; by rewrite !app_nil_r|done]. Qed.
End Fault.

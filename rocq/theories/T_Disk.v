(** Property theorems: the result directory, at any moment (C87). *)
From Coq Require Import String Ascii.
From Verif Require Import S_App M_Disk T_Csv T_App T_Files.
From stdpp Require Import list gmap.

Lemma put_all name s d t : d !! name = Some t -> foldl apply_event d (map (Put name) s) = <[name := t ++ s]> d.
Proof.
  revert d t. induction s as [|c s IH]; intros d t H; cbn [map foldl]; [by rewrite app_nil_r, insert_id|].
  cbn [apply_event]. rewrite H. cbn [default from_option id]. rewrite (IH _ (t ++ [c])) by apply lookup_insert. by rewrite insert_insert, <- app_assoc.
Qed.
Lemma file_all f d : foldl apply_event d (file_events f) = <[f.1 := f.2]> d.
Proof. unfold file_events. cbn [foldl apply_event]. rewrite (put_all _ _ _ []) by apply lookup_insert. by rewrite insert_insert. Qed.
(** The directory after a number of operations: some files complete, at most one cut. *)
Definition at_moment (d d' : directory) (files : list (text * text)) : Prop :=
  exists done now later, files = done ++ now ++ later /\
    (forall name content, (name, content) ∈ done -> d' !! name = Some content) /\
    (now = [] \/ exists name content cut rest, now = [(name, content)] /\ content = cut ++ rest /\ d' !! name = Some cut) /\
    (forall name, name ∉ map fst (done ++ now) -> d' !! name = d !! name).
Lemma after_moment files : forall d n, NoDup (map fst files) -> at_moment d (disk_after d n files) files.
Proof.
  unfold disk_after. induction files as [|[name content] files IH]; intros d n Hn.
  { exists [], [], []. cbn. rewrite take_nil. split; [done|]. split; [intros ? ? H; by apply elem_of_nil in H|]. split; [by left|done]. }
  cbn [map fst] in Hn. apply NoDup_cons in Hn as [Hni Hn]. cbn [run_events flat_map]. fold (run_events files).
  destruct (decide (length (file_events (name, content)) <= n)%nat) as [L|L].
  - rewrite take_app_ge by done. rewrite foldl_app, file_all. cbn [fst snd].
    destruct (IH (<[name := content]> d) (n - length (file_events (name, content)))%nat Hn) as (done & now & later & -> & H1 & H2 & H3).
    exists ((name, content) :: done), now, later. split; [done|]. split; [|split].
    + intros k c [[= -> ->]|Hin]%elem_of_cons; [|by apply H1]. rewrite H3; [by rewrite lookup_insert|].
      intros Hin. apply Hni. revert Hin. rewrite !map_app. set_solver.
    + exact H2.
    + intros k Hk. cbn [app map fst] in Hk. apply not_elem_of_cons in Hk as [Hk1 Hk2]. rewrite (H3 k Hk2). by rewrite lookup_insert_ne.
  - rewrite take_app_le by lia. unfold file_events. cbn [fst snd]. destruct n as [|n]; cbn [take foldl].
    + exists [], [], ((name, content) :: files). split; [done|]. split; [intros ? ? H; by apply elem_of_nil in H|]. split; [by left|done].
    + rewrite firstn_map. cbn [apply_event]. rewrite (put_all _ _ _ []) by apply lookup_insert. rewrite insert_insert. cbn [app].
      exists [], [(name, content)], files. split; [done|]. split; [intros ? ? H; by apply elem_of_nil in H|]. split.
      * right. exists name, content, (take n content), (drop n content). split; [done|]. split; [by rewrite take_drop|]. apply lookup_insert.
      * intros k Hk. cbn [app map fst] in Hk. apply not_elem_of_cons in Hk as [Hk _]. by rewrite lookup_insert_ne.
Qed.

Section Disk.
  Context {N : num} (cfg : config) (print_num : N -> text) (parse_num parse_attr : text -> option N).
  Notation application := (application cfg print_num parse_num parse_attr).
  Notation part := (particle N (cDim cfg)).
  (** C87.  Whenever the program is killed: the files before some point of the run are complete, the next may be cut anywhere, all others - later files of
      the run and whatever else was in the directory - are as they were. *)
  Theorem C87_killed fuel xml files e d n : application fuel xml = Some (files, e) ->
    exists done now later, files = done ++ now ++ later /\
      (forall name content, (name, content) ∈ done -> disk_after d n files !! name = Some content) /\
      (now = [] \/ exists name content cut rest, now = [(name, content)] /\ content = cut ++ rest /\ disk_after d n files !! name = Some cut) /\
      (forall name, name ∉ map fst (done ++ now) -> disk_after d n files !! name = d !! name).
  Proof. intros H. apply after_moment. by destruct (C66_files _ _ _ _ _ _ _ _ H). Qed.
  (** C87.  After the run: its files are complete, and what was there under other names - files of an earlier, longer run - is still there. *)
  Theorem C87_complete fuel xml files e d n : application fuel xml = Some (files, e) -> (length (run_events files) <= n)%nat ->
    (forall name content, (name, content) ∈ files -> disk_after d n files !! name = Some content) /\
    (forall name, name ∉ map fst files -> disk_after d n files !! name = d !! name).
  Proof.
    intros H Hn. destruct (C66_files _ _ _ _ _ _ _ _ H) as [Hd _]. unfold disk_after. rewrite take_ge by done. clear H Hn.
    revert d Hd. induction files as [|[name content] files IH]; intros d Hd; cbn [run_events flat_map]; [split; [intros ? ? H; by apply elem_of_nil in H|done]|].
    fold (run_events files). rewrite foldl_app, file_all. cbn [map fst snd] in *. apply NoDup_cons in Hd as [Hni Hd]. destruct (IH (<[name := content]> d) Hd) as [H1 H2].
    split.
    - intros k c [[= -> ->]|Hin]%elem_of_cons; [|by apply H1]. rewrite H2 by done. apply lookup_insert.
    - intros k [Hk1 Hk2]%not_elem_of_cons. rewrite H2 by done. by rewrite lookup_insert_ne.
  Qed.
End Disk.

(** ** Cut files *)
Lemma glue_no_newline c l : newline ∉ c -> Forall (fun s => newline ∉ s) l -> newline ∉ glue c l.
Proof.
  intros Hc. induction 1 as [|a l Ha Hl IH]; [apply not_elem_of_nil|]. cbn [glue]. destruct l as [|b l]; [done|]. rewrite !not_elem_of_app. done.
Qed.
Lemma lines_cut (lines : list text) : forall cut rest, Forall (fun s => newline ∉ s) lines -> mjoin (map (fun l => l ++ [newline]) lines) = cut ++ rest -> last cut = Some newline ->
  exists m, (0 < m <= length lines)%nat /\ cut = mjoin (map (fun l => l ++ [newline]) (take m lines)).
Proof.
  induction lines as [|l lines IH]; intros cut rest HF E HL.
  { cbn in E. symmetry in E. apply app_eq_nil in E as [-> _]. done. }
  inversion HF as [|? ? Hl HF']; subst. cbn [map mjoin list_join] in E. change (mjoin ((l ++ [newline]) :: map (fun l => l ++ [newline]) lines)) with ((l ++ [newline]) ++ mjoin (map (fun l => l ++ [newline]) lines)) in E.
  destruct (decide (length cut <= length l)%nat) as [L|L].
  - exfalso. assert (cut = take (length cut) l) as Hc.
    { apply (f_equal (take (length cut))) in E. rewrite take_app in E. rewrite <- app_assoc, take_app_le in E by done. done. }
    apply Hl. apply last_Some in HL as [c' Hc']. rewrite Hc' in Hc at 1. rewrite <- (take_drop (length cut) l), <- Hc. rewrite !elem_of_app. left. right. by apply elem_of_list_singleton.
  - assert (cut = (l ++ [newline]) ++ drop (length (l ++ [newline])) cut) as Hc.
    { rewrite <- (take_drop (length (l ++ [newline])) cut) at 1. f_equal. apply (f_equal (take (length (l ++ [newline])))) in E. rewrite take_app in E.
      rewrite take_app_le in E; [done|]. rewrite app_length. cbn. lia. }
    set (cut' := drop (length (l ++ [newline])) cut) in *. clearbody cut'. subst cut. rewrite <- (app_assoc (l ++ [newline]) cut' rest) in E. apply app_inv_head in E.
    destruct (decide (cut' = [])) as [->|Hne].
    + exists 1%nat. cbn [take map length]. split; [lia|]. reflexivity.
    + assert (last cut' = Some newline) as HL'. { rewrite last_app in HL. destruct (last cut') eqn:El; [done|]. apply last_None in El. done. }
      destruct (IH cut' rest HF' E HL') as (m & Hm & ->). exists (S m). cbn [length take map]. split; [lia|]. done.
Qed.

Section Cut.
  Context {N : num} {d : dim} (print_num : N -> text) (parse_num : text -> option N).
  Notation part := (particle N d).
  (** C87.  A file cut at the end of a line cannot be told from a complete file with fewer particles. *)
  Theorem C87_cut (ps : list part) cut rest : (forall p v, p ∈ ps -> value_of p v -> plain (print_num v)) ->
    write_csv print_num ps = cut ++ rest -> last cut = Some newline -> exists m, (m <= length ps)%nat /\ cut = write_csv print_num (take m ps).
  Proof.
    intros Hp E HL. assert (forall l : list part, write_csv print_num l = mjoin (map (fun l => l ++ [newline]) (glue sep (columns d) :: map (fun p => glue sep (fields print_num p)) l))) as HW.
    { intros l. unfold write_csv. cbn [map]. rewrite map_map. done. }
    assert (newline ∉ sep) as Hsep by (apply (bool_decide_unpack _); vm_compute; done).
    rewrite HW in E. apply lines_cut in E as (m & Hm & ->); [| |done].
    - cbn [length] in Hm. rewrite map_length in Hm. destruct m as [|m]; [lia|]. exists m. split; [lia|]. rewrite HW. cbn [take]. by rewrite firstn_map.
    - constructor.
      + apply glue_no_newline; [done|]. apply (bool_decide_unpack _). destruct d; vm_compute; done.
      + apply Forall_map. apply list.Forall_forall. intros p Hin. apply glue_no_newline; [done|].
        assert (forall v, value_of p v -> newline ∉ print_num v) as HV. { intros v Hv Hn. by destruct (Hp p v Hin Hv _ Hn) as (_ & ? & _). }
        unfold fields. constructor; [|apply Forall_app; split; [|apply Forall_app; split]].
        * destruct (print_whole (Z_of_ptype (pT p))) as (ds & -> & Hd & _). assert (newline ∉ ds) as Hds.
          { intros H. rewrite list.Forall_forall in Hd. specialize (Hd _ H). unfold digit in Hd. vm_compute in Hd. lia. }
          destruct (_ <? 0)%Z; [|done]. apply not_elem_of_cons. split; [done|done].
        * apply Forall_map, list.Forall_forall. intros k [_ Hk]%elem_of_seq. apply HV. right. right. exists k. split; [lia|by left].
        * apply Forall_map, list.Forall_forall. intros k [_ Hk]%elem_of_seq. apply HV. right. right. exists k. split; [lia|by right].
        * repeat constructor; apply HV; [by left|right; by left].
  Qed.
  (** C87.  So a program started from it runs with the first particles only, without any message. *)
  Theorem C87_cut_read (round : N -> N) (ps : list part) cut rest :
    (forall p v, p ∈ ps -> value_of p v -> plain (print_num v) /\ parse_num (print_num v) = Some (round v)) ->
    Forall (fun p => int_type (pT p)) ps -> write_csv print_num ps = cut ++ rest -> last cut = Some newline ->
    exists m, (m <= length ps)%nat /\ read_csv parse_num cut = Read (map (reread round) (take m ps)).
  Proof.
    intros Hv Ht E HL. destruct (C87_cut ps cut rest) as (m & Hm & ->); [intros p v Hin Hpv; by destruct (Hv p v Hin Hpv)|done|done|].
    exists m. split; [done|]. apply C45_round_trip; [|by apply Forall_take]. intros p v Hin. apply Hv.
    rewrite <- (take_drop m ps). apply elem_of_app. by left.
  Qed.
End Cut.

(** Property theorems: the program as something that happens to a disk (C90). *)
From Coq Require Import String Ascii.
From Verif Require Import S_App S_Log M_Start T_App T_Files T_Disk T_Console T_Log T_Fault.
From stdpp Require Import list gmap.

Section Start.
  Context {N : num} (cfg : config) (print_num print_fixed : N -> text) (parse_num parse_attr : text -> option N) (clock : nat -> text).
  Notation session := (session cfg print_num print_fixed parse_num parse_attr clock).
  Notation history_on := (history_on cfg print_num print_fixed parse_num parse_attr clock).
  Notation execute := (execute cfg print_num print_fixed parse_num parse_attr clock).
  Local Strategy expand [load_condition load_env load_particles load_all].
  (** C90.  The first argument is the name of the settings file; the name of the program and further arguments do not matter; without an argument it is the sample. *)
  Theorem C90_arguments (fates : nat -> fate) (mkdir : bool) (fuel : nat) (program program' name : text) (more more' : list text) (d : directory) :
    execute fates mkdir fuel (program :: name :: more) d = execute fates mkdir fuel (program' :: name :: more') d /\
    execute fates mkdir fuel [program] d = execute fates mkdir fuel [program'; lit "../../Benchmark/Sample/Sample.xml"] d.
  Proof. done. Qed.
  Lemma history_on_name (fates : nat -> fate) (fuel : nat) (name name' : text) file h e : history_on fates fuel name file = Some (h, e) ->
    exists t, h = Say (greeting name) :: t /\ history_on fates fuel name' file = Some (Say (greeting name') :: t, e).
  Proof.
    unfold M_Fault.history_on. destruct file as [file|]; [|intros [= <- <-]; eauto]. destruct (read_xml file) as [xml|]; [|intros [= <- <-]; eauto].
    destruct (load_all cfg parse_num parse_attr xml) as [[[cond env] ps]|err|]; [|intros [= <- <-]; by eauto|intros [= <- <-]; by eauto].
    destruct (main_program fuel cond env ps) as [[outs e']|]; [|done]. intros [= <- <-]. eexists. split; [reflexivity|]. reflexivity.
  Qed.
  (** C90.  Only the contents of the settings file matter, not its name, nor anything else on the disk: with the same contents everything after the first line is the same. *)
  Theorem C90_contents (fates : nat -> fate) (fuel : nat) (program program' name name' : text) (more more' : list text) (d d' : directory) h e : d !! name = d' !! name' ->
    execute fates true fuel (program :: name :: more) d = Some (h, e) ->
    exists h', execute fates true fuel (program' :: name' :: more') d' = Some (h', e) /\ tail h = tail h' /\
      forall x : directory, disk_of x h' = disk_of x h.
  Proof.
    intros Hd. unfold M_Start.execute. cbn [settings_name]. rewrite Hd. intros H. destruct (history_on_name _ _ _ name' _ _ _ H) as (t & -> & H'). eexists. split; [exact H'|]. done.
  Qed.
  Lemma history_on_session (fates : nat -> fate) (fuel : nat) (name file : text) h e : history_on fates fuel name (Some file) = Some (h, e) -> exists files screen, session fuel name file = Some (files, screen, e).
  Proof.
    unfold M_Fault.history_on, M_Console.session. destruct (read_xml file) as [xml|]; [|intros [= <- <-]; eauto].
    destruct (load_all cfg parse_num parse_attr xml) as [[[cond env] ps]|err|]; [|intros [= <- <-]; by eauto|intros [= <- <-]; by eauto].
    destruct (main_program fuel cond env ps) as [[outs e']|]; [|done]. intros [= <- <-]. eauto.
  Qed.
  Lemma session_names (fuel : nat) (name file : text) files screen e : session fuel name file = Some (files, screen, e) -> forall n, n ∈ map fst files -> exists z, numbered z n.
  Proof.
    intros H n Hn. apply C86_screen in H as [H _]. unfold program in H. destruct (read_xml file) as [xml|]; [|injection H as <- _; by apply elem_of_nil in Hn].
    destruct (C66_files _ _ _ _ _ _ _ _ H) as [_ HF]. apply elem_of_list_fmap in Hn as ([n' c] & -> & Hin). apply elem_of_list_lookup in Hin as [k Hk].
    destruct HF as (cond & env & ps & first & s & iter & _ & _ & _ & _ & HF & _); [by destruct files|]. destruct (HF k) as (name' & s' & Hk' & Hnum & _); [by eapply lookup_lt_Some|].
    rewrite Hk in Hk'. injection Hk' as -> _. eauto.
  Qed.
  (** C90.  Running again changes nothing: whatever fails in both runs, if the settings file does not have the name of an output file, the second run prints the same, ends the same
      way and leaves the disk as it is. *)
  Theorem C90_again (fates : nat -> fate) (mkdir : bool) (fuel : nat) (argv : list text) (d : directory) h e : (forall name z, settings_name argv = Some name -> ~ numbered z name) ->
    execute fates mkdir fuel argv d = Some (h, e) ->
    execute fates mkdir fuel argv (disk_of d h) = Some (h, e) /\ disk_of (disk_of d h) h = disk_of d h.
  Proof.
    unfold M_Start.execute. destruct mkdir; [|by intros _ [= <- <-]]. destruct (settings_name argv) as [name|] eqn:En; [|by intros _ [= <- <-]]. intros Hn H.
    destruct (d !! name) as [file|] eqn:Ef.
    2:{ assert (h = [Say (greeting name)]) as Eh by (injection H as <- _; done). subst h. change (disk_of d [Say (greeting name)]) with d. by rewrite Ef. }
    destruct (history_on_session _ _ _ _ _ _ H) as (files & screen & HS). destruct (C89_unnoticed _ _ _ _ _ _ fates _ _ _ _ _ _ HS) as (h0 & H0 & _ & HD).
    rewrite H in H0. injection H0 as <-. split.
    - destruct (HD d) as [_ HO]. rewrite HO; [by rewrite Ef|]. intros Hin. destruct (session_names _ _ _ _ _ _ HS _ Hin) as [z Hz]. by apply (Hn name z).
    - destruct (HD d) as [H1 H2]. destruct (HD (disk_of d h)) as [H3 H4]. apply map_eq. intros n. destruct (decide (n ∈ map fst files)) as [Hin|Hni]; [|by apply H4].
      apply elem_of_list_fmap in Hin as ([n' c] & -> & Hin). apply elem_of_list_lookup in Hin as [k Hk]. cbn [fst]. rewrite (H3 k _ _ Hk). specialize (H1 k _ _ Hk).
      destruct (fates k); by rewrite H1.
  Qed.
  Lemma history_on_fine fuel (name file : text) : history_on (fun _ => Fine) fuel name (Some file) = history cfg print_num print_fixed parse_num parse_attr clock fuel name file.
  Proof. reflexivity. Qed.
  (** C90.  Killed and started again: a run that is interrupted at any moment and then started anew leaves the disk as one that was not interrupted, if writing works. *)
  Theorem C90_killed (mkdir : bool) (fuel : nat) (argv : list text) (d : directory) h e n : (forall name z, settings_name argv = Some name -> ~ numbered z name) ->
    execute (fun _ => Fine) mkdir fuel argv d = Some (h, e) -> let killed := disk_of d (take n h) in
    execute (fun _ => Fine) mkdir fuel argv killed = Some (h, e) /\ disk_of killed h = disk_of d h.
  Proof.
    cbn zeta. unfold M_Start.execute. destruct mkdir; [|intros _ [= <- <-]; by rewrite take_nil]. destruct (settings_name argv) as [name|] eqn:En; [|intros _ [= <- <-]; by rewrite take_nil].
    intros Hn H. destruct (d !! name) as [file|] eqn:Ef.
    2:{ assert (h = [Say (greeting name)]) as Eh by (injection H as <- _; done). subst h. assert (disk_of d (take n [Say (greeting name)]) = d) as -> by (by destruct n as [|[|n]]).
        by rewrite Ef. }
    rewrite history_on_fine in H. destruct (C87_reported _ _ _ _ _ _ _ _ _ _ _ H) as (files & screen & HS & _ & HC). destruct (HC d n) as (_ & _ & HO). clear HC.
    destruct (C89_unnoticed _ _ _ _ _ _ (fun _ => Fine) _ _ _ _ _ _ HS) as (h0 & H0 & _ & HD). rewrite history_on_fine, H in H0. injection H0 as <-.
    set (killed := disk_of d (take n h)) in *. split.
    - rewrite HO; [by rewrite Ef, history_on_fine|]. intros Hin. destruct (session_names _ _ _ _ _ _ HS _ Hin) as [z Hz]. by apply (Hn name z).
    - destruct (HD d) as [H1 H2]. destruct (HD killed) as [H3 H4]. apply map_eq. intros m. destruct (decide (m ∈ map fst files)) as [Hin|Hni]; [|by rewrite H4, H2, HO].
      apply elem_of_list_fmap in Hin as ([m' c] & -> & Hin). apply elem_of_list_lookup in Hin as [k Hk]. cbn [fst]. by rewrite (H3 k _ _ Hk), (H1 k _ _ Hk).
  Qed.
End Start.

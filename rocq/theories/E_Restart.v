(** A concrete restart from an output file (C69). *)
From Coq Require Import String Ascii Decimal.
From Verif Require Import M_NumF S_App T_App T_Files T_Csv T_Restart E_App.
From stdpp Require Import list countable.

(** Numbers written exactly: a number coding the float. *)
Definition float_parts (x : spec_float) : bool * positive * Z + positive :=
  match x with
  | S754_finite s m e => inl (s, m, e)
  | S754_zero s => inr (if s then 2 else 1)%positive | S754_infinity s => inr (if s then 4 else 3)%positive | S754_nan => inr 5%positive
  end.
Definition float_of (x : bool * positive * Z + positive) : spec_float :=
  match x with
  | inl (s, m, e) => S754_finite s m e
  | inr 1%positive => S754_zero false | inr 2%positive => S754_zero true
  | inr 3%positive => S754_infinity false | inr 4%positive => S754_infinity true | inr _ => S754_nan
  end.
Definition exactly (x : F64num) : text := print_int (Zpos (encode (float_parts x))).
Definition exact_number (s : text) : option F64num :=
  match Z.of_int (Pos (text_uint s)) with Zpos q => match decode q with Some x => Some (float_of x) | None => None end | _ => None end.
Lemma exact_round_trip v : plain (exactly v) /\ exact_number (exactly v) = Some v.
Proof.
  split; [apply print_int_plain|]. unfold exactly, exact_number. set (q := encode (float_parts v)).
  destruct (print_int_cases (Zpos q)) as (u & Hu & [[-> H]|[-> H]]).
  - rewrite text_uint_text, H. unfold q. rewrite decode_encode. by destruct v as [[]|[]| |].
  - exfalso. cbn in H. destruct (Z.of_uint u) eqn:E; cbn in H; try discriminate. unfold Z.of_uint in E. destruct (Pos.of_uint u); discriminate.
Qed.

Notation run := (application default_config exactly exact_number hundredths).
Notation loads := (load_all default_config exact_number hundredths).
Definition c (z : Z) : F64num := nofZ z /. nofZ 100.
Definition first_particles : list (particle F64num D2) :=
  [mkParticle (N := F64num) (d := D2) (c 0, c 100) (c 0, c 0) (c 0) (c 0) Newton; mkParticle (N := F64num) (d := D2) (c 0, c (-300)) (c 0, c 0) (c 0) (c 0) Wall].
Definition first_table : text := write_csv (d := D2) exactly first_particles.
Definition first_settings : ptree := settings_tree entries "csv" first_table.
Definition file_of {E} (k : nat) (r : option (list (text * text) * E)) : text :=
  match r with Some (files, _) => match files !! k with Some f => f.2 | None => [] end | None => [] end.
(** The table of the restarted program: the file with number 7 of the first run. *)
Definition second_table : text := file_of 2 (run 100 first_settings).
Definition second_settings : ptree := settings_tree entries "csv" second_table.

(** What the two programs do, by computation. *)
Lemma exact_types (ps : list (particle F64num D2)) ps' :
  Forall (fun p => int_type (pT p)) ps -> write_csv exactly ps = write_csv exactly ps' -> Forall (fun p => int_type (pT p)) ps' -> ps = ps'.
Proof.
  intros H E H'. assert (Read ps = Read ps') as HR; [|by injection HR].
  rewrite <- (C45_faithful exactly exact_number ps), <- (C45_faithful exactly exact_number ps'), E; try done; intros; apply exact_round_trip.
Qed.
Definition second_first : text := file_of 1 (run 100 second_settings).
Lemma first_run : exists files, run 100 first_settings = Some (files, Finished) /\ exists name, files !! 2%nat = Some (name, second_table).
Proof.
  assert (match run 100 first_settings with Some (files, e) => Some (length files, e) | None => None end =
    Some (5%nat, Finished)) as HC by compute_run.
  unfold second_table, file_of. destruct (run 100 first_settings) as [[files e]|]; [|discriminate]. injection HC as HL ->. exists files. split; [done|].
  destruct (lookup_lt_is_Some_2 files 2%nat) as [[name content] Hk]; [rewrite HL; lia|]. exists name. by rewrite Hk.
Qed.
Lemma second_run : exists files e, run 100 second_settings = Some (files, e) /\ exists name, files !! 1%nat = Some (name, second_first).
Proof.
  assert (match run 100 second_settings with Some (files, e) => Some (length files) | None => None end = Some 3%nat) as HC by compute_run.
  unfold second_first, file_of. destruct (run 100 second_settings) as [[files e]|]; [|discriminate]. injection HC as HL. exists files, e. split; [done|].
  destruct (lookup_lt_is_Some_2 files 1%nat) as [[name content] Hk]; [rewrite HL; lia|]. exists name. by rewrite Hk.
Qed.
Definition settings_of (r : load (condition (N := F64num) * environment F64num default_config * list (particle F64num D2))) :=
  match r with Loaded (c, e, _) => Some (c, e) | _ => None end.
Definition types_of (r : csv_result (list (particle F64num D2))) : option (list ptype) := match r with Read ps => Some (map pT ps) | _ => None end.
Lemma same_loaded : settings_of (loads second_settings) = settings_of (loads first_settings).
Proof. compute_run. Qed.
Lemma first_loaded : exists cond env ps, loads first_settings = Loaded (cond, env, ps).
Proof.
  assert (match settings_of (loads first_settings) with Some _ => true | None => false end = true) as HC by compute_run.
  destruct (loads first_settings) as [[[cond env] ps]| |]; [|discriminate..]. by exists cond, env, ps.
Qed.
Lemma second_types : types_of (read_csv exact_number second_table) = Some [Newton; Wall] /\ types_of (read_csv exact_number second_first) = Some [Newton; Wall].
Proof. split; compute_run. Qed.
Lemma second_is_table : table second_settings second_table.
Proof.
  unfold second_settings. generalize second_table. intros t. apply found_get. eexists. split; vm_compute; reflexivity.
Qed.

(** The state the second program writes after its first interval is one the first program passes through. *)
Lemma example_restart : exists cond env ps s n t m u name files e,
  loads first_settings = Loaded (cond, env, ps) /\ initial cond env ps s /\ stepped s n t /\ second_table = write_csv exactly (cParts t) /\
  run 100 second_settings = Some (files, e) /\ stepped t m u /\ files !! 1%nat = Some (name, write_csv exactly (cParts u)).
Proof.
  destruct first_run as (files & Hr & name & Hk). destruct second_run as (files' & e' & Hr' & name' & Hk').
  destruct first_loaded as (cond & env & ps & Hl).
  assert (exists ps', loads second_settings = Loaded (cond, env, ps')) as [ps' Hl'].
  { pose proof same_loaded as HS. rewrite Hl in HS. destruct (loads second_settings) as [[[cond' env'] ps']| |]; cbn in HS; [|discriminate..].
    injection HS as -> ->. by exists ps'. }
  destruct (C69_files default_config exactly exact_number hundredths 100 first_settings files Finished cond env ps 2 name second_table 100 second_settings files' e' cond ps')
    as (s & n & t & Hi & Hn & Ht & HF); [by left|exact Hr|exact Hl|exact Hk|exact Hr'|exact Hl'|reflexivity|exact second_is_table|].
  specialize (HF ltac:(intros; apply exact_round_trip) 1%nat _ _ Hk') as (m & qs & Hq & Hty & HF).
  assert (Forall (fun p => int_type (pT p)) (cParts t)) as It.
  { destruct (started _ _ _ _ Hi) as (_ & HP & _). pose proof (stepped_types _ _ _ Hn) as F. rewrite HP in F. eapply types_stay_int; [exact F|].
    destruct (C64_settings _ _ _ _ _ _ _ Hl) as (_ & _ & _ & _ & _ & _ & _ & _ & _ & _ & _ & _ & _ & txt0 & _ & _ & R0). by eapply read_types. }
  pose proof (types_stay_int _ _ Hty It) as Iq.
  pose proof second_types as [T1 T2].
  assert (read_csv exact_number second_table = Read (cParts t)) as R1 by (rewrite Ht; apply C45_faithful; [intros; apply exact_round_trip|exact It]).
  assert (read_csv exact_number second_first = Read qs) as R2 by (rewrite Hq; apply C45_faithful; [intros; apply exact_round_trip|exact Iq]).
  pose proof (eq_trans (eq_sym (f_equal types_of R1)) T1) as T1'. pose proof (eq_trans (eq_sym (f_equal types_of R2)) T2) as T2'.
  cbn [types_of] in T1', T2'. injection T1' as T1'. injection T2' as T2'.
  destruct HF as (u & Hu & Eq). { unfold nobody_left. exact (eq_trans T2' (eq_sym T1')). }
  exists cond, env, ps, s, n, t, m, u, name', files', e'. rewrite Eq, <- Hq.
  split; [exact Hl|]. split; [exact Hi|]. split; [exact Hn|]. split; [exact Ht|]. split; [exact Hr'|]. split; [exact Hu|exact Hk'].
Qed.

(** C69, limits.  But the files of the restarted program need not be files of the first one: its clock starts at zero although the first
    program had overshot the output time, so it looks at the same trajectory at other moments. *)
Definition contents_of {E} (r : option (list (text * text) * E)) : list text := match r with Some (files, _) => map snd files | None => [] end.
Lemma same_attribute xml xml' section nm s :
  tree_data <$> get_child xml [lit "openmps"; lit section; lit nm; lit "<xmlattr>"; lit "value"] =
  tree_data <$> get_child xml' [lit "openmps"; lit section; lit nm; lit "<xmlattr>"; lit "value"] ->
  attribute xml' section nm s <-> attribute xml section nm s.
Proof.
  unfold attribute. rewrite !found_get. destruct (get_child xml _) as [a|], (get_child xml' _) as [b|]; intros HF; cbn in HF; simplify_eq; [|done].
  split; intros (u & Hu & <-); injection Hu as <-; eauto.
Qed.
Theorem C69_refuted_same_files : exists xml xml' (files files' : list (text * text)) e e' (k l : nat) name name' content content',
  application default_config exactly exact_number hundredths 100 xml = Some (files, e) /\ files !! k = Some (name, content) /\
  (forall section name s, needed default_config section name -> attribute xml' section name s <-> attribute xml section name s) /\ table xml' content /\
  application default_config exactly exact_number hundredths 100 xml' = Some (files', e') /\ files' !! l = Some (name', content') /\
  (1 <= l)%nat /\ forall name, (name, content') ∉ files.
Proof.
  destruct first_run as (files & Hr & name & Hk). destruct second_run as (files' & e' & Hr' & name' & Hk').
  exists first_settings, second_settings, files, files', Finished, e', 2%nat, 1%nat, name, name', second_table, second_first.
  split; [exact Hr|]. split; [exact Hk|]. split; [|split; [exact second_is_table|split; [exact Hr'|split; [exact Hk'|split; [lia|]]]]].
  - intros section nm s Hn.
    assert (forallb (fun e => bool_decide (
       (tree_data <$> get_child first_settings [lit "openmps"; lit e.1; lit e.2; lit "<xmlattr>"; lit "value"]) =
       (tree_data <$> get_child second_settings [lit "openmps"; lit e.1; lit e.2; lit "<xmlattr>"; lit "value"])))
       (needed_entries default_config) = true) as HF by compute_run.
    rewrite forallb_forall in HF. specialize (HF (section, nm) (proj1 (elem_of_list_In _ _) Hn)). rewrite bool_decide_eq_true in HF. cbn [fst snd] in HF.
    apply same_attribute. exact HF.
  - intros nm Hin. assert (bool_decide (second_first ∈ contents_of (run 100 first_settings)) = false) as HC by compute_run.
    apply bool_decide_eq_false in HC. apply HC. rewrite Hr. cbn [contents_of]. apply elem_of_list_fmap. exists (nm, second_first). split; [reflexivity|exact Hin].
Qed.

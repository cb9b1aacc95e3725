(** C69: restart from an output file. *)
From Coq Require Import String Ascii.
From Verif Require Export T_Walls T_Files.
From Verif Require Import M_App S_App T_App T_Csv.
From stdpp Require Import list.

Section Types.
  Context {N : num} {d : dim} (parse_num : text -> option N).
  Lemma csv_bind_Read {A B} (r : csv_result A) (f : A -> csv_result B) b : csv_bind r f = Read b -> exists a, r = Read a /\ f a = Read b.
  Proof. destruct r; cbn; try done. eauto. Qed.
  Lemma parse_int_range s z : parse_int s = Some z -> (-2^31 <= z < 2^31)%Z.
  Proof.
    unfold parse_int. destruct (read_sign _) as [neg r]. destruct (text_uint r); [done|..];
      (cbv zeta; match goal with |- (if ?b then _ else _) = _ -> _ => destruct b eqn:E; [|done] end; intros [= <-]; apply andb_true_iff in E as [E1 E2]; apply Z.leb_le in E1; apply Z.ltb_lt in E2; by split).
  Qed.
  Lemma read_types csv (ps : list (particle N d)) : read_csv parse_num csv = Read ps -> Forall (fun p => int_type (pT p)) ps.
  Proof.
    unfold read_csv. destruct (skip_empty _) as [[first lines]|]; [|done]. destruct (header_fill _ _ _) as [h0|]; [|done].
    destruct (header_check h0) as [h|]; [|done]. clear first h0.
    revert ps. induction lines as [|line lines IH]; intros ps; cbn [read_rows].
    - intros [= <-]. constructor.
    - destruct (get_items line) as [|a l]; [apply IH|]. intros H. apply csv_bind_Read in H as (p & Hp & H).
      apply csv_bind_Read in H as (ps' & Hps & [= <-]). constructor; [|by apply IH]. clear - Hp. unfold read_row in Hp.
      apply csv_bind_Read in Hp as (t & Ht & Hp). apply csv_bind_Read in Hp as (x & _ & Hp). apply csv_bind_Read in Hp as (u & _ & Hp).
      apply csv_bind_Read in Hp as (pp & _ & Hp). apply csv_bind_Read in Hp as (pn & _ & [= <-]). cbn.
      unfold read_type in Ht. apply csv_bind_Read in Ht as (s & _ & Ht). destruct (parse_int s) as [z|] eqn:E; [|done]. injection Ht as <-.
      exists z. split; [by eapply parse_int_range|by apply type_is_iff].
  Qed.
  Lemma types_stay_int (ps qs : list (particle N d)) :
    Forall2 (fun p p' => pT p' = pT p \/ pT p' = Disabled) ps qs -> Forall (fun p => int_type (pT p)) ps -> Forall (fun p => int_type (pT p)) qs.
  Proof.
    induction 1 as [|x y l l' Hxy _ IH]; intros R0; [constructor|].
    apply list.Forall_cons_1 in R0 as [Hx R0]. constructor; [|by apply IH]. destruct Hxy as [->|Hy]; [done|]. rewrite Hy. exists 3%Z. split; [done|by apply type_is_iff].
  Qed.
End Types.

Section Output.
  Context {N : num} (cfg : config) (print_num : N -> text) (parse_num parse_attr : text -> option N).
  Notation application := (application cfg print_num parse_num parse_attr).
  Notation load_all := (load_all cfg parse_num parse_attr).

  (** C69.  Restart from a file.  A program is started with the same settings as an earlier run, except that the particle table is the [k]-th
      file that run has written.  If the numbers in that file survived printing and reading, every file it writes shows - unless a particle has left
      the grid since - a state through which the earlier run, going on from the point where it wrote that file, passes. *)
  Theorem C69_files fuel xml files e cond env ps k name content fuel' xml' files' e' cond' ps' :
    square_ground env ->
    application fuel xml = Some (files, e) -> load_all xml = Loaded (cond, env, ps) -> files !! k = Some (name, content) ->
    application fuel' xml' = Some (files', e') -> load_all xml' = Loaded (cond', env, ps') -> coEps cond' = coEps cond -> table xml' content ->
    exists s n t, initial cond env ps s /\ stepped s n t /\ content = write_csv print_num (cParts t) /\
      ((forall p v, p ∈ cParts t -> value_of p v -> plain (print_num v) /\ parse_num (print_num v) = Some v) ->
      forall l name' content', files' !! l = Some (name', content') -> exists m qs, content' = write_csv print_num qs /\
        Forall2 (fun p p' => pT p' = pT p \/ pT p' = Disabled) (cParts t) qs /\
        (nobody_left t qs -> exists u, stepped t m u /\ cParts u = qs)).
  Proof.
    intros Hsq Ha Hl Hk Ha' Hl' Heps Htab.
    destruct (C66_files _ _ _ _ _ _ _ _ Ha) as [_ HF]. destruct HF as (cond1 & env1 & ps1 & first & s & iter & Hl1 & Hi & _ & _ & HF & _).
    { intros ->. by rewrite lookup_nil in Hk. }
    rewrite Hl in Hl1. injection Hl1 as <- <- <-.
    destruct (HF k) as (name1 & t & Hk1 & _ & Hst); [by eapply lookup_lt_Some|]. rewrite Hk in Hk1. injection Hk1 as <- ->.
    exists s, (iter k), t. split; [done|]. split; [done|]. split; [done|]. intros Hpr.
    destruct (started _ _ _ _ Hi) as (_ & HP & _).
    assert (ps' = cParts t) as ->.
    { destruct (C64_settings _ _ _ _ _ _ _ Hl) as (_ & _ & _ & _ & _ & _ & _ & _ & _ & _ & _ & _ & _ & txt0 & _ & _ & R0).
      destruct (C64_settings _ _ _ _ _ _ _ Hl') as (_ & _ & _ & _ & _ & _ & _ & _ & _ & _ & _ & _ & _ & txt & _ & T1 & R1).
      assert (txt = write_csv print_num (cParts t)) as -> by (by eapply found_fun).
      rewrite C45_faithful in R1; [by injection R1 as <-|intros; by eapply Hpr|].
      apply read_types in R0. pose proof (stepped_types _ _ _ Hst) as F. rewrite HP in F. by eapply types_stay_int. }
    intros l name' content' Hl2.
    destruct (C66_files _ _ _ _ _ _ _ _ Ha') as [_ HF']. destruct HF' as (cond2 & env2 & ps2 & first' & s' & iter' & Hl3 & Hi' & _ & _ & HF' & _).
    { intros ->. by rewrite lookup_nil in Hl2. }
    rewrite Hl' in Hl3. injection Hl3 as <- <- <-.
    destruct (HF' l) as (name2 & u' & Hk2 & _ & Hst'); [by eapply lookup_lt_Some|]. rewrite Hl2 in Hk2. injection Hk2 as <- ->.
    exists (iter' l), (cParts u'). split; [done|].
    split. { pose proof (stepped_types _ _ _ Hst') as F0. destruct (started _ _ _ _ Hi') as (_ & HP' & _). revert F0. generalize (cParts u'). rewrite HP'. auto. }
    intros HL.
    exact (C69_restart_faithful cond cond' env ps s t (iter k) s' Hsq Heps Hi Hst Hi' (iter' l) u' Hst' HL).
  Qed.
End Output.

(** Property theorems: the time axis of the evaluation scripts (C83). *)
From Coq Require Import String Ascii Permutation Sorting.Sorted.
From Verif Require Import P_Real T_Csv T_Env T_Main T_App T_Files M_Post S_Post T_Post.
From stdpp Require Import list sorting.
Open Scope R_scope.

(** ** Sorting *)
Lemma py_less_iff a b : py_less a b = true <-> sorts_before a b.
Proof.
  revert b. induction a as [|c a IH]; intros [|c' b]; cbn [py_less].
  - split; [done|]. intros H; inversion H.
  - split; [constructor|done].
  - split; [done|]. intros H; inversion H.
  - destruct (Nat.ltb_spec (Ascii.nat_of_ascii c) (Ascii.nat_of_ascii c')) as [L|L]; [split; [by intros _; apply sb_less|done]|].
    destruct (Nat.ltb_spec (Ascii.nat_of_ascii c') (Ascii.nat_of_ascii c)) as [L'|L'].
    + split; [done|]. intros H. inversion H; subst; lia.
    + assert (c = c') as -> by (rewrite <- (Ascii.ascii_nat_embedding c), <- (Ascii.ascii_nat_embedding c'); f_equal; lia).
      rewrite IH. split; [by apply sb_same|]. intros H. inversion H; subst; [lia|done].
Qed.
Lemma sb_irrefl a : ~ sorts_before a a.
Proof. induction a as [|c a IH]; intros H; inversion H; subst; [lia|auto]. Qed.
Lemma sb_trans a : forall b c, sorts_before a b -> sorts_before b c -> sorts_before a c.
Proof.
  induction a as [|x a IH]; intros b c H1 H2; inversion H1; subst; inversion H2; subst; try (by constructor); try (apply sb_less; lia).
  apply sb_same. eauto.
Qed.
Definition before (f g : text * text) : Prop := sorts_before f.1 g.1.
Lemma insert_first f l : Forall (before f) l -> py_insert f l = f :: l.
Proof.
  destruct l as [|g l]; [done|]. intros [H _]%list.Forall_cons. cbn. destruct (py_less g.1 f.1) eqn:E; [|done].
  apply py_less_iff in E. exfalso. apply (sb_irrefl f.1). by eapply sb_trans.
Qed.
Lemma insert_swap f g l : before f g -> py_insert f (py_insert g l) = py_insert g (py_insert f l).
Proof.
  intros H. assert (py_less g.1 f.1 = false) as Hgf.
  { apply not_true_is_false. intros E%py_less_iff. apply (sb_irrefl f.1). by eapply sb_trans. }
  assert (py_less f.1 g.1 = true) as Hfg by (by apply py_less_iff).
  induction l as [|x l IH]; cbn; [by rewrite Hgf, Hfg|].
  destruct (py_less x.1 g.1) eqn:Eg, (py_less x.1 f.1) eqn:Ef; cbn; rewrite ?Eg, ?Ef, ?Hgf, ?Hfg; cbn; rewrite ?Eg, ?Ef, ?IH; try done.
  exfalso. apply py_less_iff in Ef. assert (py_less x.1 g.1 = true) as C by (apply py_less_iff; by eapply sb_trans). by rewrite C in Eg.
Qed.
Lemma before_total f g : f.1 <> g.1 -> before f g \/ before g f.
Proof.
  destruct f as [a x], g as [b y]. unfold before. cbn. clear x y. revert b. induction a as [|c a IH]; intros [|c' b] H; [done|left; constructor|right; constructor|].
  destruct (lt_eq_lt_dec (Ascii.nat_of_ascii c) (Ascii.nat_of_ascii c')) as [[L|E]|L]; [left; by apply sb_less| |right; by apply sb_less].
  assert (c = c') as -> by (rewrite <- (Ascii.ascii_nat_embedding c), <- (Ascii.ascii_nat_embedding c'); by rewrite E).
  destruct (IH b) as [|]; [congruence|left; by apply sb_same|right; by apply sb_same].
Qed.
(** However the directory lists them, files with different names come out in one order. *)
Lemma sorted_perm l l' : l ≡ₚ l' -> List.NoDup (map fst l) -> py_sorted l = py_sorted l'.
Proof.
  induction 1 as [|f l l' HP IH|f g l|l1 l2 l3 H1 IH1 H2 IH2]; intros HN; [done| | |].
  - change (py_insert f (py_sorted l) = py_insert f (py_sorted l')). inversion HN; subst. by rewrite IH.
  - cbn in HN |- *. inversion HN as [|? ? H1 H2]; subst. destruct (before_total f g) as [H|H].
    { intros E. apply H1. left. done. }
    + symmetry. by apply insert_swap.
    + by apply insert_swap.
  - rewrite IH1 by done. apply IH2. eapply Permutation_NoDup; [apply Permutation_map, H1|done].
Qed.
Lemma sorted_sorted l : StronglySorted sorts_before (map fst l) -> py_sorted l = l.
Proof.
  induction l as [|f l IH]; [done|]. change (py_sorted (f :: l)) with (py_insert f (py_sorted l)). cbn [map]. inversion 1 as [|? ? HS HF]; subst. rewrite IH by done. apply insert_first.
  apply list.Forall_forall. intros g Hg. apply (proj1 (list.Forall_forall _ _) HF). apply elem_of_list_fmap. by exists g.
Qed.
Lemma sorted_NoDup l : StronglySorted sorts_before l -> List.NoDup l.
Proof.
  induction 1 as [|a l HS IH HF]; constructor; [|done]. intros Hin%elem_of_list_In. rewrite Forall_forall in HF. by apply HF, sb_irrefl in Hin.
Qed.
Lemma sorted_listing l dir : StronglySorted sorts_before (map fst l) -> dir ≡ₚ l -> py_sorted dir = l.
Proof.
  intros HS HP. rewrite <- (sorted_sorted l HS). symmetry. apply sorted_perm; [done|]. by apply sorted_NoDup.
Qed.

Lemma insert_perm f l : py_insert f l ≡ₚ f :: l.
Proof. induction l as [|g l IH]; cbn; [done|]. destruct (py_less g.1 f.1); [|done]. rewrite IH. apply Permutation_swap. Qed.
Lemma py_sorted_perm l : py_sorted l ≡ₚ l.
Proof. induction l as [|f l IH]; [done|]. change (py_sorted (f :: l)) with (py_insert f (py_sorted l)). by rewrite insert_perm, IH. Qed.
Lemma insert_sorted f l : ~ f.1 ∈ map fst l -> StronglySorted before l -> StronglySorted before (py_insert f l).
Proof.
  induction l as [|g l IH]; intros Hf HS; cbn; [by repeat constructor|]. inversion HS as [|? ? HS' HF]; subst.
  cbn in Hf. apply not_elem_of_cons in Hf as [Hne Hf]. destruct (py_less g.1 f.1) eqn:E.
  - constructor; [by apply IH|]. rewrite insert_perm. constructor; [by apply py_less_iff|done].
  - destruct (before_total f g Hne) as [B|B]; [|by rewrite (proj2 (py_less_iff _ _) B) in E].
    constructor; [done|]. constructor; [done|]. eapply Forall_impl; [exact HF|]. intros h Hh. by eapply sb_trans.
Qed.
Lemma py_sorted_sorted l : List.NoDup (map fst l) -> StronglySorted before (py_sorted l).
Proof.
  induction l as [|f l IH]; intros HN; [constructor|]. change (py_sorted (f :: l)) with (py_insert f (py_sorted l)). inversion HN as [|? ? H1 H2]; subst.
  apply insert_sorted; [|by apply IH]. rewrite py_sorted_perm. by rewrite elem_of_list_In.
Qed.
(** C79, for the scripts.  However the directory lists the files of the run, the script goes through them in the order in which they were written. *)
Theorem C79_taken {N : num} (cfg : config) (print_num : N -> text) (parse_num parse_attr : text -> option N) fuel xml files e cond env ps first dir :
  application cfg print_num parse_num parse_attr fuel xml = Some (files, e) -> load_all cfg parse_num parse_attr xml = Loaded (cond, env, ps) ->
  ceil_size (coStart cond /. coInterval cond) = Some first -> (first + Z.of_nat (length files) <= 100000)%Z ->
  dir ≡ₚ map (fun f => (drop 7 f.1, f.2)) files -> py_sorted dir = map (fun f => (drop 7 f.1, f.2)) files.
Proof.
  intros HA HL HC Hlen Hdir.
  destruct (C79_sorted cfg print_num parse_num parse_attr fuel xml files e cond env ps first HA HL HC Hlen) as (names & HN & HS & _).
  apply sorted_listing; [|done]. replace (map fst _) with names; [done|].
  rewrite map_map. cbn [fst]. transitivity (map (drop 7) (map fst files)); [|by rewrite map_map].
  rewrite HN, map_map. symmetry. rewrite <- (map_id names) at 2. apply map_ext. intros a. reflexivity.
Qed.
(** ... and beyond 99999 it does not: in every directory with file n >= 100000 and a file m > n / 10 that is older than 100000, the script takes n before m. *)
Theorem C79_refuted_taken n m name name' c c' dir i j : (100000 <= n < 1000000)%Z -> (n / 10 < m < 100000)%Z ->
  numbered n (lit "result/" ++ name) -> numbered m (lit "result/" ++ name') -> List.NoDup (map fst dir) ->
  py_sorted dir !! i = Some (name, c) -> py_sorted dir !! j = Some (name', c') -> (i < j)%nat.
Proof.
  intros Hn Hm H1 H2 HN Hi Hj. destruct (C79_refuted_sorted n m name name' Hn Hm H1 H2) as [HB _].
  assert (i <> j) as Hij. { intros ->. rewrite Hi in Hj. injection Hj as -> _. by apply sb_irrefl in HB. }
  destruct (decide (j < i)%nat) as [L|L]; [exfalso|lia].
  pose proof (py_sorted_sorted dir HN) as HS. assert (before (name', c') (name, c)) as HB'; [|apply (sb_irrefl name); by eapply sb_trans].
  clear -HS Hi Hj L. revert i j Hi Hj L. induction HS as [|x l HS IH HF]; intros i j Hi Hj L; [done|].
  destruct i as [|i]; [lia|]. destruct j as [|j]; cbn in Hi, Hj; [|apply (IH i j); [done|done|lia]].
  injection Hj as ->. rewrite list.Forall_forall in HF. apply HF. by eapply elem_of_list_lookup_2.
Qed.

(** ** Times *)
(** Only an order of unfolding. *)
Local Strategy expand [load_condition load_env load_particles load_all].
Lemma loaded_env {N : num} (cfg : config) (parse_num parse_attr : text -> option N) xml cond env ps :
load_all cfg parse_num parse_attr xml = Loaded (cond, env, ps) -> exists steps courant g rho nu surf ratio c l_0 minX maxX,
  count_setting xml "environment" "minStepCountPerOutput" steps /\
  load_environment (cfg := cfg) cond steps courant g rho nu surf ratio c l_0 minX maxX = Some env.
Proof.
  intros H. unfold M_App.load_all in H. apply load_bind_Loaded in H as (cond' & Hc & H). apply load_bind_Loaded in H as (env' & He & H).
  apply load_bind_Loaded in H as (ps' & Hp & H). injection H as -> -> ->.
  unfold load_env in He.
  apply load_bind_Loaded in He as (l_0 & E1 & He). apply load_bind_Loaded in He as (steps & E2 & He).
  apply load_bind_Loaded in He as (courant & E3 & He). apply load_bind_Loaded in He as (g & E4 & He).
  apply load_bind_Loaded in He as (rho & E5 & He). apply load_bind_Loaded in He as (nu & E6 & He).
  apply load_bind_Loaded in He as (ratio & E7 & He). apply load_bind_Loaded in He as (surf & E8 & He).
  apply load_bind_Loaded in He as (c & E9 & He).
  apply load_bind_Loaded in He as (x0 & F1 & He). apply load_bind_Loaded in He as (y0 & F2 & He). apply load_bind_Loaded in He as (z0 & F3 & He).
  apply load_bind_Loaded in He as (x1 & F4 & He). apply load_bind_Loaded in He as (y1 & F5 & He). apply load_bind_Loaded in He as (z1 & F6 & He).
  cbv zeta in He. destruct (load_environment _ _ _ _ _ _ _ _ _ _ _ _) as [env''|] eqn:HE; [|done]. injection He as ->.
  exists steps. do 10 eexists. split; [|exact HE].
  apply get_Loaded in E2 as (s & H1 & H2%parse_size_means). exists s. split; [|done]. unfold attribute.
  replace [lit "openmps"; _; _; _; _] with (path_of "openmps.environment.minStepCountPerOutput.<xmlattr>.value") by path_eq. done.
Qed.
Lemma application_main {N : num} (cfg : config) (print_num : N -> text) (parse_num parse_attr : text -> option N) fuel xml files e cond env ps :
  application cfg print_num parse_num parse_attr fuel xml = Some (files, e) -> load_all cfg parse_num parse_attr xml = Loaded (cond, env, ps) ->
  exists outs, main_program fuel cond env ps = Some (outs, e) /\ files = map (output_file cfg print_num) outs.
Proof.
  unfold application. intros HA HL. rewrite HL in HA. destruct (main_program fuel cond env ps) as [[outs e']|]; [|done].
  injection HA as <- <-. by exists outs.
Qed.
Lemma main_application {N : num} (cfg : config) (print_num : N -> text) (parse_num parse_attr : text -> option N) fuel xml outs e cond env ps :
  load_all cfg parse_num parse_attr xml = Loaded (cond, env, ps) -> main_program fuel cond env ps = Some (outs, e) ->
  application cfg print_num parse_num parse_attr fuel xml = Some (map (output_file cfg print_num) outs, e).
Proof. unfold application. intros -> ->. done. Qed.
Section Axis.
  Context (cfg : config) (print_num : Rnum -> text) (parse_num parse_attr : text -> option Rnum).
  Notation load_all := (load_all cfg parse_num parse_attr).
  Context (fuel : nat) (xml : ptree) (files : list (text * text)) (e : ending (N := Rnum)) (cond : M_Main.condition (N := Rnum)) (env : environment Rnum cfg)
    (ps : list (particle Rnum (cDim cfg))) (first : Z).
  Context (HA : application cfg print_num parse_num parse_attr fuel xml = Some (files, e)) (HL : load_all xml = Loaded (cond, env, ps)).
  Context (HC : ceil_size ((coStart cond : Rnum) /. coInterval cond) = Some first) (Hlen : (first + Z.of_nat (length files) <= 100000)%Z).
  Context (Hm : forall m, count_setting xml "environment" "minStepCountPerOutput" m -> (1 <= m)%Z).
  Context (HI : 0 < interval_of cond) (Hdx : 0 < eMaxDx env) (Hdt : 0 < eMaxDt env).
  (** The files of the run, in a directory that lists them in some order. *)
  Context (dir : list (text * text)) (Hdir : dir ≡ₚ map (fun f => (drop 7 f.1, f.2)) files).

  Lemma sorted_files : py_sorted dir = map (fun f => (drop 7 f.1, f.2)) files.
  Proof. exact (C79_taken cfg print_num parse_num parse_attr fuel xml files e cond env ps first dir HA HL HC Hlen Hdir). Qed.
  (** C83.  The file the scripts plot over the time k dt (dt being the outputInterval) holds the particles at that time or later, by less than MaxDt;
      [initial], [stepped]: S_Main. *)
  Theorem C83_time_axis k name content : py_sorted dir !! k = Some (name, content) ->
    exists s n s', initial cond env ps s /\ stepped s n s' /\ content = write_csv print_num (cParts s') /\
      INR k * interval_of cond <= time_of s' < INR k * interval_of cond + eMaxDt env.
  Proof.
    rewrite sorted_files, list_lookup_fmap. destruct (files !! k) as [[fn fc]|] eqn:Ek; [|done]. cbn. intros [= <- <-].
    destruct (C66_files _ _ _ _ _ _ _ _ HA) as [_ HF]. destruct HF as (cond' & env' & ps' & first' & s & iter & HL' & Hi & _).
    { intros E. rewrite E in Ek. done. }
    rewrite HL in HL'. injection HL' as <- <- <-. exists s.
    destruct (loaded_env _ _ _ _ _ _ _ HL) as (steps & courant & g & rho & nu & surf & ratio & c & l_0 & minX & maxX & Hst & HE).
    destruct (application_main _ _ _ _ _ _ _ _ _ _ _ HA HL) as (outs & EM & HO). rewrite HO in Ek. apply list_lookup_fmap_Some in Ek as (o & Ho & Eo).
    pose proof (C41_schedule fuel cond steps _ _ _ _ _ _ _ _ _ _ env ps outs e s HE (Hm _ Hst) HI Hdx Hdt EM Hi k o Ho) as (_ & (s' & H1 & H2 & H3 & H4) & _).
    exists (oIter o), s'. split; [exact Hi|]. split; [exact H1|]. split; [|exact H4]. injection Eo as _ ->. by rewrite H2.
  Qed.
  (** ... for the curves: the value over time k dt is that of a state of the run at that time or less than MaxDt later. *)
  Theorem C83_series {A} (output : text -> option A) l : py_series (N := Rnum) output (interval_of cond : Rnum) dir = Some l ->
    length l = length files /\
    forall k t a, l !! k = Some (t, a) -> exists s n s', initial cond env ps s /\ stepped s n s' /\ output (write_csv print_num (cParts s')) = Some a /\
      t <= time_of s' < t + eMaxDt env.
  Proof.
    unfold py_series. destruct (mapM _ _) as [data|] eqn:EM; [|done]. intros [= <-]. apply mapM_Some in EM.
    pose proof (Forall2_length _ _ _ EM) as EL. rewrite sorted_files, map_length in EL. split; [by rewrite imap_length|].
    intros k t a Hk. rewrite list_lookup_imap in Hk. destruct (data !! k) as [a'|] eqn:Ea; [|done]. cbn in Hk. injection Hk as <- <-.
    destruct (Forall2_lookup_r _ _ _ _ _ EM Ea) as ([name content] & Hf & Ho). cbn in Ho.
    destruct (C83_time_axis k name content Hf) as (s & n & s' & H1 & H2 & -> & H3). exists s, n, s'. rewrite INR_IZR_INZ in H3. done.
  Qed.
  (** ... for the pictures of koshizukaoka1996_shape.py: picture i, said to be of the time i DT, is of a time after i (DT - dt) and before i DT + MaxDt. *)
  Theorem C83_pictures (DT : R) i content : py_picture (N := Rnum) DT (interval_of cond : Rnum) dir i = Some content ->
    exists s n s', initial cond env ps s /\ stepped s n s' /\ content = write_csv print_num (cParts s') /\
      INR i * (DT - interval_of cond) <= time_of s' < INR i * DT + eMaxDt env.
  Proof.
    unfold py_picture. destruct (nfloor _) as [z|] eqn:Ez; [|done]. cbn [mbind option_bind]. destruct (decide _) as [Hz|]; [|done].
    intros H. apply fmap_Some in H as ([name content'] & Hf & ->). cbn [snd].
    destruct (C83_time_axis _ name content' Hf) as (s & n & s' & H1 & H2 & H3 & H4). exists s, n, s'. split; [done|]. split; [done|]. split; [done|].
    assert (z = Zfloor (DT / interval_of cond)) as Ez'. { cbn in Ez. unfold to_index in Ez. destruct (_ && _)%bool in Ez; [|done]. by injection Ez as <-. }
    rewrite mult_INR, (INR_IZR_INZ (Z.to_nat z)), Z2Nat.id in H4 by done. pose proof (Zfloor_lb (DT / interval_of cond)) as B1.
    pose proof (Zfloor_ub (DT / interval_of cond)) as B2. rewrite <- Ez' in B1, B2. pose proof (pos_INR i) as Hi.
    assert (IZR z * interval_of cond <= DT) as C1.
    { replace DT with (DT / interval_of cond * interval_of cond) at 1 by (field; lra). apply Rmult_le_compat_r; lra. }
    assert (DT - interval_of cond <= IZR z * interval_of cond) as C2.
    { replace DT with (DT / interval_of cond * interval_of cond) at 1 by (field; lra).
      replace (DT / interval_of cond * interval_of cond - interval_of cond) with ((DT / interval_of cond - 1) * interval_of cond) by ring. apply Rmult_le_compat_r; lra. }
    apply (Rmult_le_compat_l (INR i)) in C1, C2; [|done..]. rewrite Rmult_assoc in H4. lra.
  Qed.
End Axis.

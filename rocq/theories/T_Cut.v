(** Property theorems: files cut inside a row (C87). *)
From Coq Require Import String Ascii.
From Verif Require Import S_Csv T_Csv.
From stdpp Require Import list.

Lemma joined_last c (l : list text) (a : text) : joined c (l ++ [[]]) ++ a = joined c (l ++ [a]).
Proof.
  induction l as [|b l IH]; [done|]. cbn [app]. destruct (l ++ [[]]) as [|x t] eqn:E1; [by destruct l|]. destruct (l ++ [a]) as [|y u] eqn:E2; [by destruct l|].
  change (joined c (b :: x :: t)) with (b ++ c :: joined c (x :: t)). change (joined c (b :: y :: u)) with (b ++ c :: joined c (y :: u)). rewrite <- app_assoc. cbn [app]. by rewrite IH.
Qed.
Lemma glue_prefix c : forall (l : list text) k s more, l !! k = Some (s ++ more) -> exists rest, glue c l = glue c (take k l ++ [s]) ++ rest.
Proof.
  induction l as [|a l IH]; intros [|k] s more H; cbn in H; try done.
  - injection H as ->. cbn [take app glue]. destruct l as [|b l]; [by exists more|]. rewrite <- app_assoc. eauto.
  - destruct (IH k s more H) as (rest & E). destruct l as [|b l]; [by destruct k|]. cbn [take app]. exists rest.
    destruct (take k (b :: l) ++ [s]) as [|x t] eqn:Et; [by destruct (take k (b :: l))|].
    change (glue c (a :: b :: l)) with (a ++ c ++ glue c (b :: l)). rewrite E. change (glue c (a :: x :: t)) with (a ++ c ++ glue c (x :: t)). by rewrite !app_assoc.
Qed.
Lemma joined_nonempty c : forall (l : list text) s, s <> [] -> joined c (l ++ [s]) <> [].
Proof.
  intros l s Hs. destruct l as [|a l]; [done|]. cbn [app]. destruct (l ++ [s]) as [|b t] eqn:E; [by destruct l|]. cbn [joined]. by destruct a.
Qed.
Lemma lines_app rows lines rows' lines' : lines_of rows lines -> lines_of rows' lines' -> lines_of (rows ++ rows') (lines ++ lines').
Proof. intros H H'. induction H; cbn [app]; [done|apply lines_blank; auto|apply lines_row; auto]. Qed.

Section Cut.
  Context {N : num} {d : dim} (print_num : N -> text) (parse_num : text -> option N).
  Notation part := (particle N d).
  Lemma fields_length (p : part) : length (fields print_num p) = length (columns d).
  Proof. by destruct d. Qed.
  Lemma cell_cut k (row : list text) s name t : length row = length (columns d) -> (k < length (columns d))%nat ->
    cell (columns d) (take k row ++ [s]) name t <->
    (exists j, columns d !! j = Some name /\ ((j < k)%nat /\ row !! j = Some t \/ j = k /\ t = s)).
  Proof.
    intros Hl Hk. unfold cell. split.
    - intros (j & [H1 _] & H2). exists j. split; [done|]. destruct (decide (j < k)%nat).
      + left. split; [done|]. rewrite lookup_app_l in H2 by (rewrite take_length; lia). by rewrite lookup_take in H2 by done.
      + right. pose proof (lookup_lt_Some _ _ _ H2) as L. rewrite app_length, take_length in L. cbn in L. assert (j = k) as -> by lia. split; [done|].
        rewrite lookup_app_r in H2 by (rewrite take_length; lia). rewrite take_length in H2. replace (k - (k `min` length row))%nat with 0%nat in H2 by lia. by injection H2 as <-.
    - intros (j & H1 & H2). exists j. split; [split; [done|]|].
      { intros k' Hk' H. apply (NoDup_lookup _ _ _ _ (columns_NoDup d) H1) in H. lia. }
      destruct H2 as [[L H2]|[-> ->]].
      + rewrite lookup_app_l by (rewrite take_length; lia). by rewrite lookup_take.
      + rewrite lookup_app_r by (rewrite take_length; lia). rewrite take_length. by replace (k - (k `min` length row))%nat with 0%nat by lia.
  Qed.
  Lemma cut_shows (ps : list part) (row : list text) : (forall p v, p ∈ ps -> value_of p v -> plain (print_num v)) -> Forall plain row -> joined "," row <> [] ->
    shows (write_csv print_num ps ++ glue sep row) (columns d) (map (fields print_num) ps ++ [row]).
  Proof.
    intros Hv Hr Hne. assert (Forall (fun p => Forall plain (fields print_num p)) ps) as Hp.
    { apply list.Forall_forall. intros p Hp. apply fields_plain. eauto. }
    exists 0%nat, (glue sep (columns d)), (map (fun p => glue sep (fields print_num p)) ps ++ [glue sep row]).
    split; [rewrite write_lines, app_comm_cons, joined_last; done|]. split; [|split].
    - constructor; [apply join_newline, (columns_plain parse_num)|]. apply Forall_app. split.
      + apply Forall_fmap. eapply Forall_impl; [exact Hp|]. intros p H. by apply join_newline.
      + constructor; [by apply join_newline|constructor].
    - split; [apply (columns_plain parse_num)|]. split; [apply spaced_join|]. by destruct d.
    - apply lines_app; [|apply lines_row; [split; [done|split; [apply spaced_join|done]]|constructor]].
      + clear Hv. induction Hp as [|p ps Hp _ IH]; cbn; [constructor|]. constructor; [|exact IH]. split; [done|]. split; [apply spaced_join|].
        unfold fields. destruct (print_int_plain (Z_of_ptype (pT p))) as [_ Hne']. destruct (print_int _) as [|c s]; [done|].
        destruct (map _ (seq 0 (dimn d))) as [|b t] eqn:E; [by destruct d|]. by cbn.
  Qed.
  (** C87.  A file cut inside the [k]-th item of the row of the [m]-th particle, after the part [s] of it.  If the row has lost an item, reading the file is undefined (C46).  If only
      the last item, the number density, has been cut, the file is read without any message and this number is what the part of it says. *)
  Theorem C87_cut_inside (round : N -> N) (ps : list part) m p k s more :
    (forall p v, p ∈ ps -> value_of p v -> plain (print_num v) /\ parse_num (print_num v) = Some (round v)) ->
    Forall (fun p => int_type (pT p)) ps ->
    ps !! m = Some p -> fields print_num p !! k = Some (s ++ more) -> s <> [] ->
    let cut := write_csv print_num (take m ps) ++ glue (lit ", ") (take k (fields print_num p) ++ [s]) in
    (exists rest, write_csv print_num ps = cut ++ rest) /\
    ((k + 1 < length (columns d))%nat -> (k = 0%nat -> exists z, means_int s z) -> ((0 < k)%nat -> is_Some (parse_num s)) -> read_csv (d := d) parse_num cut = CsvUndefined) /\
    (forall v, (k + 1 = length (columns d))%nat -> parse_num s = Some v ->
      read_csv parse_num cut = Read (map (reread round) (take m ps) ++ [let q := reread round p in mkParticle (pX q) (pU q) (pP q) v (pT q)])).
  Proof.
    intros Hv Ht Hm Hk Hs cut. pose proof (lookup_lt_Some _ _ _ Hk) as Lk. rewrite fields_length in Lk.
    assert (p ∈ ps) as Hp by (by eapply elem_of_list_lookup_2).
    assert (forall q, q ∈ take m ps -> q ∈ ps) as Htake. { intros q Hq. rewrite <- (take_drop m ps). apply elem_of_app. by left. }
    assert (Forall plain (fields print_num p)) as Hplain. { apply fields_plain. intros v Hpv. by apply (Hv p v). }
    assert (Forall plain (take k (fields print_num p) ++ [s])) as Hplain'.
    { apply Forall_app. split; [by apply Forall_take|]. constructor; [|constructor]. rewrite Forall_lookup in Hplain. specialize (Hplain _ _ Hk).
      intros c Hc. apply Hplain. apply elem_of_app. by left. }
    assert (shows cut (columns d) (map (fields print_num) (take m ps) ++ [take k (fields print_num p) ++ [s]])) as HS.
    { apply cut_shows; [intros q v Hq Hqv; by apply (Hv q v (Htake q Hq))|done|by apply joined_nonempty]. }
    assert (forall l : list part, (forall q, q ∈ l -> q ∈ ps) -> Forall2 (describes (d := d) parse_num (columns d)) (map (fields print_num) l) (map (reread round) l)) as HD.
    { intros l Hl. assert (read_csv parse_num (write_csv print_num l) = Read (map (reread round) l)) as HR.
      { apply C45_round_trip; [intros q v Hq; apply (Hv q v (Hl q Hq))|]. rewrite list.Forall_forall in Ht |- *. auto. }
      eapply C44_read in HR; [apply HR|]. apply (C43_shows print_num parse_num). intros q v Hq Hqv. by apply (Hv q v (Hl q Hq)). }
    pose proof (HD [p]) as Hone. cbn [map] in Hone. apply Forall2_cons_1 in Hone as [Hone _]; [|intros q ->%elem_of_list_singleton; done].
    assert (forall name, name ∈ columns d <-> known d name) as Hcols by (intros name; by rewrite known_columns).
    assert (forall j name t, columns d !! j = Some name -> fields print_num p !! j = Some t -> cell (columns d) (fields print_num p) name t) as Hcell.
    { intros j name t H1 H2. exists j. split; [|done]. split; [done|]. intros k' Hk' H. apply (NoDup_lookup _ _ _ _ (columns_NoDup d) H1) in H. lia. }
    split; [|split].
    - destruct (glue_prefix sep _ _ _ _ Hk) as (rest & E). assert (ps = take m ps ++ p :: drop (S m) ps) as Eps by (by rewrite take_drop_middle).
      set (line := fun q : part => glue sep (fields print_num q) ++ [newline]). exists (rest ++ [newline] ++ mjoin (map line (drop (S m) ps))).
      unfold cut. rewrite Eps at 1. unfold write_csv. fold line. rewrite map_app. assert (forall a b : list text, mjoin (a ++ b) = mjoin a ++ mjoin b) as HJ.
      { intros a b. induction a as [|x a IH]; [done|]. cbn [app]. rewrite !mjoin_text_cons, IH. by rewrite app_assoc. }
      rewrite HJ. cbn [map]. rewrite mjoin_text_cons. unfold line at 2. rewrite E. by rewrite <- !app_assoc.
    - intros L H0 H1. assert (exists name, columns d !! (length (columns d) - 1)%nat = Some name) as [name Hname] by (apply lookup_lt_is_Some; lia).
      eapply (C46_short_row parse_num cut (columns d) (map (fields print_num) (take m ps)) _ [] _ name HS Hcols (HD _ Htake)).
      + apply Hcols. by eapply elem_of_list_lookup_2.
      + intros t Hc. apply cell_cut in Hc as (j & Hj & Hc); [|apply fields_length|done]. apply (NoDup_lookup _ _ _ _ (columns_NoDup d) Hname) in Hj. lia.
      + intros t Hc. apply cell_cut in Hc as (j & Hj & Hc); [|apply fields_length|done]. assert (columns d !! 0%nat = Some (lit "Type")) as H00 by (by destruct d).
        apply (NoDup_lookup _ _ _ _ (columns_NoDup d) H00) in Hj. subst j. destruct Hc as [[_ Hc]|[<- ->]]; [|by apply H0].
        destruct Hone as [(t' & z & Ht1 & Ht2 & _) _]. exists z. replace t with t'; [done|]. destruct Ht1 as (j & [Hj _] & Hj').
        apply (NoDup_lookup _ _ _ _ (columns_NoDup d) H00) in Hj. subst j. congruence.
      + intros c t Hkn Hnt Hc. apply cell_cut in Hc as (j & Hj & Hc); [|apply fields_length|done].
        destruct Hc as [[Ljk Hc]|[-> ->]].
        2: { apply H1. destruct k; [|lia]. exfalso. apply Hnt. clear -Hj. destruct d; by injection Hj as <-. }
        destruct Hone as (_ & HA & HB & HC). assert (cell (columns d) (fields print_num p) c t) as Hct by eauto.
        assert (forall t', cell (columns d) (fields print_num p) c t' -> t' = t) as Hu.
        { intros t' (j' & [Hj1 _] & Hj2). apply (NoDup_lookup _ _ _ _ (columns_NoDup d) Hj) in Hj1. subst j'. congruence. }
        destruct Hkn as [->|[->|[->|(i & Hi & Hc')]]]; [done| | |].
        * destruct HB as (t' & Ht' & E'). rewrite <- (Hu _ Ht'). eauto.
        * destruct HC as (t' & Ht' & E'). rewrite <- (Hu _ Ht'). eauto.
        * destruct (HA i Hi) as [(t1 & Ht1 & E1) (t2 & Ht2 & E2)]. destruct Hc' as [-> | ->]; [rewrite <- (Hu _ Ht1)|rewrite <- (Hu _ Ht2)]; eauto.
    - intros v L Hpv. apply (C44_read parse_num _ _ _ _ HS). split; [done|]. apply Forall2_app; [by apply HD|]. constructor; [|constructor].
      assert (forall name t, name <> lit "n" -> cell (columns d) (fields print_num p) name t -> cell (columns d) (take k (fields print_num p) ++ [s]) name t) as Hkeep.
      { intros name t Hn (j & [Hj1 _] & Hj2). apply cell_cut; [apply fields_length|done|]. exists j. split; [done|]. left. split; [|done].
        pose proof (lookup_lt_Some _ _ _ Hj1). assert (j <> k); [|lia]. intros ->. apply Hn. assert (columns d !! k = Some (lit "n")); [|congruence].
        replace k with (length (columns d) - 1)%nat by lia. by destruct d. }
      destruct Hone as ((t0 & z & Ht1 & Ht2) & HA & (t3 & HB1 & HB2) & _). split; [|split; [|split]].
      + exists t0, z. split; [|done]. apply Hkeep; [done|done].
      + intros i Hi. destruct (HA i Hi) as [(t1 & H1 & E1) (t2 & H2 & E2)].
        split; [exists t1|exists t2]; (split; [apply Hkeep; [|done]|done]); clear; destruct d, i as [|[|i]]; done.
      + exists t3. split; [|done]. apply Hkeep; done.
      + exists s. split; [|done]. apply cell_cut; [apply fields_length|done|]. exists k. split; [|by right].
        replace k with (length (columns d) - 1)%nat by lia. by destruct d.
  Qed.
End Cut.

(** Particle tables: C43 (contents of a file), C44, C45, C46. *)
From Coq Require Import Ascii String Decimal DecimalZ.
From Verif Require Export S_Csv.
From stdpp Require Import list.

(** ** Lines and items *)
Lemma cut_nonempty c l : exists h t, cut c l = h :: t.
Proof. destruct l as [|a l]; cbn; [eauto|]. destruct (Ascii.eqb a c); [eauto|]. destruct (cut c l); eauto. Qed.

Lemma cut_app c a l : c ∉ a -> cut c (a ++ c :: l) = a :: cut c l.
Proof.
  induction a as [|b a IH]; intros Ha; cbn.
  - by rewrite Ascii.eqb_refl.
  - assert (Ascii.eqb b c = false) as ->.
    { apply Ascii.eqb_neq. intros ->. apply Ha. left. }
    rewrite IH; [done|]. intros H. apply Ha. by right.
Qed.

Lemma cut_none c a : c ∉ a -> cut c a = [a].
Proof.
  induction a as [|b a IH]; intros Ha; cbn; [done|].
  assert (Ascii.eqb b c = false) as ->.
  { apply Ascii.eqb_neq. intros ->. apply Ha. left. }
  rewrite IH; [done|]. intros H. apply Ha. by right.
Qed.

Lemma cut_joined c l : l <> [] -> Forall (fun a => c ∉ a) l -> cut c (joined c l) = l.
Proof.
  induction l as [|a l IH]; intros Hl Hc; [done|].
  apply Forall_cons in Hc as [Ha Hc].
  destruct l as [|b l]; cbn [joined].
  - by apply cut_none.
  - rewrite cut_app by done. f_equal. by apply IH.
Qed.

Definition not_blank (c : ascii) : Prop := c <> " "%char /\ c <> tab.
Lemma strip_cons c s :
  strip (c :: s) = if negb (Ascii.eqb c blank || Ascii.eqb c tab) then c :: strip s else strip s.
Proof. done. Qed.
Lemma strip_id s : Forall not_blank s -> strip s = s.
Proof.
  induction 1 as [|c s [H1 H2] _ IH]; [done|]. rewrite strip_cons.
  apply Ascii.eqb_neq in H1. apply Ascii.eqb_neq in H2. unfold blank. rewrite H1, H2. cbn. by f_equal.
Qed.
Lemma strip_spaced s t : spaced s t -> strip t = strip s.
Proof.
  induction 1 as [|c s t H IH|s t H IH|s t H IH]; [done| |by rewrite strip_cons|by rewrite strip_cons].
  by rewrite !strip_cons, IH.
Qed.
Lemma joined_plain l : Forall plain l -> Forall not_blank (joined "," l).
Proof.
  induction 1 as [|a l Ha Hl IH]; [constructor|].
  assert (Forall not_blank a) as Hb.
  { apply Forall_forall. intros c Hc. destruct (Ha c Hc) as (_ & _ & ? & ?). by split. }
  destruct l as [|b l]; [done|]. cbn [joined].
  apply Forall_app. split; [done|]. constructor; [|done]. by split.
Qed.
Lemma joined_nil_iff l : l = [] -> joined "," l = [].
Proof. by intros ->. Qed.
Lemma get_items_line items line : line_of items line -> get_items line = items.
Proof.
  intros (Hp & Hs & Hne). unfold get_items. rewrite (strip_spaced _ _ Hs).
  rewrite strip_id by by apply joined_plain.
  destruct (joined "," items) as [|c t] eqn:E; [done|]. rewrite <- E.
  apply cut_joined.
  - intros ->. done.
  - eapply Forall_impl; [exact Hp|]. intros a Ha Hc. by destruct (Ha _ Hc) as [? _].
Qed.
Lemma get_items_blank line : blank_line line -> get_items line = [].
Proof. intros H. unfold get_items. by rewrite (strip_spaced _ _ H). Qed.

Section Table.
  Context {N : num} {d : dim} (parse_num : text -> option N).

  (** Reading a table given by its items. *)
  Fixpoint rows_result (h : header_map) (rows : list (list text)) : csv_result (list (particle N d)) :=
    match rows with
    | [] => Read []
    | row :: rows =>
        csv_bind (read_row parse_num h row) (fun p =>
        csv_bind (rows_result h rows) (fun ps => Read (p :: ps)))
    end.
  Definition table_result (head : list text) (rows : list (list text)) : csv_result (list (particle N d)) :=
    match header_fill (header_init d) head 0 with
    | None => IllegalHeader
    | Some m => match header_check m with None => MissingHeader | Some h => rows_result h rows end
    end.

  Lemma read_rows_table h rows lines :
    lines_of rows lines -> read_rows parse_num h lines = rows_result h rows.
  Proof.
    induction 1 as [|rows line lines Hb _ IH|row rows line lines Hl _ IH]; cbn [read_rows rows_result]; [done| |].
    - by rewrite (get_items_blank _ Hb).
    - rewrite (get_items_line _ _ Hl).
      destruct row as [|a row]; [by destruct Hl as (_ & _ & ?)|]. by rewrite IH.
  Qed.

  Lemma skip_replicate n l : skip_empty (replicate n [] ++ l) = skip_empty l.
  Proof. induction n as [|n IH]; cbn; [done|exact IH]. Qed.

  Lemma spaced_not_nil s t : spaced s t -> s <> [] -> t <> [].
  Proof. destruct 1; done. Qed.

  Lemma read_csv_table csv head rows :
    shows csv head rows -> read_csv parse_num csv = table_result head rows.
  Proof.
    intros (n & first & lines & -> & Hnl & Hh & Hr). unfold read_csv.
    rewrite cut_joined.
    - rewrite skip_replicate.
      assert (first <> []) as Hf.
      { destruct Hh as (_ & Hs & Hne). by eapply spaced_not_nil. }
      destruct first as [|c first]; [done|]. cbn [skip_empty].
      rewrite (get_items_line _ _ Hh). unfold table_result.
      destruct (header_fill _ _ _) as [m|]; [|done].
      destruct (header_check m) as [h|]; [|done].
      by apply read_rows_table.
    - by destruct n.
    - apply Forall_app. split; [|done]. apply Forall_replicate. apply not_elem_of_nil.
  Qed.
End Table.

(** ** The column numbers *)
Fixpoint last_pos (items : list text) (name : text) : option nat :=
  match items with
  | [] => None
  | c :: items =>
      match last_pos items name with
      | Some j => Some (S j)
      | None => if decide (c = name) then Some 0%nat else None
      end
  end.

Lemma last_pos_Some items name k : last_pos items name = Some k <-> column_is items name k.
Proof.
  revert k. induction items as [|c items IH]; intros k; cbn.
  { split; [done|]. intros [H _]. by rewrite lookup_nil in H. }
  destruct (last_pos items name) as [j|] eqn:E.
  - assert (column_is items name j) as [H1 H2] by by apply IH.
    split.
    + intros [= <-]. split; [done|]. intros [|k'] Hk; [lia|]. cbn. apply H2. lia.
    + intros [H3 H4]. destruct k as [|k].
      * exfalso. apply (H4 (S j)); [lia|done].
      * f_equal. assert (Some j = Some k) as [= ->]; [|done]. apply IH. split; [done|].
        intros k' Hk. apply (H4 (S k')). lia.
  - assert (forall k, items !! k <> Some name) as Hn.
    { intros k0 Hk0.
      assert (exists j, column_is items name j) as [j Hj]; [|apply IH in Hj; congruence].
      clear -Hk0. revert k0 Hk0. induction items as [|c items IHi]; intros k0 Hk0; [by rewrite lookup_nil in Hk0|].
      destruct (decide (Exists (fun a => a = name) items)) as [He|He].
      - apply Exists_exists in He as (a & Ha & ->). apply elem_of_list_lookup in Ha as [j Hj].
        destruct (IHi _ Hj) as [j' [H1 H2]]. exists (S j'). split; [done|].
        intros [|k'] Hk'; [lia|]. apply H2. lia.
      - destruct k0 as [|k0].
        + exists 0%nat. split; [done|]. intros [|k'] Hk' Hc; [lia|]. apply He. apply Exists_exists.
          exists name. split; [|done]. apply elem_of_list_lookup. by exists k'.
        + exfalso. apply He. apply Exists_exists. exists name. split; [|done].
          apply elem_of_list_lookup. by exists k0. }
    destruct (decide (c = name)) as [->|Hc].
    + split.
      * intros [= <-]. split; [done|]. intros [|k'] Hk; [lia|]. apply Hn.
      * intros [H1 H2]. destruct k as [|k]; [done|]. by destruct (Hn k).
    + split; [done|]. intros [H1 H2]. destruct k as [|k]; [by injection H1|]. by destruct (Hn k).
Qed.

Lemma last_pos_None items name : last_pos items name = None <-> name ∉ items.
Proof.
  induction items as [|c items IH]; cbn.
  - split; [intros _; apply not_elem_of_nil|done].
  - rewrite not_elem_of_cons. destruct (last_pos items name) as [j|] eqn:E.
    + split; [done|]. intros [_ H]. apply IH in H. congruence.
    + destruct (decide (c = name)) as [->|Hc].
      * split; [done|]. intros [H _]. done.
      * split; [|done]. intros _. split; [by intros ->|]. by apply IH.
Qed.

Lemma header_set_keys m name k : (header_set m name k).*1 = m.*1.
Proof.
  unfold header_set. induction m as [|[c j] m IH]; cbn; [done|]. rewrite IH. by destruct (decide _).
Qed.
Lemma header_find_keys m name : is_Some (header_find m name) <-> name ∈ m.*1.
Proof.
  induction m as [|[c j] m IH]; cbn.
  - split; [by intros [? ?]|]. intros H. by apply elem_of_nil in H.
  - rewrite elem_of_cons. destruct (decide (c = name)) as [->|Hc].
    + split; [by left|eauto].
    + rewrite IH. naive_solver.
Qed.
Lemma header_find_set m name k c :
  header_find (header_set m name k) c =
  if decide (c = name) then (fun _ => k) <$> header_find m c else header_find m c.
Proof.
  induction m as [|[a j] m IH]; cbn.
  - by destruct (decide (c = name)).
  - fold (header_set m name k). destruct (decide (a = name)) as [->|Ha]; cbn.
    + destruct (decide (name = c)) as [->|Hc]; [by rewrite decide_True by done|].
      rewrite IH. rewrite !decide_False by done. done.
    + destruct (decide (a = c)) as [->|Hc]; [by rewrite decide_False by done|done].
Qed.

Lemma header_fill_None m items i :
  header_fill m items i = None <-> exists name, name ∈ items /\ name ∉ m.*1.
Proof.
  revert m i. induction items as [|c items IH]; intros m i; cbn.
  - split; [done|]. intros (name & H & _). by apply elem_of_nil in H.
  - destruct (header_find m c) as [k|] eqn:E.
    + rewrite IH, header_set_keys. split.
      * intros (name & H & H'). exists name. split; [by right|done].
      * intros (name & H & H'). exists name. split; [|done]. apply elem_of_cons in H as [->|H]; [|done].
        exfalso. apply H'. apply header_find_keys. rewrite E. eauto.
    + split; [|done]. intros _. exists c. split; [left|]. rewrite <- header_find_keys, E. by intros [? ?].
Qed.
Lemma header_fill_Some m items i m' :
  header_fill m items i = Some m' ->
  m'.*1 = m.*1 /\
  forall name, header_find m' name =
    match last_pos items name with
    | Some j => (fun _ => (i + j + 1)%nat) <$> header_find m name
    | None => header_find m name
    end.
Proof.
  revert m i. induction items as [|c items IH]; intros m i; cbn.
  - intros [= <-]. done.
  - destruct (header_find m c) as [k|] eqn:E; [|done]. intros H.
    apply IH in H as [H1 H2]. rewrite header_set_keys in H1. split; [done|].
    intros name. rewrite H2, header_find_set. destruct (last_pos items name) as [j|] eqn:El.
    + destruct (decide (name = c)) as [->|Hc]; [rewrite E; cbn; f_equal; lia|].
      destruct (header_find m name); cbn; [f_equal; lia|done].
    + destruct (decide (name = c)) as [->|Hc].
      * rewrite decide_True by done. rewrite E. cbn. f_equal. lia.
      * by rewrite decide_False by done.
Qed.

Lemma header_find_elem m c k : NoDup m.*1 -> (c, k) ∈ m -> header_find m c = Some k.
Proof.
  induction m as [|[a j] m IH]; cbn; intros Hd H; [by apply elem_of_nil in H|].
  apply NoDup_cons in Hd as [Hn Hd]. apply elem_of_cons in H as [[= -> ->]|H].
  - by rewrite decide_True.
  - rewrite decide_False; [by apply IH|]. intros ->. apply Hn.
    apply elem_of_list_fmap. by exists (c, k).
Qed.
Lemma header_find_in m c k : header_find m c = Some k -> (c, k) ∈ m.
Proof.
  induction m as [|[a j] m IH]; cbn; [done|]. destruct (decide (a = c)) as [->|Hc].
  - intros [= ->]. left.
  - intros H. right. by apply IH.
Qed.
Lemma header_find_decr m c :
  header_find (map (fun ck => (ck.1, ck.2 - 1)%nat) m) c = (fun k => (k - 1)%nat) <$> header_find m c.
Proof. induction m as [|[a j] m IH]; cbn; [done|]. by destruct (decide _). Qed.

Lemma columns_NoDup d : NoDup (columns d).
Proof. destruct d; apply (bool_decide_unpack _); vm_compute; exact I. Qed.
Lemma header_init_keys d : (header_init d).*1 = columns d.
Proof.
  unfold header_init. rewrite <- list_fmap_compose. induction (columns d) as [|c l IH]; cbn; [done|]. by f_equal.
Qed.
Lemma header_init_find d c : header_find (header_init d) c = if decide (c ∈ columns d) then Some 0%nat else None.
Proof.
  destruct (decide _) as [H|H].
  - apply header_find_elem; [rewrite header_init_keys; apply columns_NoDup|].
    unfold header_init. apply elem_of_list_fmap. by exists c.
  - destruct (header_find _ c) as [k|] eqn:E; [|done]. exfalso. apply H.
    rewrite <- header_init_keys. apply header_find_keys. rewrite E. eauto.
Qed.

Lemma header_result d head :
  match header_fill (header_init d) head 0 with
  | None => exists name, name ∈ head /\ name ∉ columns d
  | Some m =>
      (forall name, name ∈ head -> name ∈ columns d) /\
      match header_check m with
      | None => exists name, name ∈ columns d /\ name ∉ head
      | Some h => forall name, name ∈ columns d ->
          exists k, header_find h name = Some k /\ last_pos head name = Some k
      end
  end.
Proof.
  destruct (header_fill _ _ _) as [m|] eqn:E.
  2:{ apply header_fill_None in E. by rewrite header_init_keys in E. }
  assert (forall name, name ∈ head -> name ∈ columns d) as Hk.
  { intros name Hn. destruct (decide (name ∈ columns d)) as [H|H]; [done|].
    assert (header_fill (header_init d) head 0 = None) as E'.
    { apply header_fill_None. exists name. by rewrite header_init_keys. }
    congruence. }
  split; [done|]. apply header_fill_Some in E as [H1 H2]. rewrite header_init_keys in H1.
  unfold header_check. destruct (forallb _ _) eqn:Ef.
  - intros name Hn. specialize (H2 name). rewrite header_init_find, decide_True in H2 by done.
    destruct (last_pos head name) as [j|] eqn:El.
    + exists j. split; [|done]. rewrite header_find_decr, H2. cbn. f_equal. lia.
    + exfalso. apply header_find_in in H2. rewrite forallb_forall in Ef.
      apply elem_of_list_In in H2. apply Ef in H2. done.
  - apply Bool.not_true_iff_false in Ef. rewrite forallb_forall in Ef.
    destruct (decide (Exists (fun c => c ∉ head) (columns d))) as [He|He].
    + apply Exists_exists in He as (c & ? & ?). eauto.
    + exfalso. apply Ef. intros [c k] Hin. apply elem_of_list_In in Hin.
      assert (c ∈ columns d) as Hc.
      { rewrite <- H1. apply elem_of_list_fmap. by exists (c, k). }
      apply header_find_elem in Hin; [|rewrite H1; apply columns_NoDup].
      rewrite H2, header_init_find, decide_True in Hin by done.
      destruct (last_pos head c) as [j|] eqn:El.
      * cbn in Hin. injection Hin as <-. cbn. apply negb_true_iff, Nat.eqb_neq. lia.
      * exfalso. apply He. apply Exists_exists. exists c. split; [done|]. by apply last_pos_None.
Qed.

Lemma known_columns d name : known d name <-> name ∈ columns d.
Proof.
  destruct d; unfold known, columns; cbn [map].
  - rewrite !elem_of_cons, elem_of_nil. split.
    + intros [H|[H|[H|(k & Hk & [H|H])]]]; try tauto;
        destruct k as [|[|k]]; cbn in H; cbn in Hk; try lia; tauto.
    + intros H. repeat destruct H as [H|H]; try tauto; right; right; right;
        [exists 0%nat|exists 1%nat|exists 0%nat|exists 1%nat]; cbn; split; try lia; tauto.
  - rewrite !elem_of_cons, elem_of_nil. split.
    + intros [H|[H|[H|(k & Hk & [H|H])]]]; try tauto;
        destruct k as [|[|[|k]]]; cbn in H; cbn in Hk; try lia; tauto.
    + intros H. repeat destruct H as [H|H]; try tauto; right; right; right;
        [exists 0%nat|exists 1%nat|exists 2%nat|exists 0%nat|exists 1%nat|exists 2%nat]; cbn; split; try lia; tauto.
Qed.

(** ** Cells *)
Definition cell_of (head row : list text) (name : text) : option text :=
  k ← last_pos head name; row !! k.
Lemma cell_of_Some head row name s : cell_of head row name = Some s <-> cell head row name s.
Proof.
  unfold cell_of, cell. split.
  - intros H. apply bind_Some in H as (k & H1 & H2). exists k. by rewrite <- last_pos_Some.
  - intros (k & H1 & H2). apply bind_Some. exists k. by rewrite last_pos_Some.
Qed.

Section Reading.
  Context {N : num} {d : dim} (parse_num : text -> option N).
  Notation read_csv := (read_csv (d := d) parse_num).

  Definition header_ok (head : list text) (h : header_map) : Prop :=
    forall name, known d name -> exists k, header_find h name = Some k /\ last_pos head name = Some k.

  Lemma item_cell head h row name :
    header_ok head h -> known d name ->
    item h row name = match cell_of head row name with Some s => Read s | None => CsvUndefined end.
  Proof.
    intros Hh Hn. destruct (Hh name Hn) as (k & H1 & H2). unfold item, cell_of. rewrite H1, H2. done.
  Qed.

  Lemma table_header head rows :
    (exists name, name ∈ head /\ ~ known d name) /\ table_result (d := d) parse_num head rows = IllegalHeader \/
    (forall name, name ∈ head -> known d name) /\
      ((exists name, known d name /\ name ∉ head) /\ table_result (d := d) parse_num head rows = MissingHeader \/
       (forall name, known d name -> name ∈ head) /\
       exists h, header_ok head h /\ table_result (d := d) parse_num head rows = rows_result parse_num h rows).
  Proof.
    unfold table_result. pose proof (header_result d head) as H.
    destruct (header_fill _ _ _) as [m|].
    - destruct H as [H1 H]. right. split; [intros name; rewrite known_columns; apply H1|].
      destruct (header_check m) as [h|].
      + right. split.
        * intros name Hn. apply known_columns, H in Hn as (k & _ & Hk).
          apply last_pos_Some in Hk as [Hk _]. apply elem_of_list_lookup. eauto.
        * exists h. split; [|done]. intros name Hn. by apply H, known_columns.
      + left. split; [|done]. destruct H as (name & H2 & H3). exists name. by rewrite known_columns.
    - left. split; [|done]. destruct H as (name & H2 & H3). exists name. by rewrite known_columns.
  Qed.

  Lemma rows_result_not_header h rows :
    rows_result (d := d) parse_num h rows <> IllegalHeader /\
    rows_result (d := d) parse_num h rows <> MissingHeader.
  Proof.
    assert (forall names row, read_list parse_num h row names <> IllegalHeader /\
                              read_list parse_num h row names <> MissingHeader) as Hl.
    { induction names as [|c names IH]; intros row; cbn; [done|].
      unfold read_num, item. destruct (header_find h c); cbn; [|done].
      destruct (row !! _); cbn; [|done]. destruct (parse_num _); cbn; [|done].
      destruct (IH row) as [H1 H2]. by destruct (read_list _ _ _ _). }
    assert (forall row name, read_num parse_num h row name <> IllegalHeader /\
                             read_num parse_num h row name <> MissingHeader) as Hn.
    { intros row c. unfold read_num, item. destruct (header_find h c); cbn; [|done].
      destruct (row !! _); cbn; [|done]. by destruct (parse_num _). }
    induction rows as [|row rows [IH1 IH2]]; cbn; [done|].
    assert (read_row (d := d) parse_num h row <> IllegalHeader /\
            read_row (d := d) parse_num h row <> MissingHeader) as [H1 H2].
    { unfold read_row, read_type, item. destruct (header_find h _); cbn; [|done].
      destruct (row !! _); cbn; [|done]. destruct (parse_int _); cbn; [|done].
      destruct (Hl (position_columns (d := d)) row) as [? ?]. destruct (read_list _ _ _ _); cbn; try done.
      destruct (Hl (velocity_columns (d := d)) row) as [? ?]. destruct (read_list _ _ _ _); cbn; try done.
      destruct (Hn row (lit "p")) as [? ?]. destruct (read_num _ _ _ _); cbn; try done.
      destruct (Hn row (lit "n")) as [? ?]. by destruct (read_num _ _ _ _); cbn. }
    destruct (read_row _ _ _); cbn; try done. by destruct (rows_result _ _ _); cbn.
  Qed.

  (** Cells which determine a row. *)
  Lemma known_type : known d (lit "Type"). Proof. by left. Qed.
  Lemma known_p : known d (lit "p"). Proof. right. by left. Qed.
  Lemma known_n : known d (lit "n"). Proof. right. right. by left. Qed.
  Lemma known_axis k : (k < dimn d)%nat -> known d (axis_name d k).
  Proof. intros. do 3 right. exists k. eauto. Qed.
  Lemma known_speed k : (k < dimn d)%nat -> known d (speed_name d k).
  Proof. intros. do 3 right. exists k. eauto. Qed.
End Reading.

Section Rows.
  Context {N : num} {d : dim} (parse_num : text -> option N).

  Lemma position_columns_axis : position_columns (d := d) = map (axis_name d) (seq 0 (dimn d)).
  Proof. by destruct d. Qed.
  Lemma velocity_columns_speed : velocity_columns (d := d) = map (speed_name d) (seq 0 (dimn d)).
  Proof. by destruct d. Qed.

  Definition cell_num (head row : list text) (name : text) : csv_result N :=
    match cell_of head row name with
    | Some s => match parse_num s with Some v => Read v | None => BadValue end
    | None => CsvUndefined
    end.
  Lemma read_num_cell head h row name :
    header_ok (d := d) head h -> known d name -> read_num parse_num h row name = cell_num head row name.
  Proof.
    intros Hh Hn. unfold read_num, cell_num. rewrite (item_cell head) by done. by destruct (cell_of _ _ _).
  Qed.
  Lemma read_type_cell head h row :
    header_ok (d := d) head h ->
    read_type h row =
    match cell_of head row (lit "Type") with
    | Some s => match parse_int s with Some z => Read (ptype_of_Z z) | None => BadValue end
    | None => CsvUndefined
    end.
  Proof.
    intros Hh. unfold read_type. rewrite (item_cell head) by (done || apply known_type). by destruct (cell_of _ _ _).
  Qed.
  Fixpoint cell_list (head row : list text) (names : list text) : csv_result (list N) :=
    match names with
    | [] => Read []
    | c :: names =>
        csv_bind (cell_num head row c) (fun v =>
        csv_bind (cell_list head row names) (fun vs => Read (v :: vs)))
    end.
  Lemma read_list_cell head h row names :
    header_ok (d := d) head h -> (forall name, name ∈ names -> known d name) ->
    read_list parse_num h row names = cell_list head row names.
  Proof.
    intros Hh. induction names as [|c names IH]; intros Hn; cbn; [done|].
    rewrite (read_num_cell head) by (done || apply Hn; left).
    rewrite IH; [done|]. intros name ?. apply Hn. by right.
  Qed.
  Definition cell_row (head row : list text) : csv_result (particle N d) :=
    csv_bind (match cell_of head row (lit "Type") with
              | Some s => match parse_int s with Some z => Read (ptype_of_Z z) | None => BadValue end
              | None => CsvUndefined
              end) (fun t =>
    csv_bind (cell_list head row (map (axis_name d) (seq 0 (dimn d)))) (fun x =>
    csv_bind (cell_list head row (map (speed_name d) (seq 0 (dimn d)))) (fun u =>
    csv_bind (cell_num head row (lit "p")) (fun p =>
    csv_bind (cell_num head row (lit "n")) (fun n =>
    Read (mkParticle (tmk d (fun k => nth k x (nofZ 0))) (tmk d (fun k => nth k u (nofZ 0)))
                     p n t)))))).
  Lemma read_row_cell head h row :
    header_ok (d := d) head h -> read_row parse_num h row = cell_row head row.
  Proof.
    intros Hh. unfold read_row, cell_row. rewrite (read_type_cell head) by done.
    rewrite position_columns_axis, velocity_columns_speed.
    rewrite !(read_list_cell head); [|done| |done|].
    - by rewrite !(read_num_cell head) by (done || apply known_p || apply known_n).
    - intros name Hn. apply elem_of_list_fmap in Hn as (k & -> & Hk). apply known_speed.
      apply elem_of_seq in Hk. lia.
    - intros name Hn. apply elem_of_list_fmap in Hn as (k & -> & Hk). apply known_axis.
      apply elem_of_seq in Hk. lia.
  Qed.

  Lemma cell_num_Read head row name v :
    cell_num head row name = Read v <-> exists s, cell head row name s /\ parse_num s = Some v.
  Proof.
    unfold cell_num. split.
    - destruct (cell_of head row name) as [s|] eqn:E; [|done]. apply cell_of_Some in E.
      destruct (parse_num s) as [v'|] eqn:Ev; [|done]. intros [= ->]. eauto.
    - intros (s & H1 & H2). apply cell_of_Some in H1. by rewrite H1, H2.
  Qed.
  Lemma cell_list_Read head row names vs :
    cell_list head row names = Read vs <-> Forall2 (fun c v => cell_num head row c = Read v) names vs.
  Proof.
    revert vs. induction names as [|c names IH]; intros vs; cbn.
    - split; [intros [= <-]; constructor|]. by inversion 1.
    - split.
      + destruct (cell_num head row c) as [v| | | |] eqn:E; cbn; try done.
        destruct (cell_list head row names) as [vs'| | | |] eqn:E'; cbn; try done.
        intros [= <-]. constructor; [done|]. by apply IH.
      + inversion 1 as [|? v ? vs' Hv Hvs]; subst. rewrite Hv. cbn. apply IH in Hvs. by rewrite Hvs.
  Qed.
End Rows.

(** ** Whole numbers *)
Lemma is_space_white c : is_space c = true <-> white c.
Proof.
  unfold is_space, white. rewrite orb_true_iff, andb_true_iff, Nat.eqb_eq, !Nat.leb_le. done.
Qed.
Lemma skip_space_blanks blanks s : Forall white blanks -> skip_space (blanks ++ s) = skip_space s.
Proof. induction 1 as [|c l Hc _ IH]; [done|]. apply is_space_white in Hc. cbn [app skip_space]. by rewrite Hc. Qed.
Lemma skip_space_split s : exists blanks, s = blanks ++ skip_space s /\ Forall white blanks.
Proof.
  induction s as [|c s (b & Hb & Hw)]; [by exists []|]. cbn [skip_space]. destruct (is_space c) eqn:E.
  - exists (c :: b). split; [by rewrite Hb at 1|]. constructor; [by apply is_space_white|done].
  - by exists [].
Qed.
(** The digits of a number. *)
Fixpoint uint_digits (u : uint) : text :=
  match u with
  | Nil => []
  | Decimal.D0 u => "0" :: uint_digits u | Decimal.D1 u => "1" :: uint_digits u | Decimal.D2 u => "2" :: uint_digits u
  | Decimal.D3 u => "3" :: uint_digits u | Decimal.D4 u => "4" :: uint_digits u | Decimal.D5 u => "5" :: uint_digits u
  | Decimal.D6 u => "6" :: uint_digits u | Decimal.D7 u => "7" :: uint_digits u | Decimal.D8 u => "8" :: uint_digits u
  | Decimal.D9 u => "9" :: uint_digits u
  end%char.
Lemma uint_digits_digit u : Forall digit (uint_digits u).
Proof. induction u; cbn [uint_digits]; [by apply Forall_nil|..]; (apply Forall_cons; split; [split; apply Nat.leb_le; reflexivity|done]). Qed.
Lemma text_uint_not c s : ~ digit c -> text_uint (c :: s) = Nil.
Proof.
  intros H. assert (forall n, (n <= 9)%nat -> c <> Ascii.ascii_of_nat (48 + n)) as K.
  { intros n Hn ->. apply H. unfold digit. rewrite Ascii.nat_ascii_embedding by lia. lia. }
  destruct c as [[] [] [] [] [] [] [] []]; try done; exfalso;
  first [by apply (K 0%nat); [lia|] | by apply (K 1%nat); [lia|] | by apply (K 2%nat); [lia|] | by apply (K 3%nat); [lia|]
        |by apply (K 4%nat); [lia|] | by apply (K 5%nat); [lia|] | by apply (K 6%nat); [lia|] | by apply (K 7%nat); [lia|]
        |by apply (K 8%nat); [lia|] | by apply (K 9%nat); [lia|]].
Qed.
Lemma digit_cases c : digit c -> exists n, (n <= 9)%nat /\ c = Ascii.ascii_of_nat (48 + n).
Proof.
  intros H. exists (Ascii.nat_of_ascii c - 48)%nat. unfold digit in H. split; [lia|].
  replace (48 + (Ascii.nat_of_ascii c - 48))%nat with (Ascii.nat_of_ascii c) by lia. by rewrite Ascii.ascii_nat_embedding.
Qed.
Lemma text_uint_digits digits rest : Forall digit digits -> (forall c rest', rest = c :: rest' -> ~ digit c) ->
  uint_digits (text_uint (digits ++ rest)) = digits.
Proof.
  intros H Hr. induction H as [|c l Hc _ IH].
  - cbn [app]. destruct rest as [|c rest]; [done|]. rewrite text_uint_not; [done|by eapply Hr].
  - apply digit_cases in Hc as (n & Hn & ->). cbn [app].
    do 10 (destruct n as [|n]; [change (Ascii.ascii_of_nat _) with (Ascii.ascii_of_nat 48) || idtac; cbn [text_uint]; cbn; by rewrite IH|]). lia.
Qed.
Lemma text_uint_split s : exists rest, s = uint_digits (text_uint s) ++ rest /\ forall c rest', rest = c :: rest' -> ~ digit c.
Proof.
  induction s as [|c s (r & Hr & Hd)]; [by exists []|].
  destruct (decide (48 <= Ascii.nat_of_ascii c <= 57)%nat) as [Hc|Hc].
  - exists r. split; [|done]. apply digit_cases in Hc as (n & Hn & ->).
    do 10 (destruct n as [|n]; [cbn; by rewrite Hr at 1|]). lia.
  - exists (c :: s). split; [by rewrite text_uint_not|]. intros ? ? [= <- <-]. done.
Qed.
Lemma of_uint_acc_decimal u p :
  Z.pos (Pos.of_uint_acc u p) = foldl (fun n c => 10 * n + (Z.of_nat (Ascii.nat_of_ascii c) - 48))%Z (Z.pos p) (uint_digits u).
Proof. revert p. induction u; intros p; cbn [Pos.of_uint_acc uint_digits foldl]; [done|..]; rewrite IHu; f_equal; match goal with |- context [Ascii.nat_of_ascii ?c] => let v := eval vm_compute in (Ascii.nat_of_ascii c) in change (Ascii.nat_of_ascii c) with v end; lia. Qed.
Lemma of_uint_decimal u : Z.of_uint u = decimal (uint_digits u).
Proof.
  unfold Z.of_uint, decimal. induction u; cbn [uint_digits foldl Pos.of_uint]; [done|exact IHu|..]; cbn [Z.of_N]; apply of_uint_acc_decimal.
Qed.
Lemma read_sign_digit c s : digit c -> read_sign (c :: s) = (false, c :: s).
Proof. intros (n & Hn & ->)%digit_cases. do 10 (destruct n as [|n]; [done|]). lia. Qed.

Lemma parse_int_means s z : parse_int s = Some z <-> means_int s z.
Proof.
  unfold parse_int, means_int. split.
  - destruct (skip_space_split s) as (b & Hb & Hw). destruct (read_sign (skip_space s)) as [neg t] eqn:Er.
    destruct (text_uint_split t) as (r & Hr & Hd). pose proof (uint_digits_digit (text_uint t)) as Hu.
    set (u := text_uint t) in *.
    intros H. assert (u <> Nil /\ z = (if neg then - decimal (uint_digits u) else decimal (uint_digits u))%Z /\ (-2^31 <= z < 2^31)%Z) as (Hn & Hz & Hz').
    { assert (u <> Nil) as Hn by (intros E; rewrite E in H; done). split; [done|].
      rewrite <- of_uint_decimal.
      assert ((if (-2^31 <=? (if neg then Z.of_int (Neg u) else Z.of_int (Pos u)))%Z && ((if neg then Z.of_int (Neg u) else Z.of_int (Pos u)) <? 2^31)%Z
        then Some (if neg then Z.of_int (Neg u) else Z.of_int (Pos u)) else None) = Some z) as H'.
      { clear -H Hn. destruct u; [done|exact H..]. }
      destruct (_ && _) eqn:E; [|done]. injection H' as <-. apply andb_true_iff in E as [E1%Z.leb_le E2%Z.ltb_lt].
      split; [by destruct neg|done]. }
    exists b, (if neg then ["-"%char] else if decide (t = skip_space s) then [] else ["+"%char]), (uint_digits u), r.
    rewrite <- Hr.
    assert (skip_space s = (if neg then ["-"%char] else if decide (t = skip_space s) then [] else ["+"%char]) ++ t) as Hs.
    { clear -Er. destruct (skip_space s) as [|c s']; [cbn in Er; injection Er as <- <-; done|].
      destruct (decide (c = "-"%char)) as [->|H1]; [cbn in Er; injection Er as <- <-; done|].
      destruct (decide (c = "+"%char)) as [->|H2].
      { cbn in Er. injection Er as <- <-. destruct (decide _) as [E|]; [|done]. apply (f_equal length) in E. cbn in E. lia. }
      assert (read_sign (c :: s') = (false, c :: s')) as Hc.
      { clear -H1 H2. destruct c as [[] [] [] [] [] [] [] []]; try done; exfalso; (apply H1; reflexivity) || (apply H2; reflexivity). }
      rewrite Hc in Er. injection Er as <- <-. by rewrite decide_True. }
    split; [by rewrite <- Hs|]. split; [done|]. split; [done|].
    split; [by destruct u|]. split; [done|]. split; [|done].
    destruct neg; [by right|left; split; [|done]]. destruct (decide _); tauto.
  - intros (b & sg & ds & r & -> & Hb & Hd & Hn & Hr & Hz & Hz').
    rewrite skip_space_blanks by done.
    destruct ds as [|c ds]; [done|]. pose proof Hd as [Hc _]%Forall_cons.
    assert (is_space c = false) as Hsp.
    { destruct (is_space c) eqn:E; [|done]. apply is_space_white in E. unfold white, digit in *. lia. }
    assert (exists neg, read_sign (skip_space (sg ++ (c :: ds) ++ r)) = (neg, (c :: ds) ++ r) /\
      z = (if neg then - decimal (c :: ds) else decimal (c :: ds))%Z) as (neg & Er & Hneg).
    { destruct Hz as [[[->| ->] ->]|[-> ->]].
      - exists false. split; [|done]. cbn [app skip_space]. rewrite Hsp. by apply read_sign_digit.
      - by exists false.
      - by exists true. }
    rewrite Er. cbv beta iota zeta. pose proof (text_uint_digits (c :: ds) r Hd Hr) as Ht.
    set (u := text_uint ((c :: ds) ++ r)) in *. rewrite <- Ht, <- of_uint_decimal in Hneg.
    assert (u <> Nil) as Hu by (intros E; rewrite E in Ht; done).
    assert ((if (-2^31 <=? (if neg then Z.of_int (Neg u) else Z.of_int (Pos u)))%Z && ((if neg then Z.of_int (Neg u) else Z.of_int (Pos u)) <? 2^31)%Z
        then Some (if neg then Z.of_int (Neg u) else Z.of_int (Pos u)) else None) = Some z) as H'.
    { replace (if neg then Z.of_int (Neg u) else Z.of_int (Pos u)) with z by (rewrite Hneg; by destruct neg).
      destruct (_ && _) eqn:E; [done|]. apply andb_false_iff in E as [E%Z.leb_gt|E%Z.ltb_ge]; lia. }
    clear -H' Hu. destruct u; [done|exact H'..].
Qed.

Lemma type_is_iff z t : type_is z t <-> t = ptype_of_Z z.
Proof.
  unfold type_is. split.
  - intros [[-> ->]|[[-> ->]|[[-> ->]|[[-> ->]|[H ->]]]]]; try done.
    destruct z as [|q|q]; [lia| |done]. destruct q as [[q|q|]|[q|q|]|]; try done; lia.
  - intros ->. destruct z as [|q|q]; [tauto| |cbn; right; right; right; right; split; [lia|done]].
    destruct q as [[q|q|]|[q|q|]|]; cbn; try tauto; right; right; right; right; (split; [lia|done]).
Qed.
Lemma cell_row_Read {N : num} {d : dim} (parse_num : text -> option N) head row (p : particle N d) :
  cell_row parse_num head row = Read p <-> describes parse_num head row p.
Proof.
  unfold cell_row, describes.
  set (sp := fun name v => exists s, cell head row name s /\ parse_num s = Some v).
  assert (forall name v, cell_num parse_num head row name = Read v <-> sp name v) as Hsp by apply cell_num_Read.
  split.
  - destruct (cell_of head row (lit "Type")) as [s|] eqn:Es; cbn [csv_bind]; [|done].
    destruct (parse_int s) as [z|] eqn:Ez; cbn [csv_bind]; [|done].
    destruct (cell_list _ head row (map (axis_name d) _)) as [x| | | |] eqn:Ex; cbn [csv_bind]; try done.
    destruct (cell_list _ head row (map (speed_name d) _)) as [u| | | |] eqn:Eu; cbn [csv_bind]; try done.
    destruct (cell_num _ head row (lit "p")) as [pp| | | |] eqn:Ep; cbn [csv_bind]; try done.
    destruct (cell_num _ head row (lit "n")) as [pn| | | |] eqn:En; cbn [csv_bind]; try done.
    intros [= <-]. cbn [pT pX pU pP pN]. apply cell_of_Some in Es.
    apply cell_list_Read in Ex. apply cell_list_Read in Eu. apply Hsp in Ep. apply Hsp in En.
    split; [exists s, z; split; [done|]; split; [by apply parse_int_means|by apply type_is_iff]|]. split; [|done].
    intros k Hk.
    assert (forall names l, Forall2 (fun c v => cell_num parse_num head row c = Read v) (map names (seq 0 (dimn d))) l ->
            sp (names k) (tget d (tmk d (fun k => nth k l (nofZ 0))) k)) as Hx.
    { intros names l Hl. destruct d; cbn in Hl.
      - inversion Hl as [|? v0 ? l1 H0 Hl1]; subst. inversion Hl1 as [|? v1 ? l2 H1 Hl2]; subst.
        destruct k as [|[|k]]; cbn in Hk; [by apply Hsp|by apply Hsp|lia].
      - inversion Hl as [|? v0 ? l1 H0 Hl1]; subst. inversion Hl1 as [|? v1 ? l2 H1 Hl2]; subst.
        inversion Hl2 as [|? v2 ? l3 H2 Hl3]; subst.
        destruct k as [|[|[|k]]]; cbn in Hk; [by apply Hsp|by apply Hsp|by apply Hsp|lia]. }
    split; [by apply (Hx (axis_name d))|by apply (Hx (speed_name d))].
  - intros ((s & z & Hs & Hz%parse_int_means & Ht%type_is_iff) & Hk & Hp & Hn).
    apply cell_of_Some in Hs. rewrite Hs, Hz. cbn [csv_bind].
    assert (forall names v, (forall k, (k < dimn d)%nat -> sp (names k) (tget d v k)) ->
            cell_list parse_num head row (map names (seq 0 (dimn d))) = Read (map (tget d v) (seq 0 (dimn d)))) as Hx.
    { intros names v Hv. apply cell_list_Read. apply Forall2_fmap_l, Forall2_fmap_r. apply Forall2_same_length_lookup_2; [done|].
      intros i a b Ha Hb. rewrite Ha in Hb. injection Hb as <-. apply Hsp, Hv.
      apply lookup_seq in Ha. lia. }
    rewrite (Hx (axis_name d) (pX p)) by (intros; by apply Hk). cbn [csv_bind].
    rewrite (Hx (speed_name d) (pU p)) by (intros; by apply Hk). cbn [csv_bind].
    apply Hsp in Hp. rewrite Hp. cbn [csv_bind]. apply Hsp in Hn. rewrite Hn. cbn [csv_bind]. f_equal.
    rewrite <- Ht. destruct p as [x u pp pn t]. cbn.
    destruct d; cbn in *; repeat match goal with v : (_ * _)%type |- _ => destruct v end; done.
Qed.

Section Theorems.
  Context {N : num} {d : dim} (parse_num : text -> option N).
  Notation read_csv := (read_csv (d := d) parse_num).

  Lemma rows_result_Read head h rows ps :
    header_ok (d := d) head h ->
    (rows_result (d := d) parse_num h rows = Read ps <-> Forall2 (describes parse_num head) rows ps).
  Proof.
    intros Hh. revert ps. induction rows as [|row rows IH]; intros ps; cbn.
    - split; [intros [= <-]; constructor|]. by inversion 1.
    - rewrite (read_row_cell parse_num head) by done. split.
      + destruct (cell_row _ head row) as [p| | | |] eqn:E; cbn; try done.
        destruct (rows_result _ h rows) as [ps'| | | |] eqn:E'; cbn; try done.
        intros [= <-]. constructor; [by apply cell_row_Read|]. by apply IH.
      + inversion 1 as [|? p ? ps' Hp Hps]; subst. apply cell_row_Read in Hp. rewrite Hp. cbn.
        apply IH in Hps. by rewrite Hps.
  Qed.

  (** C44.  A text showing a table is read successfully exactly if the names in its head line are
      the expected ones, all of them, and every row describes a particle; the result is
      those particles, in order. *)
  Theorem C44_read csv head rows ps :
    shows csv head rows ->
    (read_csv csv = Read ps <->
     (forall name, name ∈ head <-> known d name) /\ Forall2 (describes parse_num head) rows ps).
  Proof.
    intros Hs. rewrite (read_csv_table _ _ _ _ Hs).
    destruct (table_header (d := d) parse_num head rows) as [[(name & H1 & H2) ->]|[H1 [[(name & H2 & H3) ->]|(H2 & h & Hh & ->)]]].
    - split; [done|]. intros [H _]. by apply H in H1.
    - split; [done|]. intros [H _]. by apply H in H2.
    - rewrite (rows_result_Read head) by done. split; [|tauto]. intros H. split; [|done].
      intros name. split; auto.
  Qed.

  (** C44.  Two texts showing the same table - whatever blanks, tabs, blank lines they
      contain - are read alike. *)
  Theorem C44_layout csv csv' head rows :
    shows csv head rows -> shows csv' head rows -> read_csv csv' = read_csv csv.
  Proof. intros H1 H2. by rewrite (read_csv_table _ _ _ _ H1), (read_csv_table _ _ _ _ H2). Qed.

  (** C44.  Unknown column names. *)
  Theorem C44_unknown_column csv head rows :
    shows csv head rows ->
    (read_csv csv = IllegalHeader <-> exists name, name ∈ head /\ ~ known d name).
  Proof.
    intros Hs. rewrite (read_csv_table _ _ _ _ Hs).
    destruct (table_header (d := d) parse_num head rows) as [[(name & H1 & H2) ->]|[H1 [[(name & H2 & H3) ->]|(H2 & h & Hh & ->)]]].
    - split; [|done]. eauto.
    - split; [done|]. intros (name' & H & H'). by apply H1 in H.
    - split; [intros H; by apply rows_result_not_header in H|]. intros (name' & H & H'). by apply H1 in H.
  Qed.

  (** C44.  Missing columns. *)
  Theorem C44_missing_column csv head rows :
    shows csv head rows ->
    (read_csv csv = MissingHeader <->
     (forall name, name ∈ head -> known d name) /\ exists name, known d name /\ name ∉ head).
  Proof.
    intros Hs. rewrite (read_csv_table _ _ _ _ Hs).
    destruct (table_header (d := d) parse_num head rows) as [[(name & H1 & H2) ->]|[H1 [[(name & H2 & H3) ->]|(H2 & h & Hh & ->)]]].
    - split; [done|]. intros [H _]. by apply H in H1.
    - split; [|done]. eauto.
    - split; [intros H; by apply rows_result_not_header in H|]. intros (_ & name' & H & H'). by apply H2 in H.
  Qed.
End Theorems.

(** ** Order of the columns *)
Lemma reorder_lookup order row n k :
  order ≡ₚ seq 0 n -> length row = n ->
  reorder order row !! k = (j ← order !! k; row !! j).
Proof.
  intros Hp Hl. assert (forall j, j ∈ order -> (j < length row)%nat) as Ho.
  { intros j Hj. rewrite Hp in Hj. apply elem_of_seq in Hj. lia. }
  clear Hp Hl n. unfold reorder. revert k. induction order as [|a order IH]; intros k; [done|].
  cbn. destruct (row !! a) as [b|] eqn:E.
  2:{ apply lookup_ge_None in E. specialize (Ho a). feed specialize Ho; [left|lia]. }
  destruct k as [|k]; cbn; [done|]. apply IH. intros j Hj. apply Ho. by right.
Qed.
Lemma reorder_length order row n :
  order ≡ₚ seq 0 n -> length row = n -> length (reorder order row) = n.
Proof.
  intros Hp Hl. assert (forall j, j ∈ order -> (j < length row)%nat) as Ho.
  { intros j Hj. rewrite Hp in Hj. apply elem_of_seq in Hj. lia. }
  assert (length order = n) as <- by (rewrite Hp; apply seq_length).
  clear Hp Hl. unfold reorder. induction order as [|a order IH]; [done|].
  cbn. destruct (row !! a) as [b|] eqn:E.
  2:{ apply lookup_ge_None in E. specialize (Ho a). feed specialize Ho; [left|lia]. }
  cbn. f_equal. apply IH. intros j Hj. apply Ho. by right.
Qed.

Section Order.
  Context {N : num} {d : dim} (parse_num : text -> option N).
  Notation read_csv := (read_csv (d := d) parse_num).

  Lemma reorder_elem order head name :
    order ≡ₚ seq 0 (length head) -> name ∈ reorder order head <-> name ∈ head.
  Proof.
    intros Hp. rewrite !elem_of_list_lookup. split.
    - intros [k Hk]. rewrite (reorder_lookup _ _ _ _ Hp) in Hk by done.
      apply bind_Some in Hk as (j & _ & Hj). eauto.
    - intros [j Hj]. assert (j ∈ order) as Hjo.
      { rewrite Hp. apply elem_of_seq. apply lookup_lt_Some in Hj. lia. }
      apply elem_of_list_lookup in Hjo as [k Hk]. exists k.
      rewrite (reorder_lookup _ _ _ _ Hp) by done. by rewrite Hk.
  Qed.

  Lemma nodup_cell head row name k s :
    NoDup head -> head !! k = Some name -> row !! k = Some s -> cell_of head row name = Some s.
  Proof.
    intros Hd H1 H2. apply cell_of_Some. exists k. split; [|done]. split; [done|].
    intros k' Hk H. apply (NoDup_lookup head k k' name Hd H1) in H. lia.
  Qed.

  Lemma reorder_NoDup order head :
    order ≡ₚ seq 0 (length head) -> NoDup head -> NoDup (reorder order head).
  Proof.
    intros Hp Hd. apply NoDup_alt. intros i j name Hi Hj.
    rewrite (reorder_lookup _ _ _ _ Hp) in Hi by done. rewrite (reorder_lookup _ _ _ _ Hp) in Hj by done.
    apply bind_Some in Hi as (a & Ha & Hi). apply bind_Some in Hj as (b & Hb & Hj).
    assert (a = b) as -> by by eapply NoDup_lookup.
    assert (NoDup order) as Ho by (rewrite Hp; apply NoDup_seq).
    by eapply NoDup_lookup.
  Qed.

  Lemma reorder_cell order head row name :
    order ≡ₚ seq 0 (length head) -> NoDup head -> length row = length head -> name ∈ head ->
    cell_of (reorder order head) (reorder order row) name = cell_of head row name.
  Proof.
    intros Hp Hd Hl Hn. apply elem_of_list_lookup in Hn as [j Hj].
    assert (is_Some (row !! j)) as [s Hs].
    { apply lookup_lt_is_Some. rewrite Hl. by eapply lookup_lt_Some. }
    rewrite (nodup_cell head row name j s) by done.
    assert (j ∈ order) as Hjo.
    { rewrite Hp. apply elem_of_seq. apply lookup_lt_Some in Hj. lia. }
    apply elem_of_list_lookup in Hjo as [k Hk].
    apply (nodup_cell _ _ name k s); [by apply reorder_NoDup| |].
    - rewrite (reorder_lookup _ _ _ _ Hp) by done. by rewrite Hk.
    - rewrite (reorder_lookup _ _ _ _ Hp) by done. by rewrite Hk.
  Qed.

  Lemma cell_row_ext head row head' row' :
    (forall name, known d name -> cell_of head' row' name = cell_of head row name) ->
    cell_row (d := d) parse_num head' row' = cell_row parse_num head row.
  Proof.
    intros H. unfold cell_row.
    assert (forall name, known d name -> cell_num parse_num head' row' name = cell_num parse_num head row name) as Hc.
    { intros name Hn. unfold cell_num. by rewrite H. }
    assert (forall names, (forall k, (k < dimn d)%nat -> known d (names k)) ->
       cell_list parse_num head' row' (map names (seq 0 (dimn d))) =
       cell_list parse_num head row (map names (seq 0 (dimn d)))) as Hl.
    { intros names Hn. assert (forall c, c ∈ map names (seq 0 (dimn d)) -> known d c) as Hk.
      { intros c Hin. apply elem_of_list_fmap in Hin as (k & -> & Hk). apply elem_of_seq in Hk. apply Hn. lia. }
      revert Hk. generalize (map names (seq 0 (dimn d))). clear names Hn.
      induction l as [|c l IH]; intros Hk; cbn; [done|].
      rewrite (Hc c) by (apply Hk; left). rewrite IH; [done|]. intros c' ?. apply Hk. by right. }
    rewrite H by apply known_type. rewrite !Hl by (intros; (by apply known_axis) || (by apply known_speed)).
    by rewrite !Hc by (apply known_p || apply known_n).
  Qed.

  (** C44.  The order of the columns does not matter (no name twice, every row as long as
      the head line). *)
  Theorem C44_column_order csv csv' head rows order :
    NoDup head -> Forall (fun row => length row = length head) rows ->
    order ≡ₚ seq 0 (length head) ->
    shows csv head rows ->
    shows csv' (reorder order head) (map (reorder order) rows) ->
    read_csv csv' = read_csv csv.
  Proof.
    intros Hd Hr Hp H1 H2. rewrite (read_csv_table _ _ _ _ H1), (read_csv_table _ _ _ _ H2).
    destruct (table_header (d := d) parse_num head rows) as [[(name & K1 & K2) ->]|[K1 [[(name & K2 & K3) ->]|(K2 & h & Hh & ->)]]];
    destruct (table_header (d := d) parse_num (reorder order head) (map (reorder order) rows)) as [[(name' & K1' & K2') ->]|[K1' [[(name' & K2' & K3') ->]|(K2' & h' & Hh' & ->)]]]; try done.
    - exfalso. apply K2, K1'. by apply reorder_elem.
    - exfalso. apply K2, K1'. by apply reorder_elem.
    - exfalso. apply K2', K1. by eapply reorder_elem.
    - exfalso. apply K3. apply K2' in K2. by eapply reorder_elem.
    - exfalso. apply K2', K1. by eapply reorder_elem.
    - exfalso. apply K3'. apply K2 in K2'. by apply reorder_elem.
    - clear H1 H2. induction Hr as [|row rows Hl _ IH]; cbn; [done|].
      rewrite (read_row_cell parse_num (reorder order head)) by done.
      rewrite (read_row_cell parse_num head) by done.
      rewrite (cell_row_ext head row).
      + by rewrite IH.
      + intros name Hn. apply reorder_cell; auto.
  Qed.

  (** C44, limits.  A line of blanks or tabs before the head line is taken for the head line. *)
  Theorem C44_refuted_blank_first_line empty line rest :
    blank_line line -> line <> [] -> Forall (fun l => newline ∉ l) (line :: rest) ->
    read_csv (joined newline (replicate empty [] ++ line :: rest)) = MissingHeader.
  Proof.
    intros Hb Hne Hnl. unfold M_Csv.read_csv. rewrite cut_joined.
    - rewrite skip_replicate. destruct line as [|c line]; [done|]. cbn [skip_empty].
      rewrite (get_items_blank _ Hb). by destruct d.
    - by destruct empty.
    - apply Forall_app. split; [apply Forall_replicate, not_elem_of_nil|done].
  Qed.

  (** C44, limits.  With carriage returns before the line ends the last column name is unknown. *)
  Theorem C44_refuted_carriage_return csv head last rows :
    shows csv (head ++ [last ++ [Ascii.ascii_of_nat 13]]) rows -> read_csv csv = IllegalHeader.
  Proof.
    intros Hs. eapply C44_unknown_column; [done|]. eexists. split.
    - apply elem_of_app. right. left.
    - rewrite known_columns. intros Hk.
      assert (Forall (fun c => Ascii.ascii_of_nat 13 ∉ c) (columns d)) as Hf.
      { destruct d; repeat constructor; apply (bool_decide_unpack _); vm_compute; exact I. }
      rewrite Forall_forall in Hf. apply (Hf _ Hk). apply elem_of_app. right. left.
  Qed.

  (** C46.  A text without any non-empty line. *)
  Theorem C46_no_line csv :
    (forall c, c ∈ csv -> c = newline) -> read_csv csv = CsvUndefined.
  Proof.
    intros H. unfold M_Csv.read_csv.
    assert (skip_empty (cut newline csv) = None) as ->; [|done].
    induction csv as [|c csv IH]; [done|]. cbn [cut].
    rewrite (H c) by left. rewrite Ascii.eqb_refl. cbn [skip_empty]. apply IH.
    intros c' ?. apply H. by right.
  Qed.

  Lemma cell_list_undef head row names :
    (forall c s, c ∈ names -> cell head row c s -> is_Some (parse_num s)) ->
    (exists c, c ∈ names /\ cell_of head row c = None) ->
    cell_list parse_num head row names = CsvUndefined.
  Proof.
    induction names as [|c names IH]; intros Hr (c' & H1 & H2); [by apply elem_of_nil in H1|]. cbn.
    unfold cell_num. destruct (cell_of head row c) as [s|] eqn:E; [|done].
    destruct (Hr c s) as [v Hv]; [left|by apply cell_of_Some|]. rewrite Hv. cbn.
    rewrite IH; [done| |].
    - intros c0 s0 ? ?. apply (Hr c0); [by right|done].
    - apply elem_of_cons in H1 as [->|H1]; [congruence|]. eauto.
  Qed.
  Lemma cell_list_cases head row names :
    (forall c s, c ∈ names -> cell head row c s -> is_Some (parse_num s)) ->
    (exists vs, cell_list parse_num head row names = Read vs /\ forall c, c ∈ names -> is_Some (cell_of head row c)) \/
    cell_list parse_num head row names = CsvUndefined.
  Proof.
    intros Hr. destruct (decide (Exists (fun c => cell_of head row c = None) names)) as [He|He].
    - right. apply cell_list_undef; [done|]. apply Exists_exists in He as (c & ? & ?). eauto.
    - left. induction names as [|c names IH]; [exists []; split; [done|]; intros c Hc; by apply elem_of_nil in Hc|]. cbn.
      unfold cell_num at 1. destruct (cell_of head row c) as [s|] eqn:E; [|exfalso; apply He; by left].
      destruct (Hr c s) as [v Hv]; [left|by apply cell_of_Some|]. rewrite Hv. cbn.
      destruct IH as (vs & -> & Hvs).
      + intros c0 s0 ? ?. apply (Hr c0); [by right|done].
      + intros H. apply He. by right.
      + eexists. split; [done|]. intros c0 [->|H0]%elem_of_cons; [by rewrite E|]. by apply Hvs.
  Qed.

  (** C46.  A row without a cell for some column, all its other cells being
      readable, after rows that are fine. *)
  Theorem C46_short_row csv head rows row rest ps name :
    shows csv head (rows ++ row :: rest) ->
    (forall name, name ∈ head <-> known d name) ->
    Forall2 (describes (d := d) parse_num head) rows ps ->
    known d name -> (forall s, ~ cell head row name s) ->
    (forall s, cell head row (lit "Type") s -> exists z, means_int s z) ->
    (forall c s, known d c -> c <> lit "Type" -> cell head row c s -> is_Some (parse_num s)) ->
    read_csv csv = CsvUndefined.
  Proof.
    intros Hs Hk Hps Hn Hno Ht0 Hc.
    assert (forall s, cell head row (lit "Type") s -> exists z, parse_int s = Some z) as Ht.
    { intros s Hs1. destruct (Ht0 s Hs1) as [z Hz]. exists z. by apply parse_int_means. }
    rewrite (read_csv_table _ _ _ _ Hs).
    destruct (table_header (d := d) parse_num head (rows ++ row :: rest)) as [[(name' & K1 & K2) ->]|[K1 [[(name' & K2 & K3) ->]|(K2 & h & Hh & ->)]]].
    { by apply Hk in K1. }
    { by apply Hk in K2. }
    assert (rows_result (d := d) parse_num h (row :: rest) = CsvUndefined) as Hu.
    { cbn. rewrite (read_row_cell parse_num head) by done.
      assert (cell_row (d := d) parse_num head row = CsvUndefined) as ->; [|done].
      assert (cell_of head row name = None) as Hnone.
      { destruct (cell_of head row name) as [s|] eqn:E; [|done]. apply cell_of_Some in E. by destruct (Hno s). }
      assert (forall f, (forall k, (k < dimn d)%nat -> known d (f k) /\ f k <> lit "Type") ->
        forall c s, c ∈ map f (seq 0 (dimn d)) -> cell head row c s -> is_Some (parse_num s)) as Hf.
      { intros f Hf c s Hin Hcs. apply elem_of_list_fmap in Hin as (k & -> & Hkk). apply elem_of_seq in Hkk.
        destruct (Hf k); [lia|]. by eapply Hc. }
      assert (forall k, (k < dimn d)%nat -> known d (axis_name d k) /\ axis_name d k <> lit "Type") as Ha.
      { intros k Hkk. split; [by apply known_axis|]. destruct d, k as [|[|[|k]]]; cbn in *; try lia; done. }
      assert (forall k, (k < dimn d)%nat -> known d (speed_name d k) /\ speed_name d k <> lit "Type") as Hsp.
      { intros k Hkk. split; [by apply known_speed|]. destruct d, k as [|[|[|k]]]; cbn in *; try lia; done. }
      unfold cell_row. destruct (cell_of head row (lit "Type")) as [s|] eqn:Es; [|done].
      destruct (Ht s) as [z ->]; [by apply cell_of_Some|]. cbn [csv_bind].
      destruct (cell_list_cases head row (map (axis_name d) (seq 0 (dimn d)))) as [(x & -> & Hx)| -> ]; [by apply Hf| |done].
      cbn [csv_bind].
      destruct (cell_list_cases head row (map (speed_name d) (seq 0 (dimn d)))) as [(u & -> & Hu)| -> ]; [by apply Hf| |done].
      cbn [csv_bind].
      unfold cell_num. destruct (cell_of head row (lit "p")) as [sp|] eqn:Ep; [|done].
      destruct (Hc (lit "p") sp) as [vp ->]; [apply known_p|done|by apply cell_of_Some|]. cbn [csv_bind].
      destruct (cell_of head row (lit "n")) as [sn|] eqn:En; [|done]. exfalso.
      destruct Hn as [->|[->|[->|(k & Hkk & [-> | -> ])]]]; try congruence.
      - destruct (Hx (axis_name d k)) as [? ?]; [|congruence]. apply elem_of_list_fmap. exists k. split; [done|]. apply elem_of_seq. lia.
      - destruct (Hu (speed_name d k)) as [? ?]; [|congruence]. apply elem_of_list_fmap. exists k. split; [done|]. apply elem_of_seq. lia. }
    clear Hs. induction Hps as [|row0 p0 rows ps H0 _ IH]; [done|]. cbn [rows_result app].
    rewrite (read_row_cell parse_num head) by done. apply cell_row_Read in H0. rewrite H0. cbn [csv_bind].
    by rewrite IH.
  Qed.

  (** C46, complement.  Cells beyond the head line are ignored. *)
  Theorem C46_long_row head row more (p : particle N d) :
    length row = length head ->
    describes parse_num head (row ++ more) p <-> describes parse_num head row p.
  Proof.
    intros Hl. assert (forall name s, cell head (row ++ more) name s <-> cell head row name s) as Hc.
    { intros name s. unfold cell. split; intros (k & H1 & H2); exists k; (split; [done|]);
        destruct H1 as [H1 _]; apply lookup_lt_Some in H1.
      - by rewrite lookup_app_l in H2 by lia.
      - by rewrite lookup_app_l by lia. }
    unfold describes. setoid_rewrite Hc. done.
  Qed.
End Order.

(** ** Writing *)
Definition is_digit (c : ascii) : Prop := c ∈ (list_ascii_of_string "0123456789").
Lemma uint_text_digits u : Forall is_digit (uint_text u).
Proof.
  induction u; cbn [uint_text]; constructor; try done;
    apply (bool_decide_unpack _); vm_compute; exact I.
Qed.
Lemma text_uint_text u : text_uint (uint_text u) = u.
Proof. induction u; cbn; by f_equal. Qed.
Lemma uint_text_nil u : uint_text u = [] -> u = Nil.
Proof. by destruct u. Qed.
Lemma is_digit_plain c : is_digit c -> c <> ","%char /\ c <> newline /\ c <> " "%char /\ c <> tab /\ is_space c = false
   /\ c <> "-"%char /\ c <> "+"%char.
Proof.
  unfold is_digit. cbn. rewrite !elem_of_cons, elem_of_nil.
  intros H. repeat destruct H as [->|H]; done.
Qed.
Lemma print_int_cases z :
  exists u, u <> Nil /\ (print_int z = uint_text u /\ Z.of_int (Pos u) = z \/
                        print_int z = "-"%char :: uint_text u /\ Z.of_int (Neg u) = z).
Proof.
  unfold print_int. pose proof (DecimalZ.of_to z) as H. destruct (Z.to_int z) as [u|u] eqn:E.
  - exists u. split; [|by left]. intros ->. destruct z as [|q|q]; cbn in E; try done.
  - exists u. split; [|by right]. intros ->. destruct z as [|q|q]; cbn in E; try done.
Qed.
Lemma uint_text_same u : uint_text u = uint_digits u.
Proof. induction u; cbn; congruence. Qed.
Lemma nzhead_short u : (Decimal.nb_digits (Decimal.nzhead u) <= Decimal.nb_digits u)%nat.
Proof. induction u; cbn [Decimal.nzhead Decimal.nb_digits]; lia. Qed.
Lemma to_uint_lead q : exists c rest, uint_text (Pos.to_uint q) = c :: rest /\ c <> "0"%char.
Proof.
  set (u := Pos.to_uint q).
  assert (Z.of_uint u = Zpos q) as Hv by apply (DecimalZ.of_to (Zpos q)).
  assert (Decimal.unorm u = u) as Hu.
  { rewrite <- DecimalN.Unsigned.to_of. unfold Z.of_uint in Hv. change (N.of_uint u) with (Pos.of_uint u).
    assert (Pos.of_uint u = Npos q) as -> by lia. done. }
  destruct u as [|v|v|v|v|v|v|v|v|v|v]; cbn [uint_text]; try (eexists _, _; split; [reflexivity|discriminate]).
  { cbn in Hv. lia. }
  exfalso. unfold Decimal.unorm in Hu. cbn [Decimal.nzhead] in Hu. pose proof (nzhead_short v) as Hl.
  destruct (Decimal.nzhead v) eqn:E; try (rewrite Hu in Hl; cbn in Hl; lia). injection Hu as <-. cbn in Hv. lia.
Qed.
Lemma print_whole z : whole_text z (print_int z).
Proof.
  assert (forall q, Forall digit (uint_text (Pos.to_uint q)) /\ decimal (uint_text (Pos.to_uint q)) = Zpos q) as HD.
  { intros q. rewrite uint_text_same. split; [apply uint_digits_digit|]. rewrite <- of_uint_decimal. apply (DecimalZ.of_to (Zpos q)). }
  destruct z as [|q|q].
  - exists ["0"%char]. split; [done|]. split; [constructor; [vm_compute; lia|constructor]|]. split; [done|by left].
  - exists (uint_text (Pos.to_uint q)). destruct (HD q) as [H1 H2]. split; [done|]. split; [done|]. split; [done|]. right. apply to_uint_lead.
  - exists (uint_text (Pos.to_uint q)). destruct (HD q) as [H1 H2]. split; [done|]. split; [done|]. split; [done|]. right. apply to_uint_lead.
Qed.
Lemma print_int_plain z : plain (print_int z) /\ print_int z <> [].
Proof.
  destruct (print_int_cases z) as (u & Hu & H). pose proof (uint_text_digits u) as Hd.
  rewrite Forall_forall in Hd.
  assert (forall c, c ∈ uint_text u -> c <> ","%char /\ c <> newline /\ c <> " "%char /\ c <> tab) as Hp.
  { intros c Hc. apply Hd, is_digit_plain in Hc. tauto. }
  destruct H as [[-> _]|[-> _]]; split; try done.
  - intros H. by apply uint_text_nil in H.
  - intros c Hc. apply elem_of_cons in Hc as [->|Hc]; [done|by apply Hp].
Qed.
Lemma skip_space_id c s : is_space c = false -> skip_space (c :: s) = c :: s.
Proof. intros H. cbn [skip_space]. by rewrite H. Qed.
Lemma parse_print_int z : (-2^31 <= z < 2^31)%Z -> parse_int (print_int z) = Some z.
Proof.
  intros Hz. destruct (print_int_cases z) as (u & Hu & H). pose proof (uint_text_digits u) as Hd.
  assert (((-2^31 <=? z) && (z <? 2^31))%Z = true) as Hb.
  { apply andb_true_iff. split; [apply Z.leb_le|apply Z.ltb_lt]; lia. }
  unfold parse_int. destruct H as [[-> H]|[-> H]].
  - assert (exists c s, uint_text u = c :: s) as (c & s & E).
    { destruct (uint_text u) as [|c s] eqn:E; [by apply uint_text_nil in E|eauto]. }
    rewrite E in Hd. apply Forall_cons in Hd as [Hc _]. apply is_digit_plain in Hc as (_ & _ & _ & _ & Hs & Hm & Hp).
    rewrite E, skip_space_id by done. rewrite <- E.
    assert (read_sign (uint_text u) = (false, uint_text u)) as ->.
    { rewrite E. clear -Hm Hp. destruct c as [[] [] [] [] [] [] [] []]; try done; exfalso; (apply Hm; reflexivity) || (apply Hp; reflexivity). }
    rewrite text_uint_text. destruct u; [done|cbv beta zeta iota; by rewrite H, Hb..].
  - rewrite skip_space_id by done. cbn [read_sign]. rewrite text_uint_text. destruct u; [done|cbv beta zeta iota; by rewrite H, Hb..].
Qed.

Section Writing.
  Context {N : num} {d : dim} (print_num : N -> text) (parse_num : text -> option N).
  Notation part := (particle N d).

  Lemma fields_plain (p : part) : (forall v, value_of p v -> plain (print_num v)) -> Forall plain (fields print_num p).
  Proof.
    intros Hv. unfold fields. constructor; [apply print_int_plain|].
    apply Forall_app. split; [|apply Forall_app; split].
    - apply Forall_fmap, Forall_forall. intros k Hk%elem_of_seq. apply Hv. do 2 right. exists k. split; [lia|by left].
    - apply Forall_fmap, Forall_forall. intros k Hk%elem_of_seq. apply Hv. do 2 right. exists k. split; [lia|by right].
    - apply Forall_cons. split; [apply Hv; by left|]. apply Forall_cons. split; [apply Hv; right; by left|]. by apply Forall_nil.
  Qed.
  Lemma columns_plain : Forall plain (columns d).
  Proof.
    assert (Forall (fun s => forallb (fun c => negb (Ascii.eqb c "," || Ascii.eqb c newline || Ascii.eqb c " " || Ascii.eqb c tab)) s = true) (columns d)) as H.
    { destruct d; repeat constructor. }
    eapply Forall_impl; [exact H|]. intros s Hs c Hc. rewrite forallb_forall in Hs.
    apply elem_of_list_In, Hs, negb_true_iff in Hc. rewrite !orb_false_iff, !Ascii.eqb_neq in Hc. tauto.
  Qed.

  Lemma spaced_refl s : spaced s s.
  Proof. induction s; constructor; done. Qed.
  Lemma spaced_app a b a' b' : spaced a a' -> spaced b b' -> spaced (a ++ b) (a' ++ b').
  Proof. induction 1; cbn; intros; try constructor; auto. Qed.
  Lemma spaced_join l : spaced (joined "," l) (glue sep l).
  Proof.
    induction l as [|a l IH]; [constructor|]. destruct l as [|b l]; [apply spaced_refl|].
    change (joined "," (a :: b :: l)) with (a ++ ","%char :: joined "," (b :: l)).
    change (glue sep (a :: b :: l)) with (a ++ ","%char :: " "%char :: glue sep (b :: l)).
    apply spaced_app; [apply spaced_refl|]. by do 2 constructor.
  Qed.
  Lemma join_newline l : Forall plain l -> newline ∉ glue sep l.
  Proof.
    assert (forall a, plain a -> newline ∉ a) as Hp.
    { intros a Ha Hc. by destruct (Ha _ Hc) as (_ & ? & _). }
    induction 1 as [|a l Ha Hl IH]; [apply not_elem_of_nil|].
    destruct l as [|b l]; [by apply Hp|].
    change (glue sep (a :: b :: l)) with (a ++ ","%char :: " "%char :: glue sep (b :: l)).
    rewrite not_elem_of_app, !not_elem_of_cons. split; [by apply Hp|]. done.
  Qed.

  Lemma mjoin_text_cons (a : text) (l : list text) : mjoin (a :: l) = a ++ mjoin l.
  Proof. done. Qed.
  Lemma joined_lines c (l : list text) : mjoin (map (fun s => s ++ [c]) l) = joined c (l ++ [[]]).
  Proof.
    induction l as [|a l IH]; [done|]. cbn [map]. rewrite mjoin_text_cons, IH.
    rewrite <- app_assoc. cbn [app]. destruct (l ++ [[]]) as [|b t] eqn:E; [by destruct l|]. cbn [joined]. done.
  Qed.
  Lemma write_lines (ps : list part) :
    write_csv print_num ps =
    joined newline (glue sep (columns d) :: map (fun p => glue sep (fields print_num p)) ps ++ [[]]).
  Proof.
    rewrite app_comm_cons. rewrite <- joined_lines. unfold write_csv. cbn [map]. rewrite mjoin_text_cons. f_equal.
    by rewrite map_map.
  Qed.

  (** C45, C43.  What is written shows the table of the particles under the usual head line. *)
  Theorem C43_shows (ps : list part) :
    (forall p v, p ∈ ps -> value_of p v -> plain (print_num v)) ->
    shows (write_csv print_num ps) (columns d) (map (fields print_num) ps).
  Proof.
    intros Hv. assert (Forall (fun p => Forall plain (fields print_num p)) ps) as Hp.
    { apply Forall_forall. intros p Hp. apply fields_plain. eauto. }
    exists 0%nat, (glue sep (columns d)), (map (fun p => glue sep (fields print_num p)) ps ++ [[]]).
    split; [apply write_lines|]. split; [|split].
    - constructor; [apply join_newline, columns_plain|]. apply Forall_app. split.
      + apply Forall_fmap. eapply Forall_impl; [exact Hp|]. intros p H. by apply join_newline.
      + constructor; [apply not_elem_of_nil|constructor].
    - split; [apply columns_plain|]. split; [apply spaced_join|]. by destruct d.
    - clear Hv. induction Hp as [|p ps Hp _ IH]; cbn.
      + repeat constructor.
      + constructor; [|exact IH]. split; [done|]. split; [apply spaced_join|].
        unfold fields. destruct (print_int_plain (Z_of_ptype (pT p))) as [_ Hne].
        destruct (print_int _) as [|c s]; [done|].
        destruct (map _ (seq 0 (dimn d))) as [|b t] eqn:E; [by destruct d|]. by cbn.
  Qed.

  (** C43.  The file, spelled out: head line, then one line for each particle in order. *)
  Theorem C43_file (ps : list part) : exists lines, Forall2 (line_shows print_num) ps lines /\
    write_csv print_num ps =
    mjoin (map (fun line => line ++ [newline])
      (lit (match d with D2 => "Type, x, z, u, w, p, n" | D3 => "Type, x, y, z, u, v, w, p, n" end)%string :: lines)).
  Proof.
    exists (map (fun p => glue sep (fields print_num p)) ps). split.
    - apply Forall2_fmap_r, Forall_Forall2_diag, Forall_forall. intros p _. exists (print_int (Z_of_ptype (pT p))).
      split; [replace (type_number (pT p)) with (Z_of_ptype (pT p)) by (by destruct (pT p)); apply print_whole|]. unfold fields, sep.
      destruct d; cbn [seq map dimn mjoin list_join glue app]; rewrite <- ?app_assoc; cbn [app]; rewrite <- ?app_assoc; reflexivity.
    - unfold write_csv. cbn [map]. rewrite mjoin_text_cons. f_equal; [by destruct d|]. by rewrite map_map.
  Qed.

  (** C43.  The number reported is that of the particles not disabled. *)
  Lemma output_count_from n (ps : list part) :
    foldl (fun n p => if is_disabled (pT p) then n else S n) n ps =
    (n + length (filter (fun p => pT p <> Disabled) ps))%nat.
  Proof.
    revert n. induction ps as [|p ps IH]; intros n; cbn [foldl]; [cbn; lia|].
    rewrite IH, filter_cons. destruct (pT p) eqn:E; cbn [is_disabled];
      destruct (decide _) as [H|H]; cbn [length]; try lia; try (exfalso; apply H; discriminate); by destruct H.
  Qed.

  Lemma Z_of_ptype_of_Z z : Z_of_ptype (ptype_of_Z z) = z.
  Proof.
    destruct z as [|q|q]; try done.
    destruct q as [[q|q|]|[q|q|]|]; done.
  Qed.

  (** C45.  Reading what was written gives the particles back, in order: types exactly,
      numbers as they come back from printing and parsing. *)
  Theorem C45_round_trip (round : N -> N) (ps : list part) :
    (forall p v, p ∈ ps -> value_of p v -> plain (print_num v) /\ parse_num (print_num v) = Some (round v)) ->
    Forall (fun p => int_type (pT p)) ps ->
    read_csv parse_num (write_csv print_num ps) = Read (map (reread round) ps).
  Proof.
    intros Hv Ht. apply (C44_read (d := d) parse_num _ (columns d) (map (fields print_num) ps)).
    - apply C43_shows. intros p v Hp Hpv. by apply (Hv p v).
    - split; [intros name; by rewrite known_columns|].
      apply Forall2_fmap_l, Forall2_fmap_r. apply Forall2_same_length_lookup_2; [done|].
      intros i p q Hp Hq. rewrite Hp in Hq. injection Hq as <-. apply elem_of_list_lookup_2 in Hp.
      rewrite Forall_forall in Ht. destruct (Ht p Hp) as (z & Hz & Hpt%type_is_iff).
      assert (forall k name s, columns d !! k = Some name -> fields print_num p !! k = Some s ->
                cell (columns d) (fields print_num p) name s) as Hcell.
      { intros k name s H1 H2. exists k. split; [|done]. split; [done|]. intros k' Hk H.
        apply (NoDup_lookup _ _ _ _ (columns_NoDup d) H1) in H. lia. }
      assert (forall v, value_of p v -> parse_num (print_num v) = Some (round v)) as Hr.
      { intros v Hpv. by apply (Hv p v). }
      assert (forall k, (k < dimn d)%nat ->
         parse_num (print_num (tget d (pX p) k)) = Some (round (tget d (pX p) k)) /\
         parse_num (print_num (tget d (pU p) k)) = Some (round (tget d (pU p) k))) as Hrk.
      { intros k Hk. split; apply Hr; do 2 right; exists k; (split; [done|]); [by left|by right]. }
      assert (parse_num (print_num (pP p)) = Some (round (pP p))) as Hrp by (apply Hr; by left).
      assert (parse_num (print_num (pN p)) = Some (round (pN p))) as Hrn by (apply Hr; right; by left).
      split; [|split; [|split]].
      + exists (print_int (Z_of_ptype (pT p))), z. split; [apply (Hcell 0%nat); by destruct d|].
        rewrite Hpt, Z_of_ptype_of_Z. split; [by apply parse_int_means, parse_print_int|]. by apply type_is_iff.
      + intros k Hk. destruct (Hrk k Hk) as [Hx Hu]. clear Hrk Hrp Hrn Hr Hv.
        split; [exists (print_num (tget d (pX p) k))|exists (print_num (tget d (pU p) k))].
        * split; [apply (Hcell (1 + k)%nat)|].
          -- destruct d, k as [|[|[|k]]]; cbn in Hk; try lia; done.
          -- destruct d, k as [|[|[|k]]]; cbn in Hk; try lia; done.
          -- rewrite Hx. destruct d, k as [|[|[|k]]]; cbn in Hk; try lia; done.
        * split; [apply (Hcell (1 + dimn d + k)%nat)|].
          -- destruct d, k as [|[|[|k]]]; cbn in Hk; try lia; done.
          -- destruct d, k as [|[|[|k]]]; cbn in Hk; try lia; done.
          -- rewrite Hu. destruct d, k as [|[|[|k]]]; cbn in Hk; try lia; done.
      + exists (print_num (pP p)). split; [|done]. apply (Hcell (1 + 2 * dimn d)%nat); by destruct d.
      + exists (print_num (pN p)). split; [|done]. apply (Hcell (2 + 2 * dimn d)%nat); by destruct d.
  Qed.

  (** C45.  If printing and parsing are faithful, nothing changes. *)
  Corollary C45_faithful (ps : list part) :
    (forall p v, p ∈ ps -> value_of p v -> plain (print_num v) /\ parse_num (print_num v) = Some v) ->
    Forall (fun p => int_type (pT p)) ps ->
    read_csv parse_num (write_csv print_num ps) = Read ps.
  Proof.
    intros Hv Ht. rewrite (C45_round_trip id); [|done|done]. f_equal. clear Hv Ht.
    rewrite <- (map_id ps) at 2. apply map_ext. intros [x u pp pn t]. unfold reread. cbn.
    destruct d; cbn; repeat match goal with v : (_ * _)%type |- _ => destruct v | v : vec _ _ |- _ => destruct v end; done.
  Qed.
End Writing.

(** C43. *)
Theorem C43_count {N : num} {cfg : config} (ps : list (particle N (cDim cfg))) :
  output_count ps = length (filter (fun p => pT p <> Disabled) ps).
Proof. unfold output_count. by rewrite output_count_from. Qed.

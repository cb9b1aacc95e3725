(** Property theorems: the evaluation of the output files (C79, C80, C81). *)
From Coq Require Import String Ascii Reals Lra.
From Flocq Require Import Core.Raux.
From Verif Require Import P_Real P_Lattice P_Life P_Reach P_Step P_Point T_Density M_Post S_Post T_Csv T_Env T_Main T_Files.
From stdpp Require Import list sorting.

(** ** Names *)
Lemma sb_digits a : forall b r r', length a = length b -> Forall (fun c => 48 <= Ascii.nat_of_ascii c <= 57)%nat a ->
  Forall (fun c => 48 <= Ascii.nat_of_ascii c <= 57)%nat b -> (digits_value 0 a < digits_value 0 b)%Z -> sorts_before (a ++ r) (b ++ r').
Proof.
  induction a as [|c a IH]; intros [|c' b] r r' Hl Ha Hb H; try discriminate Hl; [cbn in H; lia|].
  apply list.Forall_cons in Ha as [Hc Ha]. apply list.Forall_cons in Hb as [Hc' Hb]. injection Hl as Hl.
  assert (forall c s, digits_value 0 (c :: s) = (Z.of_nat (Ascii.nat_of_ascii c) - 48) * 10 ^ Z.of_nat (length s) + digits_value 0 s)%Z as HS.
  { intros c0 s0. change (digits_value 0 (c0 :: s0)) with (digits_value (10 * 0 + (Z.of_nat (Ascii.nat_of_ascii c0) - 48)) s0). by rewrite digits_split. }
  rewrite !HS, Hl in H. pose proof (digits_bound a Ha) as Ba. pose proof (digits_bound b Hb) as Bb. rewrite Hl in Ba.
  cbn [app]. destruct (lt_eq_lt_dec (Ascii.nat_of_ascii c) (Ascii.nat_of_ascii c')) as [[L|E]|G].
  - by apply sb_less.
  - assert (c = c') as -> by (rewrite <- (Ascii.ascii_nat_embedding c), <- (Ascii.ascii_nat_embedding c'); by rewrite E).
    apply sb_same, IH; [done..|nia].
  - exfalso. nia.
Qed.
Lemma sb_prefix p a b : sorts_before a b -> sorts_before (p ++ a) (p ++ b).
Proof. intros H. induction p; [done|]. by apply sb_same. Qed.

(** The name of file number n, without its directory. *)
Lemma numbered_five n name : numbered n name -> (0 <= n < 100000)%Z ->
  exists digits, name = lit "result/" ++ lit "particles_" ++ digits ++ lit ".csv" /\ length digits = 5%nat /\
    Forall (fun c => 48 <= Ascii.nat_of_ascii c <= 57)%nat digits /\ digits_value 0 digits = n.
Proof.
  intros (ds & -> & H5 & HF & Hv & Hl) Hn. exists ds. split; [done|]. split; [|done].
  destruct Hl as [|Hl]; [done|]. destruct (decide (length ds = 5%nat)) as [|Hne]; [done|]. exfalso.
  assert (10 ^ 5 <= 10 ^ (Z.of_nat (length ds) - 1))%Z by (apply Z.pow_le_mono_r; lia). change (10 ^ 5)%Z with 100000%Z in *. lia.
Qed.
Lemma numbered_six n name : numbered n name -> (100000 <= n < 1000000)%Z ->
  exists digits, name = lit "result/" ++ lit "particles_" ++ digits ++ lit ".csv" /\ length digits = 6%nat /\
    Forall (fun c => 48 <= Ascii.nat_of_ascii c <= 57)%nat digits /\ digits_value 0 digits = n.
Proof.
  intros (ds & -> & H5 & HF & Hv & Hl) Hn. exists ds. split; [done|]. split; [|done]. change (digits_value 0 ds = n) in Hv.
  pose proof (digits_bound ds HF) as HB. rewrite Hv in HB. destruct Hl as [Hl|Hl].
  - rewrite Hl in HB. change (10 ^ Z.of_nat 5)%Z with 100000%Z in HB. lia.
  - destruct (decide (length ds = 6%nat)) as [|Hne]; [done|]. exfalso. destruct (decide (length ds = 5%nat)) as [E|].
    { rewrite E in HB. change (10 ^ Z.of_nat 5)%Z with 100000%Z in HB. lia. }
    assert (10 ^ 6 <= 10 ^ (Z.of_nat (length ds) - 1))%Z by (apply Z.pow_le_mono_r; lia). change (10 ^ 6)%Z with 1000000%Z in *. lia.
Qed.
Lemma py_int_digits s : s <> [] -> Forall (fun c => 48 <= Ascii.nat_of_ascii c <= 57)%nat s -> py_int s = Some (digits_value 0 s).
Proof.
  intros Hs HF. unfold py_int. destruct s as [|c s]; [done|]. pose proof HF as HF'. apply list.Forall_cons in HF' as [Hc _].
  assert (read_sign (c :: s) = (false, c :: s)) as ->.
  { clear -Hc. destruct c as [[] [] [] [] [] [] [] []]; try reflexivity; exfalso; vm_compute in Hc; lia. }
  rewrite decide_False by done.
  assert (forallb (fun c => Nat.leb 48 (Ascii.nat_of_ascii c) && Nat.leb (Ascii.nat_of_ascii c) 57) (c :: s) = true) as ->; [|done].
  apply forallb_forall. intros c' Hc'%elem_of_list_In. rewrite Forall_forall in HF. apply HF in Hc'. apply andb_true_iff. split; apply Nat.leb_le; lia.
Qed.

(** C79.  As long as no number needs six digits, the names of the files sort in the order in which the files were written, and the script reads
    the number of each back from its name. *)
Theorem C79_sorted {N : num} (cfg : config) (print_num : N -> text) (parse_num parse_attr : text -> option N) fuel xml files e cond env ps first :
  application cfg print_num parse_num parse_attr fuel xml = Some (files, e) -> load_all cfg parse_num parse_attr xml = Loaded (cond, env, ps) ->
  ceil_size (coStart cond /. coInterval cond) = Some first -> (first + Z.of_nat (length files) <= 100000)%Z ->
  exists names, map fst files = map (fun name => lit "result/" ++ name) names /\ StronglySorted sorts_before names /\
    forall k name, names !! k = Some name -> py_number name = Some (first + Z.of_nat k)%Z.
Proof.
  intros HA HL HC Hlen. destruct (C66_files _ _ _ _ _ _ _ _ HA) as [_ HF].
  destruct (decide (files = [])) as [-> |Hne]; [exists []; split; [done|]; split; [constructor|done]|].
  destruct (HF Hne) as (cond' & env' & ps' & first' & s & iter & HL' & _ & HC' & H0 & HK & _). clear HF.
  rewrite HL in HL'. injection HL' as <- <- <-. rewrite HC in HC'. injection HC' as <-.
  assert (forall k, (k < length files)%nat -> exists name rest digits, files !! k = Some (name, rest) /\
    name = lit "result/" ++ lit "particles_" ++ digits ++ lit ".csv" /\ length digits = 5%nat /\
    Forall (fun c => 48 <= Ascii.nat_of_ascii c <= 57)%nat digits /\ digits_value 0 digits = (first + Z.of_nat k)%Z) as HN.
  { intros k Hk. destruct (HK k Hk) as (name & s' & Hf & Hn & _). destruct (numbered_five _ _ Hn) as (ds & H1 & H2); [lia|]. eauto 10. }
  clear HK HA HC HL. exists (map (fun f => drop 7 f.1) files). split; [|split].
  - rewrite map_map. apply map_ext_in. intros [name rest] Hin%elem_of_list_In. apply elem_of_list_lookup in Hin as [k Hk].
    destruct (HN k) as (name' & rest' & ds & Hf & -> & _); [by eapply lookup_lt_Some|]. rewrite Hk in Hf. by injection Hf as -> _.
  - revert first H0 Hlen HN. clear. induction files as [|[name rest] files IH]; intros first H0 Hlen HN; [constructor|]. cbn [length] in *. cbn [map]. constructor.
    + apply (IH (first + 1)%Z); [lia|lia|]. intros k Hk. destruct (HN (S k)) as (name' & rest' & ds & Hf & Hn & Hl & HF & Hv); [lia|].
      exists name', rest', ds. split; [done|]. split; [done|]. split; [done|]. split; [done|]. lia.
    + apply Forall_fmap, Forall_lookup. intros k [name' rest'] Hk. cbn.
      destruct (HN 0%nat) as (a & ra & da & Hfa & Ea & La & Fa & Va); [lia|]. injection Hfa as <- <-.
      destruct (HN (S k)) as (b & rb & db & Hfb & Eb & Lb & Fb & Vb). { apply lookup_lt_Some in Hk. lia. }
      change (files !! k = Some (b, rb)) in Hfb. rewrite Hk in Hfb. injection Hfb as <- <-. rewrite Ea, Eb. cbn [lit list_ascii_of_string String.list_ascii_of_string app drop].
      apply (sb_prefix (lit "particles_")). apply sb_digits; [lia|done|done|lia].
  - intros k name Hk. apply list_lookup_fmap_Some in Hk as ([name' rest'] & Hk & ->). 
    destruct (HN k) as (b & rb & db & Hfb & Eb & Lb & Fb & Vb). { by apply lookup_lt_Some in Hk. }
    rewrite Hk in Hfb. injection Hfb as -> ->. unfold py_number.
    assert (take 5 (drop 10 (drop 7 (b, rb).1)) = db) as ->.
    { cbn [fst]. rewrite Eb. change (take 5 (db ++ lit ".csv") = db). rewrite <- Lb. by rewrite take_app. }
    rewrite py_int_digits; [by rewrite Vb|by intros ->|done].
Qed.
(** From the number 100000 on neither holds: file n with n >= 100000 sorts before the older files m > n / 10, and the script takes n / 10 for n. *)
Theorem C79_refuted_sorted n m name name' : (100000 <= n < 1000000)%Z -> (n / 10 < m < 100000)%Z ->
  numbered n (lit "result/" ++ name) -> numbered m (lit "result/" ++ name') ->
  sorts_before name name' /\ py_number name = Some (n / 10)%Z.
Proof.
  intros Hn Hm H1 H2. apply numbered_six in H1 as (ds & E1 & L1 & F1 & V1); [|done]. apply numbered_five in H2 as (ds' & E2 & L2 & F2 & V2); [|pose proof (Z.div_pos n 10); lia].
  apply app_inv_head in E1, E2. subst name name'.
  destruct (exists_last (l := ds)) as (init & c & ->); [by intros ->|]. rewrite app_length in L1. cbn in L1.
  apply Forall_app in F1 as [F1 Fc]. apply list.Forall_cons in Fc as [Fc _].
  assert (digits_value 0 init = (n / 10)%Z) as HV.
  { rewrite <- V1. unfold digits_value. rewrite foldl_app. cbn [foldl]. fold (digits_value 0 init).
    rewrite Z.mul_comm, Z.div_add_l by lia. rewrite Z.div_small by lia. lia. }
  split.
  - apply sb_prefix. rewrite <- !app_assoc. apply sb_digits; [lia|done|done|lia].
  - unfold py_number. change (drop 10 (lit "particles_" ++ (init ++ [c]) ++ lit ".csv")) with ((init ++ [c]) ++ lit ".csv").
    replace 5%nat with (length init) by lia. rewrite <- app_assoc, take_app. rewrite py_int_digits; [by rewrite HV|intros ->; discriminate L1|done].
Qed.

(** ** Reading the files *)
Lemma py_skip_plain s : plain s -> py_skip (" "%char :: s) = s /\ py_skip s = s.
Proof.
  intros H. assert (py_skip s = s) as E; [|by split].
  destruct s as [|c s]; [done|]. cbn. destruct (Ascii.eqb c " ") eqn:Ec; [|done]. apply Ascii.eqb_eq in Ec as ->.
  destruct (H " "%char) as (_ & _ & ? & _); [by left|done].
Qed.
Lemma cut_no c a : c ∉ a -> cut c a = [a].
Proof. intros H. apply (cut_joined c [a]); [done|]. by repeat constructor. Qed.
Lemma cut_app c a l : c ∉ a -> cut c (a ++ c :: l) = a :: cut c l.
Proof.
  induction a as [|x a IH]; intros H; cbn.
  - by rewrite (proj2 (Ascii.eqb_eq c c)).
  - apply not_elem_of_cons in H as [H1 H2]. destruct (Ascii.eqb x c) eqn:E; [apply Ascii.eqb_eq in E; by subst|]. by rewrite IH.
Qed.
Lemma py_row_glue l : l <> [] -> Forall plain l -> glue sep l <> [] -> py_row (glue sep l) = l.
Proof.
  intros Hl HF Hg. unfold py_row. destruct (glue sep l) as [|c0 g] eqn:Eg; [done|]. rewrite <- Eg. clear c0 g Eg Hg.
  assert (forall a, plain a -> ","%char ∉ a) as Hc. { intros a Ha Hin. by destruct (Ha _ Hin) as [? _]. }
  assert (forall l, l <> [] -> Forall plain l -> map py_skip (cut "," (" "%char :: glue sep l)) = l) as HB.
  { clear l Hl HF. induction l as [|a l IH]; intros Hl HF; [done|]. apply list.Forall_cons in HF as [Ha HF]. destruct l as [|b l].
    - cbn [glue]. rewrite cut_no; [|apply not_elem_of_cons; split; [done|by apply Hc]]. cbn [map]. by rewrite (proj1 (py_skip_plain a Ha)).
    - change (glue sep (a :: b :: l)) with (a ++ ","%char :: " "%char :: glue sep (b :: l)).
      change (" "%char :: a ++ ","%char :: " "%char :: glue sep (b :: l)) with ((" "%char :: a) ++ ","%char :: (" "%char :: glue sep (b :: l))).
      rewrite cut_app; [|apply not_elem_of_cons; split; [done|by apply Hc]]. rewrite map_cons, IH by done. by rewrite (proj1 (py_skip_plain a Ha)). }
  destruct l as [|a l]; [done|]. apply list.Forall_cons in HF as [Ha HF]. destruct l as [|b l].
  - cbn [glue]. rewrite cut_no by auto. cbn [map]. by rewrite (proj2 (py_skip_plain a Ha)).
  - change (glue sep (a :: b :: l)) with (a ++ ","%char :: (" "%char :: glue sep (b :: l))). rewrite cut_app by auto.
    rewrite map_cons, HB by done. by rewrite (proj2 (py_skip_plain a Ha)).
Qed.

Section Reading.
  Context {N : num} {d : dim} (print_num : N -> text).
  Notation part := (particle N d).
  Lemma dicts_write (ps : list part) : (forall p v, p ∈ ps -> value_of p v -> plain (print_num v)) ->
    py_dicts (write_csv print_num ps) = map (fun p => zip (columns d) (fields print_num p)) ps.
  Proof.
    intros Hv. assert (Forall (fun p => Forall plain (fields print_num p)) ps) as Hp.
    { apply Forall_forall. intros p Hp. apply fields_plain. intros v. by apply Hv. }
    assert (Forall (fun line => newline ∉ line) (glue sep (columns d) :: map (fun p => glue sep (fields print_num p)) ps ++ [[]])) as HL.
    { constructor; [apply (join_newline), (columns_plain (N := N) (fun _ => None))|]. apply Forall_app. split; [|by repeat constructor; apply not_elem_of_nil].
      apply Forall_fmap. eapply Forall_impl; [exact Hp|]. intros p H. by apply (join_newline). }
    unfold py_dicts. rewrite write_lines, cut_joined by done.
    assert (py_row (glue sep (columns d)) = columns d) as ->. { apply py_row_glue; [by destruct d|apply (columns_plain (N := N) (fun _ => None))|by destruct d]. }
    clear Hv HL. induction ps as [|p ps IH]; [done|]. apply list.Forall_cons in Hp as [Hp Hps].
    assert (glue sep (fields print_num p) <> []) as Hg. { unfold fields. destruct d; cbn; by destruct (print_int _). }
    cbn [map app]. rewrite filter_cons_True by done. cbn [map]. rewrite IH by done. f_equal. f_equal. apply py_row_glue; [done|done|done].
  Qed.
  (** C80.  A script that reads a file of the program with [csv.DictReader] gets a row for every particle, in their order, with the number of
      its type, its coordinates, velocity, pressure and number density, as printed, under their names. *)
  Theorem C80_reads (ps : list part) : (forall p v, p ∈ ps -> value_of p v -> plain (print_num v)) ->
    length (py_dicts (write_csv print_num ps)) = length ps /\
    forall i p, ps !! i = Some p -> exists row, py_dicts (write_csv print_num ps) !! i = Some row /\
      (exists s, py_get row (lit "Type") = Some s /\ whole_text (type_number (pT p)) s) /\
      (forall k, (k < dimn d)%nat -> py_get row (axis_name d k) = Some (print_num (tget d (pX p) k)) /\
                                     py_get row (speed_name d k) = Some (print_num (tget d (pU p) k))) /\
      py_get row (lit "p") = Some (print_num (pP p)) /\ py_get row (lit "n") = Some (print_num (pN p)).
  Proof.
    intros Hv. rewrite dicts_write by done. split; [by rewrite map_length|]. intros i p Hp. eexists. rewrite list_lookup_fmap, Hp. split; [done|].
    assert (whole_text (type_number (pT p)) (print_int (Z_of_ptype (pT p)))) as HW.
    { replace (type_number (pT p)) with (Z_of_ptype (pT p)) by (by destruct (pT p)). apply print_whole. }
    destruct d; (split; [eexists; split; [reflexivity|exact HW]|split; [|done]]); intros k Hk; cbn in Hk; do 3 (destruct k as [|k]; [done|]); lia.
  Qed.
End Reading.

(** The front of the fluid (koshizukaoka1996_edge.py): the largest x of a fluid particle, as printed; the script fails iff there is no fluid
    particle. *)
Lemma py_int_print z : py_int (print_int z) = Some z.
Proof.
  destruct (print_int_cases z) as (u & Hu & H). pose proof (uint_text_digits u) as Hd.
  assert (Forall (fun c => 48 <= Ascii.nat_of_ascii c <= 57)%nat (uint_text u)) as HF by (eapply Forall_impl; [exact Hd|]; intros c Hc; by apply digit_code).
  assert (uint_text u <> []) as Hn by (intros E; by apply uint_text_nil in E).
  destruct H as [[-> H]|[-> H]].
  - rewrite py_int_digits by done. f_equal. rewrite digits_uint_0. exact H.
  - unfold py_int. cbn [read_sign]. rewrite decide_False by done.
    pose proof (py_int_digits _ Hn HF) as HP. unfold py_int in HP.
    assert (read_sign (uint_text u) = (false, uint_text u)) as HR.
    { destruct (uint_text u) as [|c s]; [done|]. apply list.Forall_cons in HF as [Hc _]. clear -Hc. destruct c as [[] [] [] [] [] [] [] []]; try reflexivity; exfalso; vm_compute in Hc; lia. }
    rewrite HR, decide_False in HP by done. destruct (forallb _ _); [|discriminate HP]. f_equal. change (- digits_value 0 (uint_text u) = z)%Z. rewrite digits_uint_0. rewrite <- H. done.
Qed.

Open Scope R_scope.
Lemma py_max_spec (l : list Rnum) : match py_max l with Some m => In m l /\ (forall x, In x l -> x <= m) | None => l = [] end.
Proof.
  destruct l as [|x l]; [done|]. cbn [py_max].
  assert (forall l (x : R), let m := foldl (fun m y : Rnum => if m <?. y then y else m) x l in (m = x \/ In m l) /\ x <= m /\ forall y, In y l -> y <= m) as H.
  { clear. induction l as [|y l IH]; intros x; cbn; [repeat split; [by left|lra|done]|].
    destruct (IH (if Rlt_dec x y then y else x)) as (H1 & H2 & H3). cbn in *.
    replace (if if Rlt_dec x y then true else false then y else x) with (if Rlt_dec x y then y else x) by (by destruct (Rlt_dec x y)).
    destruct (Rlt_dec x y) as [L|L]; (split; [destruct H1 as [H1|H1]; [rewrite H1; tauto|tauto]|]); (split; [lra|]); intros z [<-|Hz]; auto; lra. }
  destruct (H l x) as (H1 & H2 & H3). split; [destruct H1 as [->|]; [by left|by right]|]. intros y [<-|Hy]; auto.
Qed.
Section Edge.
  Context {d : dim} (print_num : Rnum -> text) (py_float : text -> option Rnum) (shown : R -> R).
  Notation part := (particle Rnum d).
  (** [shown v]: the number a script gets for the printed [v]. *)
  Theorem C80_edge (ps : list part) :
    (forall p v, p ∈ ps -> value_of p v -> plain (print_num v) /\ py_float (print_num v) = Some (shown v)) ->
    Forall (fun p => int_type (pT p)) ps ->
    match py_edge py_float (write_csv print_num ps) with
    | Some edge => (exists p, p ∈ ps /\ pT p = Newton /\ edge = shown (coord (pX p) 0)) /\
                   (forall p, p ∈ ps -> pT p = Newton -> shown (coord (pX p) 0) <= edge)
    | None => forall p, p ∈ ps -> pT p <> Newton
    end.
  Proof.
    intros Hv Hty. unfold py_edge. rewrite dicts_write by (intros p v Hp Hpv; by apply (Hv p v)).
    assert (mapM (fun row => x ← py_get row (lit "x") ≫= py_float; ty ← py_get row (lit "Type") ≫= py_int; Some (x, ty))
      (map (fun p : part => zip (columns d) (fields print_num p)) ps) = Some (map (fun p : part => (shown (coord (pX p) 0) : Rnum, Z_of_ptype (pT p))) ps)) as ->.
    { clear -Hv. induction ps as [|p ps IH]; [done|]. cbn [map]. change (map ?f (p :: ps)) with (f p :: map f ps). cbn [mapM].
      assert (py_get (zip (columns d) (fields print_num p)) (lit "x") = Some (print_num (tget d (pX p) 0)) /\
              py_get (zip (columns d) (fields print_num p)) (lit "Type") = Some (print_int (Z_of_ptype (pT p)))) as [-> ->] by (by destruct d).
      cbn [mbind option_bind].
      destruct (Hv p (tget d (pX p) 0)) as [_ ->]. { by left. } { right; right. exists 0%nat. split; [by destruct d; cbn; lia|by left]. }
      cbn [mbind option_bind]. rewrite py_int_print. cbn [mbind option_bind]. rewrite IH; [done|]. intros q v Hq. apply Hv. by right. }
    cbn [mbind option_bind].
    set (L := map fst (filter (fun d0 : Rnum * Z => d0.2 = 0%Z) (map (fun p : part => (shown (coord (pX p) 0) : Rnum, Z_of_ptype (pT p))) ps))).
    assert (forall x, In x L <-> exists p, p ∈ ps /\ pT p = Newton /\ x = shown (coord (pX p) 0)) as HL.
    { intros x. unfold L. rewrite in_map_iff. split.
      - intros ([x' t] & <- & Hin%elem_of_list_In). apply elem_of_list_filter in Hin as [Ht Hin]. cbn in Ht. subst t.
        apply elem_of_list_fmap in Hin as (p & Hp & Hin). injection Hp as -> Ht. exists p. split; [done|]. split; [|done].
        rewrite Forall_forall in Hty. destruct (Hty p Hin) as (z & _ & Ez%type_is_iff). rewrite Ez in Ht |- *.
        destruct z as [|[[]|[]|]|]; cbn in Ht; done.
      - intros (p & Hp & Ht & ->). exists (shown (coord (pX p) 0), 0%Z). split; [done|]. apply elem_of_list_In, elem_of_list_filter. split; [done|].
        apply elem_of_list_fmap. exists p. by rewrite Ht. }
    pose proof (py_max_spec L) as HM. destruct (py_max L) as [m|].
    - destruct HM as [H1 H2]. split; [by apply HL|]. intros p Hp Ht. apply H2, HL. eauto.
    - intros p Hp Ht. assert (In (shown (coord (pX p) 0)) L) as H by (apply HL; eauto). by rewrite HM in H.
  Qed.
End Edge.

(** ** The reference density of the scripts *)
Lemma py_range_elem size k : k ∈ py_range size <-> (- size <= k <= size)%Z.
Proof.
  unfold py_range. rewrite elem_of_list_fmap. split.
  - intros (i & -> & Hi%elem_of_seq). lia.
  - intros H. exists (Z.to_nat (k + size)). split; [lia|]. apply elem_of_seq. lia.
Qed.
Lemma py_range_NoDup size : NoDup (py_range size).
Proof. unfold py_range. apply NoDup_fmap_2; [intros a b; lia|apply NoDup_seq]. Qed.
Definition py_lattice (size : Z) : list (list Z) := y ← py_range size; x ← py_range size; [[x; y]].
Lemma py_lattice_elem size z : z ∈ py_lattice size <-> exists x y, z = [x; y] /\ (- size <= x <= size)%Z /\ (- size <= y <= size)%Z.
Proof.
  unfold py_lattice. rewrite elem_of_list_bind. setoid_rewrite elem_of_list_bind. setoid_rewrite elem_of_list_singleton. setoid_rewrite py_range_elem.
  split; [intros (y & (x & H1 & H2) & H3); eauto 10|intros (x & y & H1 & H2 & H3); eauto 10].
Qed.
Lemma pairs_NoDup (xs ys : list Z) : NoDup xs -> NoDup ys -> NoDup (y ← ys; x ← xs; [[x; y]]).
Proof.
  intros Hx Hys. induction Hys as [|y ys Hy Hys IH]; [constructor|].
  change (NoDup ((x ← xs; [[x; y]]) ++ (y ← ys; x ← xs; [[x; y]]))). apply NoDup_app. split; [|split; [|done]].
  - clear IH. induction Hx as [|x xs Hx Hxs IHx]; [constructor|]. change (NoDup ([x; y] :: (x ← xs; [[x; y]]))). constructor; [|done].
    rewrite elem_of_list_bind. intros (x' & H & Hx'). apply elem_of_list_singleton in H. injection H as <-. done.
  - intros z Hz Hz'. apply elem_of_list_bind in Hz as (x & H & _). apply elem_of_list_singleton in H as ->.
    apply elem_of_list_bind in Hz' as (y' & H & Hy'). apply elem_of_list_bind in H as (x' & H & _). apply elem_of_list_singleton in H. by injection H as <- <-.
Qed.
Lemma py_lattice_NoDup size : NoDup (py_lattice size).
Proof. apply pairs_NoDup; apply py_range_NoDup. Qed.
(** C81.  The scripts and the program agree on the reference density: [calculate_n0(r_e)] is the N0 of every environment with r_eByl_0 = r_e, in
    exact arithmetic. *)
Theorem C81_reference_density (cfg : config) maxDt courant g rho nu surf (ratio : R) c (l_0 : R) minX maxX env :
  cDim cfg = D2 -> new_env (N := Rnum) cfg maxDt courant g rho nu surf ratio c l_0 minX maxX = Some env -> 0 < l_0 ->
  py_n0 (N := Rnum) ratio = Some (eN0 env).
Proof.
  intros HD H Hl. unfold py_n0. cbn [nceil Rnum].
  assert (exists z, to_index (Zceil ratio) = Some z) as [z Hz].
  { revert H. unfold new_env. cbn [nceil Rnum]. destruct (to_index (Zceil ratio)); [eauto|done]. }
  assert (z = Zceil ratio) as Ez. { unfold to_index in Hz. destruct (_ && _)%bool in Hz; [by injection Hz as <-|done]. }
  rewrite Hz. cbn [mbind option_bind]. f_equal.
  assert (lattice_within (cDim cfg) ratio (py_lattice z)) as HW.
  { split; [apply py_lattice_NoDup|..].
    - intros q (x & y & -> & _)%py_lattice_elem. by rewrite HD.
    - intros q Hlen Hn Hlt. rewrite HD in Hlen. destruct q as [|x [|y [|]]]; try discriminate Hlen. apply py_lattice_elem. exists x, y. split; [done|].
      assert (forall k, k ∈ [x; y] -> (- z <= k <= z)%Z) as HB.
      { intros k Hk. pose proof (znorm_coord [x; y] k Hk) as Hc. assert (Rabs (IZR k) < IZR z) as Hb by (subst z; pose proof (Zceil_ub ratio); lra).
        apply Rabs_def2 in Hb as [B1 B2]. rewrite <- opp_IZR in B2. apply lt_IZR in B1, B2. lia. }
      split; apply HB; [by left|right; by left]. }
  destruct (C13_reference_density maxDt courant g rho nu surf ratio c l_0 minX maxX env _ H Hl HW) as [_ ->].
  assert (forall (n0 : R) x y, py_add (N := Rnum) ratio y n0 x = n0 + wt (znorm [x; y]) ratio) as HS.
  { intros n0 x y. unfold py_add. cbn -[IZR]. unfold znorm. cbn [map rsum foldr]. rewrite Rplus_0_r, plus_IZR, !mult_IZR.
    unfold wt. destruct (Rlt_dec 0 _); cbn; [|lra]. destruct (Rlt_dec _ ratio); cbn; lra. }
  assert (forall y xs (n0 : R), foldl (py_add (N := Rnum) ratio y) n0 xs = n0 + rsum (map (fun q => wt (znorm q) ratio) (x ← xs; [[x; y]]))) as HX.
  { intros y. induction xs as [|x xs IH]; intros n0; [cbn; lra|]. cbn [foldl]. rewrite HS. etrans; [apply IH|]. change (x ← x :: xs; [[x; y]]) with ([x; y] :: (x ← xs; [[x; y]])). cbn [map rsum foldr]. unfold rsum. lra. }
  assert (forall ys (n0 : R), foldl (fun (n0 : Rnum) y => foldl (py_add (N := Rnum) ratio y) n0 (py_range z)) n0 ys =
       n0 + rsum (map (fun q => wt (znorm q) ratio) (y ← ys; x ← py_range z; [[x; y]]))) as HY.
  { induction ys as [|y ys IH]; intros n0; [cbn; lra|]. cbn [foldl]. rewrite HX. etrans; [apply IH|].
    change (y ← y :: ys; x ← py_range z; [[x; y]]) with ((x ← py_range z; [[x; y]]) ++ (y ← ys; x ← py_range z; [[x; y]])). rewrite map_app, rsum_app. lra. }
  etrans; [apply HY|]. cbn [nofZ Rnum]. rewrite Rplus_0_l. done.
Qed.

(** ** The surface *)
Lemma get_plane {N : num} {d : dim} (print_num : N -> text) (p : particle N d) : d = D2 -> let row := zip (columns d) (fields print_num p) in
  py_get row (lit "x") = Some (print_num (tget d (pX p) 0)) /\ py_get row (lit "z") = Some (print_num (tget d (pX p) 1)) /\
  py_get row (lit "p") = Some (print_num (pP p)) /\ py_get row (lit "n") = Some (print_num (pN p)).
Proof. by intros ->. Qed.
Section Deficit.
  Context {cfg : config} {wm : wallmotion Rnum (cDim cfg)}.
  Notation computer := (computer cfg wm).
  (** With virtual surface particles no particle ends a step with a density below N0. *)
  Theorem C81_no_deficit env0 dt (s s' : computer) : square_ground env0 -> cSPP cfg = true -> reachable env0 s -> forward_dt dt s = Done s' ->
    forall p, p ∈ cParts s' -> pT p <> Dummy -> pT p <> Disabled -> eN0 env0 <= pN p.
  Proof.
    intros Hsq HS Hr Hf p Hp Hd1 Hd2. apply elem_of_list_lookup in Hp as [i Hp].
    destruct (forward_Done _ _ _ Hf) as (s1 & s2 & s3 & s4 & s5 & s6 & s7 & HT).
    assert (exists p0, cParts s !! i = Some p0) as [p0 Hp0].
    { apply lookup_lt_is_Some_2. pose proof (forward_frame dt s s') as [_ F]; [by rewrite Hf|]. apply Forall2_length in F. rewrite !fmap_length in F. rewrite F. by eapply lookup_lt_Some. }
    destruct (step_particle _ _ _ _ _ _ _ _ _ _ i p0 HT Hp0) as (p1 & _ & _ & n1 & _ & _ & _ & p4 & Hp4 & T4 & _ & _ & n2 & Hp5 & _ & _ & p7 & _ & T7 & _ & p8 & Hp8 & T8 & _ & N8).
    rewrite Hp in Hp8. injection Hp8 as <-. rewrite N8.
    pose proof (dens_at s4 s5 i p4 (st_dens2 _ _ _ _ _ _ _ _ _ _ HT) Hp4) as HD.
    assert (is_active (pT p4) = true) as HA. { rewrite T4, <- T8. by destruct (pT p). }
    rewrite HA, HS in HD. destruct HD as (n & _ & Hp5' & _). rewrite Hp5 in Hp5'. injection Hp5' as HN.
    assert (eN0 (cEnv s4) = eN0 env0) as E.
    { rewrite (trace_env _ _ _ _ _ _ _ _ _ _ s4 HT) by (rewrite !elem_of_cons; tauto). cbn.
      pose proof (inv_env _ _ (reachable_inv _ _ Hsq Hr)) as HE. by rewrite HE. }
    rewrite HN, E. unfold nmax. cbn. destruct (Rlt_dec n (eN0 env0)); lra.
  Qed.
End Deficit.
Section Surface.
  Context {cfg : config} {wm : wallmotion Rnum (cDim cfg)} (print_num : Rnum -> text) (py_float : text -> option Rnum) (shown : R -> R).
  Notation computer := (computer cfg wm).
  (** C81, refuted.  So check_result.py fails on every file of such a build but the first (unless beta is almost 1): if all particles are fluid or wall, it finds
      no particle at the surface and takes the maximum of an empty list. *)
  Theorem C81_refuted_surface maxDt courant g rho nu surf (ratio : R) c (l_0 beta : R) minX maxX env0 dt (s s' : computer) :
    cDim cfg = D2 -> cSPP cfg = true -> new_env (N := Rnum) cfg maxDt courant g rho nu surf ratio c l_0 minX maxX = Some env0 -> 0 < l_0 ->
    reachable env0 s -> forward_dt dt s = Done s' ->
    (forall p, p ∈ cParts s' -> pT p <> Dummy /\ pT p <> Disabled) ->
    (forall p v, p ∈ cParts s' -> value_of p v -> plain (print_num v) /\ py_float (print_num v) = Some (shown v)) ->
    (forall p, p ∈ cParts s' -> Rabs (shown (pN p) - pN p) <= / 10 ^ 5 * Rabs (pN p)) -> beta <= 1 - / 10 ^ 5 ->
    py_surface py_float ratio beta (write_csv print_num (cParts s')) = None.
  Proof.
    intros HD HS Henv Hl Hr Hf Hact Hv Hsh Hb. unfold py_surface.
    assert (square_ground env0) as Hsq by (by left).
    pose proof (C81_no_deficit _ _ _ _ Hsq HS Hr Hf) as HN.
    rewrite (C81_reference_density cfg _ _ _ _ _ _ _ _ _ _ _ _ HD Henv Hl).
    assert (0 <= eN0 env0) as H0 by apply (C13_positive_iff _ _ _ _ _ _ _ _ _ _ _ _ Henv Hl).
    rewrite dicts_write by (intros p v Hp Hpv; by apply (Hv p v)). generalize dependent (cParts s'). clear Hf s'. intros ps Hact Hv Hsh HN.
    assert (exists f : particle Rnum (cDim cfg) -> R, mapM (fun row => x ← py_get row (lit "x") ≫= py_float; z ← py_get row (lit "z") ≫= py_float; _ ← py_get row (lit "p") ≫= py_float;
        n ← py_get row (lit "n") ≫= py_float; Some (nsqrt (x ×. x +. z ×. z), n)) (map (fun p => zip (columns (cDim cfg)) (fields print_num p)) ps)
        = Some (map (fun p => (f p : Rnum, shown (pN p) : Rnum)) ps)) as [f ->].
    { exists (fun p => R_sqrt.sqrt (shown (coord (pX p) 0) * shown (coord (pX p) 0) + shown (coord (pX p) 1) * shown (coord (pX p) 1))).
      clear -HD Hv. induction ps as [|p ps IH]; [done|]. change (map ?f (p :: ps)) with (f p :: map f ps). cbn [mapM].
      destruct (get_plane print_num p HD) as (-> & -> & -> & ->).
      assert (p ∈ p :: ps) as Hin by left.
      destruct (Hv p (tget _ (pX p) 0) Hin) as [_ E0]. { right; right. exists 0%nat. split; [rewrite HD; cbn; lia|by left]. }
      destruct (Hv p (tget _ (pX p) 1) Hin) as [_ E1]. { right; right. exists 1%nat. split; [rewrite HD; cbn; lia|by left]. }
      destruct (Hv p (pP p) Hin) as [_ EP]; [by left|]. destruct (Hv p (pN p) Hin) as [_ EN]; [right; by left|].
      cbn [mbind option_bind]. rewrite E0. cbn [mbind option_bind]. rewrite E1. cbn [mbind option_bind]. rewrite EP. cbn [mbind option_bind]. rewrite EN. cbn [mbind option_bind].
      rewrite IH; [done|]. intros q v Hq. apply Hv. by right. }
    cbn [mbind option_bind].
    assert (filter (fun d : Rnum * Rnum => d.2 <?. (eN0 env0 : Rnum) ×. (beta : Rnum)) (map (fun p => (f p : Rnum, shown (pN p) : Rnum)) ps) = []) as ->; [|done].
    clear Hv. induction ps as [|p ps IH]; [done|]. change (map ?f (p :: ps)) with (f p :: map f ps). rewrite filter_cons_False.
    - apply IH; intros q Hq; [apply Hact|apply Hsh|apply HN]; by right.
    - cbn. assert (p ∈ p :: ps) as Hin by left. destruct (Hact p Hin) as [A1 A2]. specialize (HN p Hin A1 A2). specialize (Hsh p Hin).
      rewrite (Rabs_pos_eq (pN p)) in Hsh by lra. apply Raux.Rabs_le_inv in Hsh.
      destruct (Rlt_dec _ _) as [L|L]; [|by intros []]. exfalso. nra.
  Qed.
End Surface.

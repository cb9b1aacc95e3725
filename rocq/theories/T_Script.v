(** Property theorems: the files of the benchmark scripts are loaded as meant (C74). *)
From Coq Require Import ZArith Reals String Ascii.
From Verif Require Import S_Script P_Text T_Csv T_App T_Text T_Bench.
From Flocq Require Import Core BinarySingleNaN.
From stdpp Require Import list.

Section Any.
  Context {N : num} (py_str : N -> text) (parse_num parse_attr : text -> option N).
  Notation part := (particle N D2).

  (** ** The table *)
  Lemma columns_plain2 : Forall plain (columns D2).
  Proof. repeat (apply List.Forall_cons; [intros c Hc; repeat (apply elem_of_cons in Hc as [->|Hc]; [repeat split; discriminate|]); by apply elem_of_nil in Hc|]). done. Qed.
  Definition row (p : part) : list text :=
    [print_int (Z_of_ptype (pT p)); py_str (tget D2 (pX p) 0); py_str (tget D2 (pX p) 1); lit "0"; lit "0"; lit "0"; lit "0"].
  Lemma script_line_glue p : script_line py_str p = glue sep (row p) ++ [newline].
  Proof. unfold script_line, row, sep. cbn [glue]. rewrite <- !app_assoc. reflexivity. Qed.
  Lemma script_csv_lines ps : script_csv py_str ps = joined newline (glue sep (columns D2) :: map (fun p => glue sep (row p)) ps ++ [[]]).
  Proof.
    rewrite app_comm_cons, <- joined_lines. unfold script_csv. cbn [map]. rewrite mjoin_text_cons. f_equal. rewrite map_map. f_equal.
    apply map_ext. apply script_line_glue.
  Qed.
  Lemma script_shows ps : (forall v, v ∈ coordinates ps -> plain (py_str v)) -> shows (script_csv py_str ps) (columns D2) (map row ps).
  Proof.
    intros Hv. assert (Forall (fun p => Forall plain (row p)) ps) as Hp.
    { apply Forall_forall. intros p Hp. unfold row.
      assert (forall k, k = 0%nat \/ k = 1%nat -> plain (py_str (tget D2 (pX p) k))) as Hk.
      { intros k Hk. apply Hv. unfold coordinates. apply elem_of_list_In, in_flat_map. exists p. split; [by apply elem_of_list_In|]. destruct Hk as [-> | ->]; [by left|right; by left]. }
      assert (plain (lit "0")) as H0. { intros c Hc%elem_of_list_singleton. subst. repeat split; discriminate. }
      apply List.Forall_cons; [apply print_int_plain|]. apply List.Forall_cons; [apply Hk; auto|]. apply List.Forall_cons; [apply Hk; auto|].
      do 4 (apply List.Forall_cons; [done|]). done. }
    exists 0%nat, (glue sep (columns D2)), (map (fun p => glue sep (row p)) ps ++ [[]]).
    split; [apply script_csv_lines|]. split; [|split].
    - constructor; [apply join_newline, columns_plain2|]. apply Forall_app. split.
      + apply Forall_fmap. eapply Forall_impl; [exact Hp|]. intros p H. by apply join_newline.
      + constructor; [apply not_elem_of_nil|constructor].
    - split; [apply columns_plain2|]. split; [apply spaced_join|]. done.
    - clear Hv. induction Hp as [|p ps Hp _ IH]; cbn.
      + repeat constructor.
      + constructor; [|exact IH]. split; [done|]. split; [apply spaced_join|].
        unfold row. destruct (print_int _) as [|c s]; done.
  Qed.
  Lemma script_read ps : (forall v, v ∈ coordinates ps -> plain (py_str v) /\ parse_num (py_str v) = Some v) -> parse_num (lit "0") = Some (nofZ 0) ->
    Forall (fun p : part => int_type (pT p) /\ pU p = ((nofZ 0, nofZ 0) : vec N D2) /\ pP p = nofZ 0 /\ pN p = nofZ 0) ps ->
    read_csv parse_num (script_csv py_str ps) = Read ps.
  Proof.
    intros Hv H0 Ht. apply (C44_read (d := D2) parse_num _ (columns D2) (map row ps)).
    - apply script_shows. intros v Hx. by apply Hv.
    - split; [intros name; by rewrite known_columns|]. apply Forall2_fmap_l. apply Forall2_same_length_lookup_2; [done|].
      intros i p q Hp Hq. rewrite Hp in Hq. injection Hq as <-. apply elem_of_list_lookup_2 in Hp.
      rewrite Forall_forall in Ht. destruct (Ht p Hp) as ((z & Hz & Hpt%type_is_iff) & HU & HP & HN).
      assert (forall k name s, columns D2 !! k = Some name -> row p !! k = Some s -> S_Csv.cell (columns D2) (row p) name s) as Hcell.
      { intros k name s H1 H2. exists k. split; [|done]. split; [done|]. intros k' Hk H. apply (NoDup_lookup _ _ _ _ (columns_NoDup D2) H1) in H. lia. }
      assert (forall k, k = 0%nat \/ k = 1%nat -> parse_num (py_str (tget D2 (pX p) k)) = Some (tget D2 (pX p) k)) as Hk.
      { intros k Hk. apply Hv. unfold coordinates. apply elem_of_list_In, in_flat_map. exists p. split; [by apply elem_of_list_In|]. destruct Hk as [-> | ->]; [by left|right; by left]. }
      split; [|split; [|split]].
      + exists (print_int (Z_of_ptype (pT p))), z. split; [by apply (Hcell 0%nat)|].
        rewrite Hpt, Z_of_ptype_of_Z. split; [by apply parse_int_means, parse_print_int|]. by apply type_is_iff.
      + intros k Hkd. cbn in Hkd. assert (k = 0%nat \/ k = 1%nat) as [-> | ->] by lia.
        * split; [exists (py_str (tget D2 (pX p) 0)); split; [by apply (Hcell 1%nat)|by apply Hk; left]|]. exists (lit "0"). split; [by apply (Hcell 3%nat)|]. by rewrite HU.
        * split; [exists (py_str (tget D2 (pX p) 1)); split; [by apply (Hcell 2%nat)|by apply Hk; right]|]. exists (lit "0"). split; [by apply (Hcell 4%nat)|]. by rewrite HU.
      + exists (lit "0"). split; [by apply (Hcell 5%nat)|]. by rewrite HP.
      + exists (lit "0"). split; [by apply (Hcell 6%nat)|]. by rewrite HN.
  Qed.
  Lemma laid_out_rest (l_0 : N) ps shape : laid_out l_0 ps shape -> Forall (fun p : part => int_type (pT p) /\ pU p = ((nofZ 0, nofZ 0) : vec N D2) /\ pP p = nofZ 0 /\ pN p = nofZ 0) ps.
  Proof.
    intros (sites & HF & [_ HT] & _). assert (forall t a b, (t, a, b) ∈ sites -> int_type t) as HI.
    { intros t a b H%HT. destruct H as [-> | [-> | ->]]; [exists 0%Z|exists 1%Z|exists 2%Z]; (split; [lia|by apply type_is_iff]). }
    clear HT. induction HF as [|[[t a] b] p sites ps (H1 & _ & H2 & H3 & H4) _ IH]; constructor.
    - split; [|done]. rewrite H1. apply (HI t a b). by left.
    - apply IH. intros t' a' b' H. apply (HI t' a' b'). by right.
  Qed.

  (** ** The settings *)
  Lemma get_at {A} (tr : text -> option A) xml path s l a : get_child xml (path_of path) = Some (Tree s l) -> tr s = Some a -> get tr xml path = Loaded a.
  Proof. intros H1 H2. unfold get. rewrite H1. cbn. by rewrite H2. Qed.
  Lemma uint_text_digits_eq u : uint_text u = uint_digits u.
  Proof. induction u; cbn; by f_equal. Qed.
  Lemma parse_size_print z : (0 <= z < 2 ^ 64)%Z -> parse_size (print_int z) = Some z.
  Proof.
    intros Hz. apply parse_size_means. destruct (print_int_cases z) as (u & Hu & [[-> E]|[E0 E]]).
    - assert (decimal (uint_text u) = z) as HD by (by rewrite uint_text_digits_eq, <- of_uint_decimal).
      exists [], [], (uint_text u), []. rewrite app_nil_r, HD. rewrite uint_text_digits_eq.
      split; [done|]. split; [constructor|]. split; [apply uint_digits_digit|].
      split; [intros E0; apply Hu; by apply uint_text_nil; rewrite uint_text_digits_eq|]. split; [constructor|]. split; [rewrite uint_text_digits_eq in HD; lia|]. left. auto.
    - exfalso. cbn in E. pose proof (decimal_nonneg _ (uint_digits_digit u)) as Hn. rewrite <- of_uint_decimal in Hn. assert (z = 0%Z) as Hz0 by lia. rewrite Hz0 in E0. done.
  Qed.
  (** C74.  Whatever the number format, if the program reads the numbers the script writes as what they are: the settings and the
      particles of the script are what is loaded. *)
  Theorem C74_loads hs hl ecs gc ds spp mid central pad (st : settings N) (sc : scene N) (l_0 : N) shape :
    (forall v, v ∈ setting_numbers st sc -> parse_attr (py_str v) = Some v) ->
    (forall v, v ∈ coordinates (scParts sc) -> plain (py_str v) /\ parse_num (py_str v) = Some v) -> parse_num (lit "0") = Some (nofZ 0) ->
    laid_out l_0 (scParts sc) shape -> usable_radius (stRatio st) -> (0 <= stSteps st < 2 ^ 64)%Z ->
    loads_as hs hl ecs gc ds spp mid central parse_num parse_attr (script_tree py_str pad st sc) st sc.
  Proof.
    intros HA HC H0 HL (z & Hz & Hzr) Hsteps. unfold loads_as. set (cfg := plane_implicit hs hl ecs gc ds spp mid central).
    assert (exists env : environment N cfg, new_env cfg (stInterval st /. nofZ (stSteps st)) (stCourant st) (stG st) (stRho st) (stNu st)
      (if spp then nofZ 0 else stSurf st) (stRatio st) (nofZ 0) (stL0 st) (scMin sc) (scMax sc) = Some env) as [env Henv].
    { unfold new_env. rewrite Hz. assert (((z <? -2 ^ 31) || (2 ^ 31 <=? z))%Z = false) as -> by lia. eauto. }
    exists env. split; [exact Henv|].
    assert (forall s l path v, get_child (script_tree py_str pad st sc) (path_of path) = Some (Tree s l) -> s = py_str v -> v ∈ setting_numbers st sc ->
      get parse_attr (script_tree py_str pad st sc) path = Loaded v) as G.
    { intros s l path v H1 -> Hv. apply (get_at _ _ _ _ _ _ H1). by apply HA. }
    Ltac setting_at G v := match goal with |- context [get _ _ ?path] => rewrite (G _ _ path v ltac:(vm_compute; reflexivity) eq_refl ltac:(unfold setting_numbers; rewrite !elem_of_cons; tauto)) end; cbn [load_bind].
    unfold load_all, load_condition. change (cExplicit cfg) with false.
    setting_at G (stStart st). setting_at G (stEnd st). setting_at G (stInterval st). setting_at G (stEps st).
    unfold load_env. change (cExplicit cfg) with false. change (cSPP cfg) with spp. change (cDim cfg) with D2.
    setting_at G (stL0 st). rewrite (get_at parse_size (script_tree py_str pad st sc) "openmps.environment.minStepCountPerOutput.<xmlattr>.value" (print_int (stSteps st)) [] (stSteps st) ltac:(reflexivity) (parse_size_print _ Hsteps)). cbn [load_bind].
    setting_at G (stCourant st). setting_at G (stG st). setting_at G (stRho st). setting_at G (stNu st). setting_at G (stRatio st).
    assert ((if spp then Loaded (nofZ 0) else get parse_attr (script_tree py_str pad st sc) "openmps.environment.surfaceRatio.<xmlattr>.value")
      = Loaded (if spp then nofZ 0 else stSurf st)) as ->. { destruct spp; [done|]. by setting_at G (stSurf st). }
    cbn [load_bind].
    setting_at G (tget D2 (scMin sc) 0). setting_at G (tget D2 (scMin sc) 1). setting_at G (tget D2 (scMax sc) 0). setting_at G (tget D2 (scMax sc) 1).
    unfold load_environment. cbn [coInterval].
    match goal with |- context [new_env _ _ _ _ _ _ _ _ _ _ ?a ?b] => replace a with (scMin sc : vec N D2); [replace b with (scMax sc : vec N D2)|] end.
    2:{ destruct sc as [ps [a b] [c d]]. done. } 2:{ destruct sc as [ps [a b] [c d]]. done. }
    rewrite Henv. cbn [load_bind].
    unfold load_particles. change (get_child _ (path_of "openmps.particles.<xmlattr>.type")) with (Some (Tree (lit "csv") [])). cbn [tree_data].
    destruct (decide _) as [_|Hx]; [|done]. rewrite (get_at Some (script_tree py_str pad st sc) "openmps.particles" (script_csv py_str (scParts sc)) [(lit "<xmlattr>", Tree [] [(lit "type", Tree (lit "csv") [])])] (script_csv py_str (scParts sc)) ltac:(reflexivity) eq_refl). cbn [load_bind].
    change (cDim cfg) with D2. rewrite (script_read _ HC H0 (laid_out_rest _ _ _ HL)). done.
  Qed.
End Any.

(** ** Other builds *)
(** C74.  Builds for three dimensions and explicit builds do not accept the files: nothing is written. *)
Theorem C74_rejected {N : num} (cfg : config) (py_str print_num : N -> text) (parse_num parse_attr : text -> option N) fuel pad (st : settings N) (sc : scene N) :
  cExplicit cfg = true \/ cDim cfg = D3 ->
  application cfg print_num parse_num parse_attr fuel (script_tree py_str pad st sc) = Some ([], Terminated).
Proof.
  intros [H|H].
  - apply (C65_missing_entry cfg print_num parse_num parse_attr fuel _ "environment" "c").
    + unfold needed. rewrite H. apply elem_of_app. right. apply elem_of_app. left. by left.
    + unfold readable. cbn. intros (v & s & (t & Ht & _)%found_get & _). discriminate Ht.
  - apply (C65_missing_entry cfg print_num parse_num parse_attr fuel _ "environment" "minY").
    + unfold needed. rewrite H. apply elem_of_app. right. apply elem_of_app. right. apply elem_of_app. right. by left.
    + unfold readable. cbn. intros (v & s & (t & Ht & _)%found_get & _). discriminate Ht.
Qed.

(** ** Python's numbers *)
Open Scope R_scope.
Section Python.
  Context (py_str : B64 -> text) (Hpy : python_str py_str).
  Lemma python_setting x : is_finite x = true -> get_double (py_str x) = Some x.
  Proof.
    intros Hf. destruct (Hpy x Hf) as (_ & v & Hn & Hv & _). apply C72_setting. exists [], (py_str x), (Bsign x), v, []. rewrite app_nil_r.
    split; [done|]. split; [constructor|]. split; [constructor|]. split; [done|]. rewrite Hv. split; [apply abs_B2R_lt_emax|]. done.
  Qed.
  Lemma python_stod x : is_finite x = true -> not_tiny x -> stod (py_str x) = Some x.
  Proof.
    intros Hf Ht. destruct (Hpy x Hf) as (_ & v & Hn & Hv & H0).
    destruct (C72_stod [] (py_str x) (Bsign x) v []) as [[Hr _]|(_ & y & Hy & Fy & Sy & Vy)]; [constructor|done|intros c r; discriminate| |].
    - exfalso. destruct Hr as [Hr|[Hr Hne]]; [rewrite Hv in Hr; pose proof (abs_B2R_lt_emax 53 1024 x); lra|].
      destruct (Ht Hf) as [E|E]; [rewrite (H0 E) in *; apply Hne; congruence|].
      rewrite <- Hv in E. assert (Rabs (to_double v) <= bpow radix2 (-1022)) as HB.
      { apply abs_round_le_generic; [typeclasses eauto|typeclasses eauto|apply generic_format_bpow; unfold FLT_exp; lia|].
        unfold tiny_bound in Hr. pose proof (bpow_gt_0 radix2 (-1076)). lra. }
      pose proof (bpow_lt radix2 (-1022) (-1021) ltac:(lia)). lra.
    - rewrite app_nil_r in Hy. cbn [app] in Hy. rewrite Hy. f_equal. apply B2R_Bsign_inj; try done. congruence.
  Qed.
  Lemma stod_zero : stod (lit "0") = Some (@nofZ B64num 0).
  Proof. reflexivity. Qed.
  (** C74.  The same for the program as it is, in binary64, with the numbers written by Python: all numbers finite, no coordinate
      tiny (0 or at least 2^-1021). *)
  Theorem C74_python hs hl ecs gc ds spp mid central pad (st : settings B64num) (sc : scene B64num) l_0 shape :
    (forall v, v ∈ setting_numbers st sc -> is_finite v = true) ->
    (forall v, v ∈ coordinates (scParts sc) -> is_finite v = true /\ not_tiny v) ->
    laid_out l_0 (scParts sc) shape -> usable_radius (stRatio st) -> (0 <= stSteps st < 2 ^ 64)%Z ->
    loads_as (N := B64num) hs hl ecs gc ds spp mid central stod get_double (script_tree (N := B64num) py_str pad st sc) st sc.
  Proof.
    intros HA HC HL HR HS. eapply (C74_loads (N := B64num) py_str stod get_double); try done.
    - intros v Hv. apply python_setting. by apply HA.
    - intros v Hv. destruct (HC v Hv) as [Hf Ht]. split; [by apply Hpy|by apply python_stod].
  Qed.
End Python.

(** ** The coordinates of the scripts *)
Lemma int_double z : (Z.abs z <= 10 ^ 9)%Z -> is_finite (@nofZ B64num z : B64) = true /\ B2R (@nofZ B64num z : B64) = IZR z.
Proof.
  intros Hz. pose proof (binary_normalize_correct 53 1024 _ _ mode_NE z 0 false) as H. cbv zeta in H.
  assert (F2R (Float radix2 z 0) = IZR z) as E by (unfold F2R; simpl; ring). rewrite E in H.
  assert (round radix2 (SpecFloat.fexp 53 1024) (round_mode mode_NE) (IZR z) = IZR z) as HR.
  { apply round_generic; [apply valid_rnd_N|]. apply (generic_format_FLT radix2 (-1074) 53). exists (Float radix2 z 0); [done| |done]. cbn [Fnum]. simpl. lia. }
  rewrite HR in H. rewrite Rlt_bool_true in H.
  - destruct H as (H1 & H2 & _). done.
  - rewrite <- abs_IZR. eapply Rle_lt_trans; [apply IZR_le, Hz|]. change (bpow radix2 1024) with (IZR (2 ^ 1024)). apply IZR_lt. reflexivity.
Qed.
Lemma coordinate_double z (l_0 : B64) : (Z.abs z <= 10 ^ 9)%Z -> / 10 ^ 12 <= B2R l_0 <= 10 ^ 12 ->
  is_finite ((@nofZ B64num z : B64num) ×. l_0) = true /\ not_tiny ((@nofZ B64num z : B64num) ×. l_0).
Proof.
  intros Hz [Hl1 Hl2]. destruct (int_double z Hz) as [Fz Vz]. assert (0 < / 10 ^ 12) by (apply Rinv_0_lt_compat, pow_lt; lra).
  assert (is_finite l_0 = true) as Fl. { destruct l_0; cbn in *; try done; exfalso; lra. }
  change ((@nofZ B64num z : B64num) ×. l_0) with (Bmult mode_NE (@nofZ B64num z : B64) l_0).
  pose proof (Bmult_correct 53 1024 _ _ mode_NE (@nofZ B64num z : B64) l_0) as HM. rewrite Vz in HM.
  assert (Rabs (IZR z * B2R l_0) <= bpow radix2 100) as HB.
  { rewrite Rabs_mult, <- abs_IZR, (Rabs_pos_eq (B2R l_0)) by lra. apply Rle_trans with (10 ^ 9 * 10 ^ 12).
    - apply Rmult_le_compat; [apply IZR_le; lia|lra| |done]. rewrite pow_IZR. by apply IZR_le.
    - rewrite <- pow_add, pow_IZR. change (bpow radix2 100) with (IZR (2 ^ 100)). apply IZR_le. vm_compute. discriminate. }
  assert (Rabs (round radix2 (SpecFloat.fexp 53 1024) (round_mode mode_NE) (IZR z * B2R l_0)) <= bpow radix2 100) as HB2.
  { apply abs_round_le_generic; [apply (fexp_correct 53 1024), b64_prec|apply valid_rnd_N|apply generic_format_bpow; done|done]. }
  rewrite Rlt_bool_true in HM; [|eapply Rle_lt_trans; [exact HB2|apply bpow_lt; lia]]. destruct HM as (H1 & H2 & _).
  split; [rewrite H2, Fz, Fl; done|]. intros _. rewrite H1.
  destruct (decide (z = 0%Z)) as [->|Hnz]; [left; rewrite Rmult_0_l; apply round_0, valid_rnd_N|right].
  eapply Rle_trans; [apply bpow_le; instantiate (1 := (-100)%Z); lia|].
  apply abs_round_ge_generic; [apply (fexp_correct 53 1024), b64_prec|apply valid_rnd_N|apply generic_format_bpow; done|].
  rewrite Rabs_mult, <- abs_IZR, (Rabs_pos_eq (B2R l_0)) by lra.
  apply Rle_trans with (1 * / 10 ^ 12).
  - rewrite Rmult_1_l. change (bpow radix2 (-100)) with (/ IZR (2 ^ 100)). apply Rinv_le_contravar; [apply pow_lt; lra|].
    rewrite pow_IZR. apply IZR_le. vm_compute. discriminate.
  - apply Rmult_le_compat; [lra|lra| |done]. apply IZR_le. lia.
Qed.
(** C74.  The coordinates of a lattice scene of at most 10^9 cells each way, l_0 between 10^-12 and 10^12, are of that kind. *)
Theorem C74_coordinates (l_0 : B64) ps shape : laid_out (N := B64num) l_0 ps shape -> / 10 ^ 12 <= B2R l_0 <= 10 ^ 12 ->
  (forall t a b, shape t a b -> (Z.abs a <= 10 ^ 9 /\ Z.abs b <= 10 ^ 9)%Z) ->
  forall v : B64num, v ∈ coordinates ps -> is_finite v = true /\ not_tiny v.
Proof.
  intros (sites & HF & _ & HS) Hl Hb v Hv. unfold coordinates in Hv. apply elem_of_list_In, in_flat_map in Hv as (p & Hp & Hv).
  apply elem_of_list_In, elem_of_list_lookup in Hp as [i Hi]. destruct (Forall2_lookup_r _ _ _ _ _ HF Hi) as ([[t a] b] & Hs & (_ & HX & _)).
  apply elem_of_list_lookup_2 in Hs. apply HS in Hs. destruct (Hb t a b Hs) as [Ha Hbb].
  rewrite HX in Hv. destruct Hv as [<-|[<-|[]]]; by apply coordinate_double.
Qed.
Lemma foldl_pick {A} (f : A -> A -> A) (l : list A) a : (forall x y, f x y = x \/ f x y = y) -> foldl f a l = a \/ foldl f a l ∈ l.
Proof.
  intros Hf. revert a. induction l as [|x l IH]; intros a; [by left|]. cbn [foldl]. destruct (IH (f a x)) as [E|E]; [|right; by right].
  rewrite E. destruct (Hf a x) as [->| ->]; [by left|right; by left].
Qed.
Lemma static_finite (st : settings B64num) w h :
  Forall (fun v : B64num => is_finite v = true)
    [stStart st; stEnd st; stInterval st; stEps st; stCourant st; stG st; stRho st; stNu st; stRatio st; stSurf st] ->
  / 10 ^ 12 <= B2R (stL0 st) <= 10 ^ 12 -> (0 <= w <= 10 ^ 8)%Z -> (0 <= h <= 10 ^ 8)%Z ->
  let sc := static_pressure (N := B64num) (stL0 st) w h in
  (forall v, v ∈ setting_numbers st sc -> is_finite v = true) /\ (forall v, v ∈ coordinates (scParts sc) -> is_finite v = true /\ not_tiny v).
Proof.
  intros HF Hl Hw Hh sc. pose proof (C73_static (N := B64num) (stL0 st) w h ltac:(lia) ltac:(lia)) as HL. fold sc in HL.
  assert (forall v : B64num, v ∈ coordinates (scParts sc) -> is_finite v = true /\ not_tiny v) as HC.
  { apply (C74_coordinates (stL0 st) _ _ HL Hl). intros t a b Hx. unfold static_shape, water, inner_wall, behind_wall in Hx. lia. }
  split; [|exact HC].
  assert (is_finite (stL0 st : B64) = true) as Fl.
  { assert (0 < / 10 ^ 12) by (apply Rinv_0_lt_compat, pow_lt; lra). revert Hl. destruct (stL0 st); cbn; intros; try done; exfalso; lra. }
  assert (forall (f : B64num -> B64num -> B64num) (a : B64num) k, (forall x y, f x y = x \/ f x y = y) -> is_finite a = true -> (k < 2)%nat ->
    is_finite (foldl (fun (m : B64num) (p : particle B64num D2) => f m (tget D2 (pX p) k)) a (scParts sc) : B64) = true) as HP.
  { intros f a k Hf Ha Hk. rewrite (T_Bench.foldl_fmap f (fun p : particle B64num D2 => tget D2 (pX p) k)).
    destruct (foldl_pick f (map (fun p : particle B64num D2 => tget D2 (pX p) k) (scParts sc)) a Hf) as [E|E]; [exact (eq_trans (f_equal _ E) Ha)|].
    apply elem_of_list_In, in_map_iff in E as (p & E & Hp). rewrite <- E. apply HC. unfold coordinates. apply elem_of_list_In, in_flat_map.
    exists p. split; [done|]. destruct k as [|[|k]]; [by left|right; by left|lia]. }
  assert (forall x y : B64num, py_min x y = x \/ py_min x y = y) as Hmin by (intros x y; unfold py_min; destruct (y <?. x); auto).
  assert (forall x y : B64num, py_max x y = x \/ py_max x y = y) as Hmax by (intros x y; unfold py_max; destruct (x <?. y); auto).
  assert (is_finite (float_max (N := B64num) : B64) = true) as Fmax by (vm_cast_no_check (@eq_refl bool true)).
  assert (is_finite (float_min (N := B64num) : B64) = true) as Fmin by (vm_cast_no_check (@eq_refl bool true)).
  pose proof (HP py_min float_max 0%nat Hmin Fmax ltac:(lia)) as C1. pose proof (HP py_min float_max 1%nat Hmin Fmax ltac:(lia)) as C2.
  pose proof (HP py_max float_min 0%nat Hmax Fmin ltac:(lia)) as C3. pose proof (HP py_max float_min 1%nat Hmax Fmin ltac:(lia)) as C4.
  change (is_finite (tget D2 (scMin sc) 0 : B64) = true) in C1. change (is_finite (tget D2 (scMin sc) 1 : B64) = true) in C2.
  change (is_finite (tget D2 (scMax sc) 0 : B64) = true) in C3. change (is_finite (tget D2 (scMax sc) 1 : B64) = true) in C4.
  clear HP HC HL. clearbody sc. apply Forall_forall. unfold setting_numbers.
  repeat match goal with H : Forall _ (_ :: _) |- _ => apply list.Forall_cons in H as [? ?] end.
  repeat (apply List.Forall_cons; [assumption|]). constructor.
Qed.
(** C74.  The file of the static scene, in binary64: every size up to 10^8, l_0 between 10^-12 and 10^12. *)
Theorem C74_static_python (py_str : B64 -> text) hs hl ecs gc ds spp mid central pad (st : settings B64num) w h :
  python_str py_str ->
  Forall (fun v : B64num => is_finite v = true)
    [stStart st; stEnd st; stInterval st; stEps st; stCourant st; stG st; stRho st; stNu st; stRatio st; stSurf st] ->
  / 10 ^ 12 <= B2R (stL0 st) <= 10 ^ 12 -> (0 <= w <= 10 ^ 8)%Z -> (0 <= h <= 10 ^ 8)%Z ->
  usable_radius (stRatio st) -> (0 <= stSteps st < 2 ^ 64)%Z ->
  let sc := static_pressure (N := B64num) (stL0 st) w h in
  loads_as (N := B64num) hs hl ecs gc ds spp mid central stod get_double (script_tree (N := B64num) py_str pad st sc) st sc.
Proof.
  intros Hpy HF Hl Hw Hh HR HS sc. pose proof (C73_static (N := B64num) (stL0 st) w h ltac:(lia) ltac:(lia)) as HL. fold sc in HL.
  destruct (static_finite st w h HF Hl Hw Hh) as [H1 H2].
  apply (C74_python py_str Hpy hs hl ecs gc ds spp mid central pad st sc (stL0 st) _) with (3 := HL); done.
Qed.

(** ** From the script to the first step, in exact arithmetic *)
Lemma koshizuka_laid_out (l_0 L height width : R) sc : koshizuka_oka (N := Rnum) l_0 L height width = Some sc -> / 10 ^ 12 <= l_0 -> 0 < L -> 1 <= width -> 0 < height ->
  exists shape, laid_out (N := Rnum) l_0 (scParts sc) shape.
Proof.
  intros E Hl HL Hw Hh. assert (0 < / 10 ^ 12) by (apply Rinv_0_lt_compat, pow_lt; lra). pose proof E as E'. unfold koshizuka_oka in E'.
  destruct (py_ceil ((L : Rnum) /. (l_0 : Rnum))) as [l|] eqn:E1; [|done]. destruct (py_ceil ((L : Rnum) ×. (height : Rnum) /. (l_0 : Rnum))) as [h|] eqn:E2; [|done]. destruct (py_ceil ((L : Rnum) ×. (width : Rnum) /. (l_0 : Rnum))) as [w|] eqn:E3; [|done]. clear E'.
  eexists. apply (C73_koshizuka (N := Rnum) l_0 L height width l h w sc E E1 E2 E3); apply nceil_Some in E1, E2, E3; subst l h w.
  - assert (1 <= Zceil (L * width / l_0))%Z; [|cbn in *; lia]. apply Zceil_pos, Rdiv_lt_0_compat; nra.
  - apply Zceil_le. apply Rmult_le_compat_r; [left; apply Rinv_0_lt_compat; lra|]. cbn. nra.
  - apply Zceil_pos, Rdiv_lt_0_compat; [cbn; nra|lra].
Qed.
Lemma zhou_laid_out (l_0 H W h w : R) sc : zhou_et_al (N := Rnum) l_0 H W h w = Some sc -> / 10 ^ 12 <= l_0 -> 0 < w <= W -> 0 < h <= H ->
  exists shape, laid_out (N := Rnum) l_0 (scParts sc) shape.
Proof.
  intros E Hl Hw Hh. assert (0 < / 10 ^ 12) by (apply Rinv_0_lt_compat, pow_lt; lra). pose proof E as E'. unfold zhou_et_al in E'.
  destruct (py_ceil ((H : Rnum) /. (l_0 : Rnum))) as [nH|] eqn:E1; [|done]. destruct (py_ceil ((W : Rnum) /. (l_0 : Rnum))) as [nW|] eqn:E2; [|done].
  destruct (py_ceil ((h : Rnum) /. (l_0 : Rnum))) as [nh|] eqn:E3; [|done]. destruct (py_ceil ((w : Rnum) /. (l_0 : Rnum))) as [nw|] eqn:E4; [|done]. clear E'.
  eexists. apply (C73_zhou (N := Rnum) l_0 H W h w nH nW nh nw sc E E1 E2 E3 E4); apply nceil_Some in E1, E2, E3, E4; subst nH nW nh nw.
  - assert (1 <= Zceil (W / l_0))%Z; [|cbn in *; lia]. apply Zceil_pos, Rdiv_lt_0_compat; lra.
  - apply Zceil_le. apply Rmult_le_compat_r; [left; apply Rinv_0_lt_compat; lra|lra].
  - apply Zceil_pos, Rdiv_lt_0_compat; lra.
Qed.
Section Run.
  Context (hs hl ecs gc ds mid : bool) (py_str : Rnum -> text) (parse_num parse_attr : text -> option Rnum) (pad : text) (st : settings Rnum).
  Lemma loads_then (sc : scene Rnum) l_0 shape : script_settings st -> read_as_written py_str parse_num parse_attr st sc -> laid_out l_0 (scParts sc) shape ->
    (forall env, bench_env hs hl ecs gc ds mid (stInterval st / IZR (stSteps st)) (stG st) (stRho st) (stNu st) 0 0 (stL0 st) (scMin sc) (scMax sc) = Some env ->
       forall cond, first_step_succeeds hs hl ecs gc ds mid cond env (scParts sc)) ->
    loads_and_steps hs hl ecs gc ds mid parse_num parse_attr (script_tree py_str pad st sc) (scParts sc).
  Proof.
    intros [(HC & HR & _) HS] (R1 & R2 & R3) HL Hrun.
    assert (usable_radius (stRatio st)) as HU.
    { rewrite HR. exists 3%Z. split; [|lia]. cbn. unfold to_index. replace (Zceil (24 / 10)) with 3%Z; [done|]. symmetry. apply Zceil_imp. change (2 < 24 / 10 <= 3)%R. split; lra. }
    destruct (C74_loads py_str parse_num parse_attr hs hl ecs gc ds true mid false pad st sc l_0 shape R1 R2 R3 HL HU ltac:(lia)) as (env & Henv & Hload).
    rewrite HC, HR in Henv. eexists _, env. split; [exact Hload|]. apply Hrun. exact Henv.
  Qed.
  Lemma step_length : script_settings st -> 0 < stInterval st / IZR (stSteps st).
  Proof. intros [(_ & _ & H & _) HS]. apply Rdiv_lt_0_compat; [done|]. apply IZR_lt. lia. Qed.
  Theorem C74_static_run w h : let sc := static_pressure (stL0 st) w h in
    script_settings st -> read_as_written py_str parse_num parse_attr st sc -> (0 <= w <= 10 ^ 8)%Z -> (1 <= h <= 10 ^ 8)%Z ->
    loads_and_steps hs hl ecs gc ds mid parse_num parse_attr (script_tree py_str pad st sc) (scParts sc).
  Proof.
    intros sc Hst Hrd Hw Hh. eapply (loads_then sc); [done|done|apply C73_static; lia|]. intros env Henv cond. pose proof Hst as [(_ & _ & _ & Hg & Hl) _].
    eapply C73_static_runs; [exact Henv|by apply step_length|done|done|done|done].
  Qed.
  Theorem C74_koshizuka_run (L height width : R) : script_settings st ->
    0 < L -> 1 <= width -> 0 < height -> L * width <= 10 ^ 8 * stL0 st -> L * height <= 10 ^ 8 * stL0 st ->
    exists sc, koshizuka_oka (stL0 st) L height width = Some sc /\
      (read_as_written py_str parse_num parse_attr st sc -> loads_and_steps hs hl ecs gc ds mid parse_num parse_attr (script_tree py_str pad st sc) (scParts sc)).
  Proof.
    intros Hst HL Hw Hh Bw Bh. pose proof Hst as [(_ & _ & _ & Hg & Hl) _]. pose proof (step_length Hst) as HD.
    destruct (C73_koshizuka_runs hs hl ecs gc ds mid _ (stG st) (stRho st) (stNu st) 0 0 (stL0 st) L height width (mkCondition (N := Rnum) 0 0 0 0) HD Hg Hl HL Hw Hh Bw Bh) as (sc & E & _).
    exists sc. split; [done|]. intros Hrd.
    destruct (koshizuka_laid_out _ _ _ _ _ E Hl HL Hw Hh) as (shape & Hlay).
    eapply (loads_then sc); [done|done|exact Hlay|]. intros env Henv cond.
    destruct (C73_koshizuka_runs hs hl ecs gc ds mid _ (stG st) (stRho st) (stNu st) 0 0 (stL0 st) L height width cond HD Hg Hl HL Hw Hh Bw Bh) as (sc' & E' & HR).
    assert (sc' = sc) as -> by congruence. by apply HR.
  Qed.
  Theorem C74_zhou_run (H W h w : R) : script_settings st ->
    0 < w <= W -> 0 < h <= H -> W <= 10 ^ 8 * stL0 st -> H <= 10 ^ 8 * stL0 st ->
    exists sc, zhou_et_al (stL0 st) H W h w = Some sc /\
      (read_as_written py_str parse_num parse_attr st sc -> loads_and_steps hs hl ecs gc ds mid parse_num parse_attr (script_tree py_str pad st sc) (scParts sc)).
  Proof.
    intros Hst Hw Hh BW BH. pose proof Hst as [(_ & _ & _ & Hg & Hl) _]. pose proof (step_length Hst) as HD.
    destruct (C73_zhou_runs hs hl ecs gc ds mid _ (stG st) (stRho st) (stNu st) 0 0 (stL0 st) H W h w (mkCondition (N := Rnum) 0 0 0 0) HD Hg Hl Hw Hh BW BH) as (sc & E & _).
    exists sc. split; [done|]. intros Hrd.
    destruct (zhou_laid_out _ _ _ _ _ _ E Hl Hw Hh) as (shape & Hlay).
    eapply (loads_then sc); [done|done|exact Hlay|]. intros env Henv cond.
    destruct (C73_zhou_runs hs hl ecs gc ds mid _ (stG st) (stRho st) (stNu st) 0 0 (stL0 st) H W h w cond HD Hg Hl Hw Hh BW BH) as (sc' & E' & HR).
    assert (sc' = sc) as -> by congruence. by apply HR.
  Qed.
End Run.

(** Property theorems: settings files (C64, C65). *)
From Coq Require Import String Ascii Decimal DecimalZ.
From Verif Require Import P_Real S_App T_Csv T_Main.
From stdpp Require Import list.

(** ** Settings *)
Lemma first_child_split name l t : first_child name l = Some t <-> exists before after, l = before ++ (name, t) :: after /\ forall t', (name, t') ∉ before.
Proof.
  split.
  - revert t. induction l as [|[k t'] l IH]; intros t; cbn; [done|]. destruct (decide (k = name)) as [->|Hk].
    + intros [= ->]. exists [], l. split; [done|]. intros t' H. by apply elem_of_nil in H.
    + intros (before & after & -> & Hn)%IH. exists ((k, t') :: before), after. split; [done|].
      intros u [H|H]%elem_of_cons; [congruence|]. by apply (Hn u).
  - intros (before & after & -> & Hn). induction before as [|[k u] before IH]; cbn; [by rewrite decide_True|].
    rewrite decide_False; [|intros ->; apply (Hn u); left]. apply IH. intros t' H. apply (Hn t'). by right.
Qed.
Lemma found_get xml path s : found xml path s <-> exists t, get_child xml path = Some t /\ tree_data t = s.
Proof.
  split.
  - induction 1 as [data children|data before name t after path s Hn H (u & Hu & <-)]; [by exists (Tree data children)|].
    exists u. split; [|done]. cbn [get_child tree_children].
    assert (first_child name (before ++ (name, t) :: after) = Some t) as -> by (apply first_child_split; by exists before, after). done.
  - revert xml. induction path as [|name path IH]; intros [data children] (t & Ht & <-); cbn [get_child tree_children] in Ht.
    + injection Ht as <-. constructor.
    + destruct (first_child name children) as [u|] eqn:E; [|done]. apply first_child_split in E as (before & after & -> & Hn).
      constructor; [done|]. apply IH. by exists t.
Qed.

(** ** Counts *)
Lemma skip_digits_digits ds r : Forall digit ds -> (forall c r', r = c :: r' -> ~ digit c) -> skip_digits (ds ++ r) = r.
Proof.
  intros H Hr. induction H as [|c ds Hc _ IH]; cbn [app skip_digits].
  - destruct r as [|c r']; [done|]. cbn [skip_digits]. destruct (_ && _) eqn:E; [|done]. exfalso. apply (Hr c r' eq_refl).
    apply andb_true_iff in E as [E1%Nat.leb_le E2%Nat.leb_le]. by split.
  - destruct Hc as [H1%Nat.leb_le H2%Nat.leb_le]. rewrite H1, H2. exact IH.
Qed.
Lemma skip_space_nil r : skip_space r = [] <-> Forall white r.
Proof.
  induction r as [|c r IH]; [by split|]. cbn [skip_space]. destruct (is_space c) eqn:E.
  - rewrite IH. apply is_space_white in E. split; [by constructor|]. by intros [_ ?]%list.Forall_cons_1.
  - split; [done|]. intros [Hc _]%list.Forall_cons_1. apply is_space_white in Hc. congruence.
Qed.
Lemma parse_size_means s z : parse_size s = Some z <-> means_count s z.
Proof.
  unfold parse_size, means_count. split.
  - destruct (skip_space_split s) as (b & Hb & Hw). destruct (read_sign (skip_space s)) as [neg t] eqn:Er.
    destruct (text_uint_split t) as (r & Hr & Hd). pose proof (uint_digits_digit (text_uint t)) as Hu.
    set (u := text_uint t) in *.
    intros H. assert (u <> Nil /\ (decimal (uint_digits u) < 2^64)%Z /\ Forall white r /\
      z = (if neg then (- decimal (uint_digits u)) mod 2^64 else decimal (uint_digits u))%Z) as (Hn & Hlt & Hwr & Hz).
    { assert (u <> Nil) as Hn by (intros E; rewrite E in H; done). split; [done|].
      assert ((if (Z.of_int (Pos u) <? 2^64)%Z && match skip_space (skip_digits t) with [] => true | _ => false end
        then Some (if neg then ((- Z.of_int (Pos u)) mod 2^64)%Z else Z.of_int (Pos u)) else None) = Some z) as H'.
      { clear -H Hn. destruct u; [done|exact H..]. }
      rewrite Hr, skip_digits_digits in H' by done. change (Z.of_int (Pos u)) with (Z.of_uint u) in H'. rewrite of_uint_decimal in H'.
      destruct (_ <? _)%Z eqn:E1; [|done]. apply Z.ltb_lt in E1. destruct (skip_space r) eqn:E2; [|done]. injection H' as <-.
      split; [done|]. split; [by apply skip_space_nil|done]. }
    exists b, (if neg then ["-"%char] else if decide (t = skip_space s) then [] else ["+"%char]), (uint_digits u), r.
    rewrite <- Hr.
    assert (skip_space s = (if neg then ["-"%char] else if decide (t = skip_space s) then [] else ["+"%char]) ++ t) as Hs.
    { clear -Er. destruct (skip_space s) as [|c s']; [cbn in Er; injection Er as <- <-; done|].
      destruct (decide (c = "-"%char)) as [->|H1]; [cbn in Er; injection Er as <- <-; done|].
      destruct (decide (c = "+"%char)) as [->|H2].
      { cbn in Er. injection Er as <- <-. destruct (decide _) as [E|]; [|done]. apply (f_equal length) in E. cbn in E. lia. }
      assert (read_sign (c :: s') = (false, c :: s')) as Hc.
      { clear -H1 H2. destruct c as [[] [] [] [] [] [] [] []]; try done; exfalso; (apply H1; reflexivity) || (apply H2; reflexivity). }
      rewrite Hc in Er. injection Er as <- <-. by rewrite decide_True. }
    split; [by rewrite <- Hs|]. split; [done|]. split; [done|].
    split; [by destruct u|]. split; [done|]. split; [done|].
    destruct neg; [by right|left; split; [|done]]. destruct (decide _); tauto.
  - intros (b & sg & ds & r & -> & Hb & Hd & Hn & Hwr & Hlt & Hz).
    assert (forall c r', r = c :: r' -> ~ digit c) as Hr.
    { intros c r' -> Hc. apply list.Forall_cons_1 in Hwr as [Hw _]. unfold white, digit in *. lia. }
    rewrite skip_space_blanks by done.
    destruct ds as [|c ds]; [done|]. pose proof Hd as [Hc _]%Forall_cons.
    assert (is_space c = false) as Hsp.
    { destruct (is_space c) eqn:E; [|done]. apply is_space_white in E. unfold white, digit in *. lia. }
    assert (exists neg, read_sign (skip_space (sg ++ (c :: ds) ++ r)) = (neg, (c :: ds) ++ r) /\
      z = (if neg then (- decimal (c :: ds)) mod 2^64 else decimal (c :: ds))%Z) as (neg & Er & Hneg).
    { destruct Hz as [[[->| ->] ->]|[-> ->]].
      - exists false. split; [|done]. cbn [app skip_space]. rewrite Hsp. by apply read_sign_digit.
      - by exists false.
      - by exists true. }
    rewrite Er. cbv beta iota zeta. pose proof (text_uint_digits (c :: ds) r Hd Hr) as Ht.
    rewrite skip_digits_digits by done. apply skip_space_nil in Hwr. rewrite Hwr.
    set (u := text_uint ((c :: ds) ++ r)) in *. rewrite <- Ht, <- of_uint_decimal in Hneg, Hlt.
    assert (u <> Nil) as Hu by (intros E; rewrite E in Ht; done).
    assert ((if (Z.of_int (Pos u) <? 2^64)%Z && true then Some (if neg then ((- Z.of_int (Pos u)) mod 2^64)%Z else Z.of_int (Pos u)) else None) = Some z) as H'.
    { change (Z.of_int (Pos u)) with (Z.of_uint u). apply Z.ltb_lt in Hlt. rewrite Hlt, Hneg. done. }
    clear -H' Hu. destruct u; [done|exact H'..].
Qed.

Section Get.
  Context {A : Type} (tr : text -> option A).
  Lemma get_Loaded xml path a : get tr xml path = Loaded a <-> exists s, found xml (path_of path) s /\ tr s = Some a.
  Proof.
    unfold get. setoid_rewrite found_get. destruct (get_child xml (path_of path)) as [t|].
    - destruct (tr (tree_data t)) as [b|] eqn:E; split.
      + intros [= ->]. eauto.
      + intros (s & (u & Hu & <-) & Hs). injection Hu as ->. congruence.
      + done.
      + intros (s & (u & Hu & <-) & Hs). injection Hu as ->. congruence.
    - split; [done|]. by intros (s & (u & ? & _) & _).
  Qed.
  Lemma get_Failed xml path : (forall a, get tr xml path <> Loaded a) -> exists e, get tr xml path = Failed e.
  Proof. unfold get. destruct (get_child _ _) as [t|]; [|eauto]. destruct (tr _) as [a|]; [|eauto]. intros H. by destruct (H a). Qed.
  Lemma get_ext xml xml' path : (forall s, found xml (path_of path) s <-> found xml' (path_of path) s) -> get tr xml path = get tr xml' path.
  Proof.
    setoid_rewrite found_get. intros H. unfold get. destruct (get_child xml _) as [t|] eqn:E, (get_child xml' _) as [t'|] eqn:E'; [..|done].
    - destruct (proj1 (H (tree_data t))) as (u & [= ->] & ->); [by exists t|done].
    - destruct (proj1 (H (tree_data t))) as (u & ? & _); [by exists t|done].
    - destruct (proj2 (H (tree_data t'))) as (u & ? & _); [by exists t'|done].
  Qed.
End Get.

Lemma load_bind_Loaded {A B} (r : load A) (f : A -> load B) b : load_bind r f = Loaded b -> exists a, r = Loaded a /\ f a = Loaded b.
Proof. destruct r; [eauto|done|done]. Qed.

(** Only an order of unfolding. *)
Local Strategy expand [load_condition load_env load_particles load_all].
(** Splitting the paths of the source, by computation. *)
Ltac path_eq := vm_compute; reflexivity.

Section Settings.
  Context {N : num} (cfg : config) (print_num : N -> text) (parse_num parse_attr : text -> option N).
  Notation d := (cDim cfg).
  Notation setting := (setting parse_attr).
  Notation load_all := (load_all cfg parse_num parse_attr).
  Notation application := (application cfg print_num parse_num parse_attr).
  Notation readable := (readable parse_attr).

  Lemma at_setting xml section name path v : path_of path = [lit "openmps"; lit section; lit name; lit "<xmlattr>"; lit "value"] ->
    get parse_attr xml path = Loaded v -> setting xml section name v.
  Proof. intros E (s & H1 & H2)%get_Loaded. rewrite E in H1. by exists s. Qed.

  (** C64.  What the program computes with is what the settings file says: every constant is the number given for it or derived
      from such numbers as documented; the time starts at 0; the particles are those of the table. *)
  Theorem C64_settings xml cond (env : environment N cfg) ps :
    load_all xml = Loaded (cond, env, ps) ->
    setting xml "condition" "startTime" (coStart cond) /\ setting xml "condition" "endTime" (coEnd cond) /\
    setting xml "condition" "outputInterval" (coInterval cond) /\
    (cExplicit cfg = false -> setting xml "condition" "eps" (coEps cond)) /\
    setting xml "environment" "l_0" (eL0 env) /\ setting xml "environment" "rho" (eRho env) /\ setting xml "environment" "nu" (eNu env) /\
    (cSPP cfg = false -> setting xml "environment" "surfaceRatio" (eSurf env)) /\
    (cExplicit cfg = true -> setting xml "environment" "c" (eC env)) /\
    (forall k, (k < dimn d)%nat ->
       setting xml "environment" ("min" ++ axis_letter d k) (tget d (eMinX env) k) /\
       setting xml "environment" ("max" ++ axis_letter d k) (tget d (eMaxX env) k)) /\
    (exists courant g ratio steps,
       setting xml "environment" "courant" courant /\ setting xml "environment" "g" g /\ setting xml "environment" "r_eByl_0" ratio /\
       count_setting xml "environment" "minStepCountPerOutput" steps /\
       eRe env = ratio ×. eL0 env /\ eNL env = ratio ×. eL0 env ×. (nofZ 1 +. courant ×. nofZ 2) /\ eMaxDx env = courant ×. eL0 env /\
       eMaxDt env = nmin (coInterval cond /. nofZ steps)
         (if cExplicit cfg then (courant ×. eL0 env) /. eC env else nsqrt (nofZ 2 ×. (courant ×. eL0 env) /. g)) /\
       (forall k, (k < dimn d)%nat -> tget d (eG env) k = if Nat.eqb k (dimn d - 1) then nopp g else nofZ 0)) /\
    eT env = nofZ 0 /\ eDt env = nofZ 0 /\
    exists txt, table_format xml (lit "csv") /\ table xml txt /\ read_csv parse_num txt = Read ps.
  Proof.
    intros H. unfold M_App.load_all in H. apply load_bind_Loaded in H as (cond' & Hc & H). apply load_bind_Loaded in H as (env' & He & H).
    apply load_bind_Loaded in H as (ps' & Hp & H). injection H as -> -> ->.
    unfold load_condition in Hc.
    apply load_bind_Loaded in Hc as (startTime & C1 & Hc). apply load_bind_Loaded in Hc as (endTime & C2 & Hc).
    apply load_bind_Loaded in Hc as (interval & C3 & Hc). apply load_bind_Loaded in Hc as (eps & C4 & Hc). injection Hc as <-.
    unfold load_env in He.
    apply load_bind_Loaded in He as (l_0 & E1 & He). apply load_bind_Loaded in He as (steps & E2 & He).
    apply load_bind_Loaded in He as (courant & E3 & He). apply load_bind_Loaded in He as (g & E4 & He).
    apply load_bind_Loaded in He as (rho & E5 & He). apply load_bind_Loaded in He as (nu & E6 & He).
    apply load_bind_Loaded in He as (ratio & E7 & He). apply load_bind_Loaded in He as (surf & E8 & He).
    apply load_bind_Loaded in He as (c & E9 & He).
    apply load_bind_Loaded in He as (x0 & F1 & He). apply load_bind_Loaded in He as (y0 & F2 & He). apply load_bind_Loaded in He as (z0 & F3 & He).
    apply load_bind_Loaded in He as (x1 & F4 & He). apply load_bind_Loaded in He as (y1 & F5 & He). apply load_bind_Loaded in He as (z1 & F6 & He).
    cbv zeta in He. destruct (load_environment _ _ _ _ _ _ _ _ _ _ _ _) as [env''|] eqn:HE; [|done]. injection He as ->.
    unfold load_environment, new_env in HE. destruct (nceil ratio) as [range|]; [|done]. destruct (_ || _); [done|]. injection HE as <-.
    cbn [coStart coEnd coInterval coEps eL0 eRho eNu eSurf eC eMinX eMaxX eRe eNL eMaxDx eMaxDt eG eT eDt].
    split; [eapply at_setting; [|eassumption]; path_eq|]. split; [eapply at_setting; [|eassumption]; path_eq|].
    split; [eapply at_setting; [|eassumption]; path_eq|].
    split; [intros Hx; rewrite Hx in C4; eapply at_setting; [|eassumption]; path_eq|].
    split; [eapply at_setting; [|eassumption]; path_eq|]. split; [eapply at_setting; [|eassumption]; path_eq|].
    split; [eapply at_setting; [|eassumption]; path_eq|].
    split; [intros Hx; rewrite Hx in E8; eapply at_setting; [|eassumption]; path_eq|].
    split; [intros Hx; rewrite Hx in E9; eapply at_setting; [|eassumption]; path_eq|].
    eapply (at_setting xml "environment" "minX") in F1; [|path_eq]. eapply (at_setting xml "environment" "minZ") in F3; [|path_eq].
    eapply (at_setting xml "environment" "maxX") in F4; [|path_eq]. eapply (at_setting xml "environment" "maxZ") in F6; [|path_eq].
    split; [|split; [|split; [done|split; [done|]]]].
    - intros k Hk. rewrite !tget_tmk by done. clear Hp. destruct d.
      + destruct k as [|[|k]]; cbn in Hk; [done|done|lia].
      + eapply (at_setting xml "environment" "minY") in F2; [|path_eq]. eapply (at_setting xml "environment" "maxY") in F5; [|path_eq].
        destruct k as [|[|[|k]]]; cbn in Hk; [done|done|done|lia].
    - exists courant, g, ratio, steps.
      split; [eapply at_setting; [|eassumption]; path_eq|]. split; [eapply at_setting; [|eassumption]; path_eq|].
      split; [eapply at_setting; [|eassumption]; path_eq|].
      split. { apply get_Loaded in E2 as (s & H1 & H2%parse_size_means). exists s. split; [|done]. unfold attribute.
        replace [lit "openmps"; _; _; _; _] with (path_of "openmps.environment.minStepCountPerOutput.<xmlattr>.value") by path_eq. done. }
      split; [done|]. split; [done|]. split; [done|]. split; [by destruct (cExplicit cfg)|].
      intros k Hk. rewrite tget_tmk by done. clear Hp. by destruct d.
    - unfold load_particles in Hp. destruct (get_child xml (path_of "openmps.particles.<xmlattr>.type")) as [t|] eqn:Et; [|done].
      destruct (decide _) as [Hcsv|]; [|done]. apply load_bind_Loaded in Hp as (txt & Ht & Hp). exists txt.
      split.
      { unfold table_format. replace [lit "openmps"; _; _; _] with (path_of "openmps.particles.<xmlattr>.type") by path_eq. apply found_get. by exists t. }
      split.
      + apply get_Loaded in Ht as (s & H1 & [= ->]). unfold table. replace [lit "openmps"; _] with (path_of "openmps.particles") by path_eq. done.
      + destruct (read_csv parse_num txt); try done. by injection Hp as ->.
  Qed.

  (** *** Missing entries *)
  Lemma bind_not_Failed {A B} (r : load A) (f : A -> load B) : (forall e, load_bind r f <> Failed e) -> r <> LoadUndefined ->
    exists a, r = Loaded a /\ forall e, f a <> Failed e.
  Proof. destruct r as [a|e|]; intros H HU; [by exists a|by destruct (H e)|done]. Qed.
  Lemma get_defined {A} (tr : text -> option A) xml path : get tr xml path <> LoadUndefined.
  Proof. unfold get. destruct (get_child _ _); [|done]. by destruct (tr _). Qed.
  Lemma readable_of xml section name path v : name <> "minStepCountPerOutput"%string ->
    path_of path = [lit "openmps"; lit section; lit name; lit "<xmlattr>"; lit "value"] ->
    get parse_attr xml path = Loaded v -> readable xml section name.
  Proof. intros Hn E H. unfold S_App.readable. rewrite decide_False by done. exists v. by eapply at_setting. Qed.

  Ltac by_entry := match goal with E : get parse_attr _ ?path = Loaded _ |- _ => refine (readable_of _ _ _ path _ _ _ E); [discriminate|path_eq] end.
  Lemma loaded_readable xml section name : (forall e, load_all xml <> Failed e) -> needed cfg section name -> readable xml section name.
  Proof.
    intros H Hn. unfold M_App.load_all in H.
    assert (load_condition cfg parse_attr xml <> LoadUndefined) as HU.
    { unfold load_condition. pose proof (get_defined parse_attr xml) as G.
      destruct (get parse_attr xml "openmps.condition.startTime.<xmlattr>.value") eqn:E1; cbn [load_bind]; [|done|by apply G in E1].
      destruct (get parse_attr xml "openmps.condition.endTime.<xmlattr>.value") eqn:E2; cbn [load_bind]; [|done|by apply G in E2].
      destruct (get parse_attr xml "openmps.condition.outputInterval.<xmlattr>.value") eqn:E3; cbn [load_bind]; [|done|by apply G in E3].
      destruct (cExplicit cfg); [done|].
      destruct (get parse_attr xml "openmps.condition.eps.<xmlattr>.value") eqn:E4; cbn [load_bind]; [done|done|by apply G in E4]. }
    apply bind_not_Failed in H as (cond & Hc & H); [|done].
    assert (forall e, load_env cfg parse_attr xml cond <> Failed e) as He. { intros e E. apply (H e). by rewrite E. }
    clear H HU. unfold load_condition in Hc.
    apply load_bind_Loaded in Hc as (startTime & C1 & Hc). apply load_bind_Loaded in Hc as (endTime & C2 & Hc).
    apply load_bind_Loaded in Hc as (interval & C3 & Hc). apply load_bind_Loaded in Hc as (eps & C4 & Hc). injection Hc as <-.
    unfold load_env in He.
    apply bind_not_Failed in He as (l_0 & E1 & He); [|apply get_defined]. apply bind_not_Failed in He as (steps & E2 & He); [|apply get_defined].
    apply bind_not_Failed in He as (courant & E3 & He); [|apply get_defined]. apply bind_not_Failed in He as (g & E4 & He); [|apply get_defined].
    apply bind_not_Failed in He as (rho & E5 & He); [|apply get_defined]. apply bind_not_Failed in He as (nu & E6 & He); [|apply get_defined].
    apply bind_not_Failed in He as (ratio & E7 & He); [|apply get_defined].
    apply bind_not_Failed in He as (surf & E8 & He); [|clear; destruct (cSPP cfg); [done|apply get_defined]].
    apply bind_not_Failed in He as (c & E9 & He); [|clear; destruct (cExplicit cfg); [apply get_defined|done]].
    apply bind_not_Failed in He as (x0 & F1 & He); [|apply get_defined].
    apply bind_not_Failed in He as (y0 & F2 & He); [|clear; destruct d; [done|apply get_defined]].
    apply bind_not_Failed in He as (z0 & F3 & He); [|apply get_defined]. apply bind_not_Failed in He as (x1 & F4 & He); [|apply get_defined].
    apply bind_not_Failed in He as (y1 & F5 & He); [|clear; destruct d; [done|apply get_defined]].
    apply bind_not_Failed in He as (z1 & F6 & He); [|apply get_defined]. clear He.
    unfold needed in Hn. rewrite !elem_of_app in Hn. destruct Hn as [Hn|[Hn|[Hn|Hn]]].
    - rewrite !elem_of_cons, elem_of_nil in Hn.
      repeat (destruct Hn as [[= -> ->]|Hn]; [try by_entry|]); [|done].
      unfold S_App.readable. rewrite decide_True by done. apply get_Loaded in E2 as (s & H1 & H2%parse_size_means). exists steps, s. split; [|done]. unfold attribute.
      replace [lit "openmps"; _; _; _; _] with (path_of "openmps.environment.minStepCountPerOutput.<xmlattr>.value") by path_eq. done.
    - destruct (cExplicit cfg); apply elem_of_list_singleton in Hn as [= -> ->]; by_entry.
    - destruct (cSPP cfg); [by apply elem_of_nil in Hn|]. apply elem_of_list_singleton in Hn as [= -> ->]. by_entry.
    - destruct d; [by apply elem_of_nil in Hn|]. rewrite !elem_of_cons, elem_of_nil in Hn.
      repeat (destruct Hn as [[= -> ->]|Hn]; [by_entry|]). done.
  Qed.

  (** C65.  An entry the build needs that is missing or is no number: no file is written, the program is aborted. *)
  Theorem C65_missing_entry fuel xml section name :
    needed cfg section name -> ~ readable xml section name -> application fuel xml = Some ([], Terminated).
  Proof.
    intros Hn Hr. unfold M_App.application. destruct (load_all xml) as [[[cond env] ps]|e|] eqn:E; [|done|].
    - destruct Hr. apply loaded_readable; [|done]. intros e. by rewrite E.
    - destruct Hr. apply loaded_readable; [|done]. intros e. by rewrite E.
  Qed.

  (** *** Sufficient entries *)
  Lemma readable_get xml section name path : readable xml section name -> name <> "minStepCountPerOutput"%string ->
    path_of path = [lit "openmps"; lit section; lit name; lit "<xmlattr>"; lit "value"] -> exists v, get parse_attr xml path = Loaded v.
  Proof.
    intros H Hn E. unfold S_App.readable in H. rewrite decide_False in H by done. destruct H as (v & s & H1 & H2).
    exists v. apply get_Loaded. exists s. by rewrite E.
  Qed.
  Ltac member := first [apply elem_of_list_here | apply elem_of_list_further; member].
  Lemma readable_loaded xml : (forall section name, needed cfg section name -> readable xml section name) ->
    exists ratio, setting xml "environment" "r_eByl_0" ratio /\
      (usable_radius ratio -> exists cond env, load_all xml = (from ps <- load_particles cfg parse_num xml ;; Loaded (cond, env, ps))) /\
      (~ usable_radius ratio -> load_all xml = LoadUndefined).
  Proof.
    intros H.
    assert (forall section name, (section, name) ∈ ([("condition", "startTime"); ("condition", "endTime"); ("condition", "outputInterval");
     ("environment", "l_0"); ("environment", "minStepCountPerOutput"); ("environment", "courant"); ("environment", "g");
     ("environment", "rho"); ("environment", "nu"); ("environment", "r_eByl_0");
     ("environment", "minX"); ("environment", "minZ"); ("environment", "maxX"); ("environment", "maxZ")]%string) -> readable xml section name) as HR.
    { intros section name Hin. apply H. unfold needed. rewrite elem_of_app. by left. }
    assert (forall section name path, (section, name) ∈ ([("condition", "startTime"); ("condition", "endTime"); ("condition", "outputInterval");
     ("environment", "l_0"); ("environment", "courant"); ("environment", "g");
     ("environment", "rho"); ("environment", "nu"); ("environment", "r_eByl_0");
     ("environment", "minX"); ("environment", "minZ"); ("environment", "maxX"); ("environment", "maxZ")]%string) ->
     path_of path = [lit "openmps"; lit section; lit name; lit "<xmlattr>"; lit "value"] -> exists v, get parse_attr xml path = Loaded v) as HG.
    { intros section name path Hin. apply readable_get; [apply HR; revert Hin; rewrite !elem_of_cons; tauto|]. intros ->.
      revert Hin. rewrite !elem_of_cons, elem_of_nil. intros Hin. repeat (destruct Hin as [[=]|Hin]). done. }
    assert (exists z, get parse_size xml "openmps.environment.minStepCountPerOutput.<xmlattr>.value" = Loaded z) as [steps E2].
    { specialize (HR "environment"%string "minStepCountPerOutput"%string ltac:(member)). unfold S_App.readable in HR. rewrite decide_True in HR by done.
      destruct HR as (z & s & H1 & H2%parse_size_means). exists z. apply get_Loaded. exists s. split; [|done].
      replace (path_of _) with [lit "openmps"; lit "environment"; lit "minStepCountPerOutput"; lit "<xmlattr>"; lit "value"] by path_eq. done. }
    destruct (HG "condition"%string "startTime"%string "openmps.condition.startTime.<xmlattr>.value"%string) as [startTime C1]; [member|path_eq|].
    destruct (HG "condition"%string "endTime"%string "openmps.condition.endTime.<xmlattr>.value"%string) as [endTime C2]; [member|path_eq|].
    destruct (HG "condition"%string "outputInterval"%string "openmps.condition.outputInterval.<xmlattr>.value"%string) as [interval C3]; [member|path_eq|].
    destruct (HG "environment"%string "l_0"%string "openmps.environment.l_0.<xmlattr>.value"%string) as [l_0 E1]; [member|path_eq|].
    destruct (HG "environment"%string "courant"%string "openmps.environment.courant.<xmlattr>.value"%string) as [courant E3]; [member|path_eq|].
    destruct (HG "environment"%string "g"%string "openmps.environment.g.<xmlattr>.value"%string) as [g E4]; [member|path_eq|].
    destruct (HG "environment"%string "rho"%string "openmps.environment.rho.<xmlattr>.value"%string) as [rho E5]; [member|path_eq|].
    destruct (HG "environment"%string "nu"%string "openmps.environment.nu.<xmlattr>.value"%string) as [nu E6]; [member|path_eq|].
    destruct (HG "environment"%string "r_eByl_0"%string "openmps.environment.r_eByl_0.<xmlattr>.value"%string) as [ratio E7]; [member|path_eq|].
    destruct (HG "environment"%string "minX"%string "openmps.environment.minX.<xmlattr>.value"%string) as [x0 F1]; [member|path_eq|].
    destruct (HG "environment"%string "minZ"%string "openmps.environment.minZ.<xmlattr>.value"%string) as [z0 F3]; [member|path_eq|].
    destruct (HG "environment"%string "maxX"%string "openmps.environment.maxX.<xmlattr>.value"%string) as [x1 F4]; [member|path_eq|].
    destruct (HG "environment"%string "maxZ"%string "openmps.environment.maxZ.<xmlattr>.value"%string) as [z1 F6]; [member|path_eq|].
    assert (exists eps, (if cExplicit cfg then Loaded (nofZ 0) else get parse_attr xml "openmps.condition.eps.<xmlattr>.value") = Loaded eps) as [eps C4].
    { destruct (cExplicit cfg) eqn:Hx; [eauto|]. eapply (readable_get xml "condition"%string "eps"%string); [|discriminate|path_eq].
      apply H. unfold needed. rewrite Hx, !elem_of_app. right. left. left. }
    assert (exists surf, (if cSPP cfg then Loaded (nofZ 0) else get parse_attr xml "openmps.environment.surfaceRatio.<xmlattr>.value") = Loaded surf) as [surf E8].
    { destruct (cSPP cfg) eqn:Hx; [eauto|]. eapply (readable_get xml "environment"%string "surfaceRatio"%string); [|discriminate|path_eq].
      apply H. unfold needed. rewrite Hx, !elem_of_app. right. right. left. left. }
    assert (exists c, (if cExplicit cfg then get parse_attr xml "openmps.environment.c.<xmlattr>.value" else Loaded (nofZ 0)) = Loaded c) as [c E9].
    { destruct (cExplicit cfg) eqn:Hx; [|eauto]. eapply (readable_get xml "environment"%string "c"%string); [|discriminate|path_eq].
      apply H. unfold needed. rewrite Hx, !elem_of_app. right. left. left. }
    assert (exists y, match d with D2 => Loaded (nofZ 0) | D3 => get parse_attr xml "openmps.environment.minY.<xmlattr>.value" end = Loaded y) as [y0 F2].
    { destruct d eqn:Hx; [eauto|]. eapply (readable_get xml "environment"%string "minY"%string); [|discriminate|path_eq].
      apply H. unfold needed. rewrite Hx, !elem_of_app. right. right. right. left. }
    assert (exists y, match d with D2 => Loaded (nofZ 0) | D3 => get parse_attr xml "openmps.environment.maxY.<xmlattr>.value" end = Loaded y) as [y1 F5].
    { destruct d eqn:Hx; [eauto|]. eapply (readable_get xml "environment"%string "maxY"%string); [|discriminate|path_eq].
      apply H. unfold needed. rewrite Hx, !elem_of_app. right. right. right. right. left. }
    exists ratio. split; [eapply at_setting; [|exact E7]; path_eq|].
    unfold M_App.load_all, load_condition, load_env.
    rewrite C1. cbn [load_bind]. rewrite C2. cbn [load_bind]. rewrite C3. cbn [load_bind]. rewrite C4. cbn [load_bind].
    rewrite E1. cbn [load_bind]. rewrite E2. cbn [load_bind]. rewrite E3. cbn [load_bind]. rewrite E4. cbn [load_bind]. rewrite E5. cbn [load_bind].
    rewrite E6. cbn [load_bind]. rewrite E7. cbn [load_bind]. rewrite E8. cbn [load_bind]. rewrite E9. cbn [load_bind].
    rewrite F1. cbn [load_bind]. rewrite F2. cbn [load_bind]. rewrite F3. cbn [load_bind]. rewrite F4. cbn [load_bind]. rewrite F5. cbn [load_bind]. rewrite F6. cbn [load_bind].
    cbv zeta. unfold load_environment, new_env, usable_radius. split.
    - intros (z & -> & Hz). exists (mkCondition eps startTime endTime interval).
      assert ((z <? - 2 ^ 31)%Z || (2 ^ 31 <=? z)%Z = false) as -> by lia. eexists. reflexivity.
    - intros Hr. destruct (nceil ratio) as [z|]; [|done].
      assert ((z <? - 2 ^ 31)%Z || (2 ^ 31 <=? z)%Z = true) as ->; [|done].
      destruct (_ || _) eqn:E; [done|]. destruct Hr. exists z. split; [done|]. lia.
  Qed.
  Lemma found_fun xml path s s' : found xml path s -> found xml path s' -> s = s'.
  Proof. intros (t & H & <-)%found_get (t' & H' & <-)%found_get. congruence. Qed.
  Lemma setting_fun xml section name v v' : setting xml section name v -> setting xml section name v' -> v = v'.
  Proof. intros (s & H1 & H2) (s' & H1' & H2'). rewrite (found_fun _ _ _ _ H1 H1') in H2. congruence. Qed.

  Lemma table_loaded xml : match load_particles cfg parse_num xml with
    | Loaded ps => exists txt, table_format xml (lit "csv") /\ table xml txt /\ read_csv parse_num txt = Read ps
    | Failed _ => (exists f, table_format xml f /\ f <> lit "csv") \/
        exists txt, table_format xml (lit "csv") /\ table xml txt /\ (read_csv (d := d) parse_num txt = IllegalHeader \/ read_csv (d := d) parse_num txt = MissingHeader \/ read_csv (d := d) parse_num txt = BadValue)
    | LoadUndefined => (forall f, ~ table_format xml f) \/ exists txt, table_format xml (lit "csv") /\ table xml txt /\ read_csv (d := d) parse_num txt = CsvUndefined
    end.
  Proof.
    assert (forall f, table_format xml f <-> exists t, get_child xml (path_of "openmps.particles.<xmlattr>.type") = Some t /\ tree_data t = f) as HF.
    { intros f. rewrite <- found_get. unfold table_format. by replace (path_of _) with [lit "openmps"; lit "particles"; lit "<xmlattr>"; lit "type"] by path_eq. }
    assert (forall f, table xml f <-> exists t, get_child xml (path_of "openmps.particles") = Some t /\ tree_data t = f) as HT.
    { intros f. rewrite <- found_get. unfold table. by replace (path_of _) with [lit "openmps"; lit "particles"] by path_eq. }
    unfold load_particles.
    destruct (get_child xml (path_of "openmps.particles.<xmlattr>.type")) as [t|] eqn:E; [|left; intros f (t & ? & _)%HF; done].
    destruct (decide _) as [Hcsv|Hcsv]; [|left; exists (tree_data t); split; [apply HF; eauto|done]].
    unfold get. destruct (get_child xml (path_of "openmps.particles")) as [t'|] eqn:E'; cbn [load_bind].
    - assert (table xml (tree_data t')) as HT' by (apply HT; eauto).
      assert (table_format xml (lit "csv")) as HF' by (apply HF; eauto).
      destruct (read_csv parse_num (tree_data t')) eqn:ER; eauto 10.
    - exfalso. clear HF HT Hcsv. revert E E'.
      replace (path_of "openmps.particles.<xmlattr>.type") with (path_of "openmps.particles" ++ [lit "<xmlattr>"; lit "type"]) by path_eq.
      generalize (path_of "openmps.particles") [lit "<xmlattr>"; lit "type"]. clear. intros path rest. revert xml.
      induction path as [|n path IH]; intros xml; cbn; [done|]. destruct (first_child _ _); [apply IH|done].
  Qed.

  (** C64.  Conversely, if all entries can be read and the radius is usable, the table decides: nothing else can go wrong while loading. *)
  Theorem C64_complete fuel xml ratio :
    (forall section name, needed cfg section name -> readable xml section name) ->
    setting xml "environment" "r_eByl_0" ratio ->
    (usable_radius ratio -> forall txt ps, table_format xml (lit "csv") -> table xml txt -> read_csv parse_num txt = Read ps ->
       exists cond env, load_all xml = Loaded (cond, env, ps) /\
         application fuel xml = match main_program fuel cond env ps with
           | Some (outs, e) => Some (map (output_file cfg print_num) outs, e) | None => None end).
  Proof.
    intros H Hs Hu txt ps Hf Ht Hr. destruct (readable_loaded xml H) as (ratio' & Hs' & H1 & _).
    rewrite (setting_fun _ _ _ _ _ Hs' Hs) in H1. destruct (H1 Hu) as (cond & env & E). exists cond, env.
    assert (load_all xml = Loaded (cond, env, ps)) as HL.
    { rewrite E. pose proof (table_loaded xml) as TL. destruct (load_particles _ _ _) as [ps'|e|]; cbn [load_bind].
      - destruct TL as (txt' & _ & Ht' & Hr'). rewrite (found_fun _ _ _ _ Ht Ht') in Hr. congruence.
      - destruct TL as [(f & Hf' & Hne)|(txt' & _ & Ht' & Hr')]; [by destruct Hne; apply (found_fun _ _ _ _ Hf' Hf)|].
        rewrite (found_fun _ _ _ _ Ht Ht') in Hr. destruct Hr' as [?|[?|?]]; congruence.
      - destruct TL as [Hn|(txt' & _ & Ht' & Hr')]; [by destruct (Hn (lit "csv"))|]. rewrite (found_fun _ _ _ _ Ht Ht') in Hr. congruence. }
    split; [done|]. unfold M_App.application. by rewrite HL.
  Qed.

  (** C65.  A table that cannot be read, or is not said to be CSV; an unusable radius.  Again nothing is written. *)
  Theorem C65_table fuel xml ratio :
    (forall section name, needed cfg section name -> readable xml section name) ->
    setting xml "environment" "r_eByl_0" ratio ->
    (~ usable_radius ratio -> application fuel xml = Some ([], Undefined)) /\
    (usable_radius ratio ->
      (forall f, table_format xml f -> f <> lit "csv" -> application fuel xml = Some ([], Terminated)) /\
      ((forall f, ~ table_format xml f) -> application fuel xml = Some ([], Undefined)) /\
      (forall txt, table_format xml (lit "csv") -> table xml txt ->
         match read_csv (d := d) parse_num txt with
         | Read _ => True
         | IllegalHeader | MissingHeader | BadValue => application fuel xml = Some ([], Terminated)
         | CsvUndefined => application fuel xml = Some ([], Undefined)
         end)).
  Proof.
    intros H Hs. destruct (readable_loaded xml H) as (ratio' & Hs' & H1 & H2).
    rewrite (setting_fun _ _ _ _ _ Hs' Hs) in H1, H2. split.
    { intros Hu. unfold M_App.application. by rewrite H2. }
    intros Hu. destruct (H1 Hu) as (cond & env & E). unfold M_App.application. rewrite E. pose proof (table_loaded xml) as TL.
    destruct (load_particles _ _ _) as [ps'|e|]; cbn [load_bind].
    - destruct TL as (txt' & Hf' & Ht' & Hr'). split; [intros f Hf; by intros []; apply (found_fun _ _ _ _ Hf Hf')|].
      split; [intros Hf; by destruct (Hf (lit "csv"))|]. intros txt _ Ht. rewrite (found_fun _ _ _ _ Ht Ht'), Hr'. done.
    - destruct TL as [(f & Hf & Hne)|(txt' & Hf' & Ht' & Hr')].
      + split; [done|]. split; [intros Hf'; by destruct (Hf' f)|]. intros txt Hf'. by destruct Hne; apply (found_fun _ _ _ _ Hf Hf').
      + split; [done|]. split; [intros Hf; by destruct (Hf (lit "csv"))|].
        intros txt _ Ht. rewrite (found_fun _ _ _ _ Ht Ht'). by destruct Hr' as [->|[->| ->]].
    - destruct TL as [Hn|(txt' & Hf' & Ht' & Hr')].
      + split; [intros f Hf; by destruct (Hn f)|]. split; [done|]. intros txt Hf. by destruct (Hn (lit "csv")).
      + split; [intros f Hf; by intros []; apply (found_fun _ _ _ _ Hf Hf')|]. split; [done|].
        intros txt _ Ht. by rewrite (found_fun _ _ _ _ Ht Ht'), Hr'.
  Qed.

  Lemma same_get xml xml' : same_settings cfg xml xml' -> forall A (tr : text -> option A) section name path, needed cfg section name ->
    path_of path = [lit "openmps"; lit section; lit name; lit "<xmlattr>"; lit "value"] -> get tr xml path = get tr xml' path.
  Proof. intros (H & _ & _) A tr section name path Hn E. apply get_ext. rewrite E. intros s. by apply H. Qed.
  Lemma same_get_always xml xml' : same_settings cfg xml xml' -> forall A (tr : text -> option A) section name path, (section, name) ∈ ([("condition", "startTime"); ("condition", "endTime"); ("condition", "outputInterval");
     ("environment", "l_0"); ("environment", "minStepCountPerOutput"); ("environment", "courant"); ("environment", "g");
     ("environment", "rho"); ("environment", "nu"); ("environment", "r_eByl_0");
     ("environment", "minX"); ("environment", "minZ"); ("environment", "maxX"); ("environment", "maxZ")]%string) ->
       path_of path = [lit "openmps"; lit section; lit name; lit "<xmlattr>"; lit "value"] -> get tr xml path = get tr xml' path.
  Proof. intros H A tr section name path Hin. apply same_get; [done|]. unfold needed. rewrite elem_of_app. by left. Qed.
  Lemma same_condition xml xml' : same_settings cfg xml xml' -> load_condition cfg parse_attr xml = load_condition cfg parse_attr xml'.
  Proof.
    intros H. pose proof (same_get xml xml' H) as HG. pose proof (same_get_always xml xml' H) as HG'. unfold load_condition.
      rewrite (HG' _ parse_attr "condition" "startTime" "openmps.condition.startTime.<xmlattr>.value")%string; [|member|path_eq].
      rewrite (HG' _ parse_attr "condition" "endTime" "openmps.condition.endTime.<xmlattr>.value")%string; [|member|path_eq].
      rewrite (HG' _ parse_attr "condition" "outputInterval" "openmps.condition.outputInterval.<xmlattr>.value")%string; [|member|path_eq].
      destruct (cExplicit cfg) eqn:Hx; [done|].
      rewrite (HG _ parse_attr "condition" "eps" "openmps.condition.eps.<xmlattr>.value")%string; [done| |path_eq].
      unfold needed. rewrite Hx, !elem_of_app. right. left. left.
  Qed.
  Lemma same_env xml xml' cond : same_settings cfg xml xml' -> load_env cfg parse_attr xml cond = load_env cfg parse_attr xml' cond.
  Proof.
    intros H. pose proof (same_get xml xml' H) as HG. pose proof (same_get_always xml xml' H) as HG'. unfold load_env.
      rewrite (HG' _ parse_attr "environment" "l_0" "openmps.environment.l_0.<xmlattr>.value")%string; [|member|path_eq].
      rewrite (HG' _ parse_size "environment" "minStepCountPerOutput" "openmps.environment.minStepCountPerOutput.<xmlattr>.value")%string; [|member|path_eq].
      rewrite (HG' _ parse_attr "environment" "courant" "openmps.environment.courant.<xmlattr>.value")%string; [|member|path_eq].
      rewrite (HG' _ parse_attr "environment" "g" "openmps.environment.g.<xmlattr>.value")%string; [|member|path_eq].
      rewrite (HG' _ parse_attr "environment" "rho" "openmps.environment.rho.<xmlattr>.value")%string; [|member|path_eq].
      rewrite (HG' _ parse_attr "environment" "nu" "openmps.environment.nu.<xmlattr>.value")%string; [|member|path_eq].
      rewrite (HG' _ parse_attr "environment" "r_eByl_0" "openmps.environment.r_eByl_0.<xmlattr>.value")%string; [|member|path_eq].
      rewrite (HG' _ parse_attr "environment" "minX" "openmps.environment.minX.<xmlattr>.value")%string; [|member|path_eq].
      rewrite (HG' _ parse_attr "environment" "minZ" "openmps.environment.minZ.<xmlattr>.value")%string; [|member|path_eq].
      rewrite (HG' _ parse_attr "environment" "maxX" "openmps.environment.maxX.<xmlattr>.value")%string; [|member|path_eq].
      rewrite (HG' _ parse_attr "environment" "maxZ" "openmps.environment.maxZ.<xmlattr>.value")%string; [|member|path_eq].
      assert ((if cSPP cfg then Loaded (nofZ 0) else get parse_attr xml "openmps.environment.surfaceRatio.<xmlattr>.value")
        = (if cSPP cfg then Loaded (nofZ 0) else get parse_attr xml' "openmps.environment.surfaceRatio.<xmlattr>.value")) as ->.
      { destruct (cSPP cfg) eqn:Hx; [done|]. apply (HG _ parse_attr "environment" "surfaceRatio")%string; [|path_eq].
        unfold needed. rewrite Hx, !elem_of_app. right. right. left. left. }
      assert ((if cExplicit cfg then get parse_attr xml "openmps.environment.c.<xmlattr>.value" else Loaded (nofZ 0))
        = (if cExplicit cfg then get parse_attr xml' "openmps.environment.c.<xmlattr>.value" else Loaded (nofZ 0))) as ->.
      { destruct (cExplicit cfg) eqn:Hx; [|done]. apply (HG _ parse_attr "environment" "c")%string; [|path_eq].
        unfold needed. rewrite Hx, !elem_of_app. right. left. left. }
      assert (match d with D2 => Loaded (nofZ 0) | D3 => get parse_attr xml "openmps.environment.minY.<xmlattr>.value" end
        = match d with D2 => Loaded (nofZ 0) | D3 => get parse_attr xml' "openmps.environment.minY.<xmlattr>.value" end) as ->.
      { destruct d eqn:Hx; [done|]. apply (HG _ parse_attr "environment" "minY")%string; [|path_eq].
        unfold needed. rewrite Hx, !elem_of_app. right. right. right. left. }
      assert (match d with D2 => Loaded (nofZ 0) | D3 => get parse_attr xml "openmps.environment.maxY.<xmlattr>.value" end
        = match d with D2 => Loaded (nofZ 0) | D3 => get parse_attr xml' "openmps.environment.maxY.<xmlattr>.value" end) as ->.
      { destruct d eqn:Hx; [done|]. apply (HG _ parse_attr "environment" "maxY")%string; [|path_eq].
        unfold needed. rewrite Hx, !elem_of_app. right. right. right. right. left. }
      done.
  Qed.
  Lemma same_data xml xml' path : (forall s, found xml path s <-> found xml' path s) ->
    match get_child xml path, get_child xml' path with Some t, Some t' => tree_data t = tree_data t' | None, None => True | _, _ => False end.
  Proof.
    setoid_rewrite found_get. intros H. destruct (get_child xml path) as [t|] eqn:E, (get_child xml' path) as [t'|] eqn:E'; [..|done].
    - destruct (proj1 (H (tree_data t))) as (u & [= ->] & ->); [by exists t|done].
    - destruct (proj1 (H (tree_data t))) as (u & ? & _); [by exists t|done].
    - destruct (proj2 (H (tree_data t'))) as (u & ? & _); [by exists t'|done].
  Qed.
  Lemma same_table xml xml' : same_settings cfg xml xml' -> load_particles cfg parse_num xml = load_particles cfg parse_num xml'.
  Proof.
    intros (_ & Ht & Hf). unfold table in Ht. unfold table_format in Hf. unfold load_particles, get.
    assert (path_of "openmps.particles.<xmlattr>.type" = [lit "openmps"; lit "particles"; lit "<xmlattr>"; lit "type"]) as E1 by path_eq.
    assert (path_of "openmps.particles" = [lit "openmps"; lit "particles"]) as E2 by path_eq. rewrite <- E1 in Hf. rewrite <- E2 in Ht. clear E1 E2.
    revert Ht Hf. generalize (path_of "openmps.particles.<xmlattr>.type") (path_of "openmps.particles"). intros p1 p2 Ht Hf.
    apply same_data in Ht, Hf. destruct (get_child xml p1) as [t|], (get_child xml' p1) as [t'|]; try done. rewrite Hf.
    destruct (get_child xml p2) as [u|], (get_child xml' p2) as [u'|]; try done. by rewrite Ht.
  Qed.

  (** C65.  Other entries do not matter: not their values, not their order, not their presence. *)
  Theorem C65_other_entries fuel xml xml' : same_settings cfg xml xml' -> application fuel xml = application fuel xml'.
  Proof.
    intros H. unfold M_App.application. assert (load_all xml = load_all xml') as ->; [|done]. unfold M_App.load_all.
    rewrite (same_condition _ _ H), (same_table _ _ H). destruct (load_condition cfg parse_attr xml') as [cond| |]; [|done|done].
    cbn [load_bind]. by rewrite (same_env _ _ cond H).
  Qed.
End Settings.

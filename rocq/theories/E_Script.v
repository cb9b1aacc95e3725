(** Examples for C74: there is a Python to write the files, and the script of the static scene with its own constants is loaded. *)
From Coq Require Import ZArith Reals Lra String Ascii.
From Verif Require Import S_Terms.
From Verif Require Import S_Script P_Text P_B64 T_Csv T_App T_Text T_Bench T_Script E_App E_Float E_Text E_Bench.
From Flocq Require Import Core BinarySingleNaN.
From stdpp Require Import list.

(** ** An exact numeral for every finite double *)
Definition exact_text (x : B64) : text :=
  match x with
  | B754_zero s => (if s then ["-"%char] else []) ++ lit "0"
  | B754_finite s m e _ =>
      (if s then ["-"%char] else []) ++
      (if (0 <=? e)%Z then print_int (Z.pos m * 2 ^ e) ++ lit "e" ++ print_int 0 else print_int (Z.pos m * 5 ^ (- e)) ++ lit "e" ++ print_int e)
  | _ => lit "nan"
  end.
Lemma print_digits z : (0 <= z)%Z -> exists ds, print_int z = ds /\ ds <> [] /\ Forall digit ds /\ decimal ds = z.
Proof.
  intros Hz. exists (print_int z). split; [done|]. destruct (print_int_cases z) as (u & Hu & [[-> E]|[E0 E]]).
  - rewrite uint_text_digits_eq. split; [intros E0; apply Hu, uint_text_nil; by rewrite uint_text_digits_eq|]. split; [apply uint_digits_digit|]. by rewrite <- of_uint_decimal.
  - exfalso. cbn in E. pose proof (decimal_nonneg _ (uint_digits_digit u)) as Hn. rewrite <- of_uint_decimal in Hn. assert (z = 0%Z) as Hz0 by lia. rewrite Hz0 in E0. done.
Qed.
Lemma print_exponent z : exponent_part (lit "e" ++ print_int z) z.
Proof.
  right. exists "e"%char. destruct (decide (0 <= z)%Z) as [Hz|Hz].
  - destruct (print_digits z Hz) as (ds & -> & H1 & H2 & H3). exists [], ds. split; [done|]. split; [by left|]. split; [done|]. split; [done|]. left. auto.
  - destruct (print_int_cases z) as (u & Hu & [[_ E]|[-> E]]).
    + exfalso. cbn in E. pose proof (decimal_nonneg _ (uint_digits_digit u)) as Hn. rewrite <- of_uint_decimal in Hn. lia.
    + exists ["-"%char], (uint_text u). split; [done|]. split; [by left|]. split; [intros E0; by apply Hu, uint_text_nil|].
      rewrite uint_text_digits_eq, <- of_uint_decimal. split; [apply uint_digits_digit|]. right. split; [done|]. rewrite <- E. done.
Qed.
Open Scope R_scope.
Lemma exact_unsigned D X : (0 <= D)%Z -> unsigned_numeral (print_int D ++ lit "e" ++ print_int X) (IZR D * ten X).
Proof.
  intros HD. destruct (print_digits D HD) as (ds & -> & H1 & H2 & <-). exists ds, [], [], (lit "e" ++ print_int X), X.
  split; [done|]. split; [done|]. split; [constructor|]. split; [by rewrite app_nil_r|]. split; [by right|]. split; [apply print_exponent|].
  rewrite app_nil_r. do 2 f_equal. cbn. lia.
Qed.
Lemma plain_app (a b : text) : plain a -> plain b -> plain (a ++ b).
Proof. intros Ha Hb c [H|H]%elem_of_app; [by apply Ha|by apply Hb]. Qed.
Lemma plain_lit : plain (lit "e") /\ plain ["-"%char] /\ plain [] /\ plain (lit "0").
Proof. repeat split; intros; repeat match goal with H : _ ∈ _ |- _ => apply elem_of_cons in H as [->|H]; [discriminate|] | H : _ ∈ [] |- _ => by apply elem_of_nil in H end. Qed.
Lemma signed s (t : text) v : unsigned_numeral t v -> numeral ((if s : bool then ["-"%char] else []) ++ t) s (if s then - v else v).
Proof. intros H. exists (if s then ["-"%char] else []), t, v. split; [done|]. split; [done|]. destruct s; [by right|]. left. auto. Qed.
(** A function like Python's [str] exists. *)
Example exact_python : python_str exact_text.
Proof.
  destruct plain_lit as (P1 & P2 & P3 & P4). assert (forall s : bool, plain (if s then ["-"%char] else [])) as PS by (by intros []).
  intros x Hf. destruct x as [s|s| |s m e He]; try done.
  - split; [apply plain_app; done|]. exists (if s then - 0 else 0). split; [|split].
    + apply signed. change (lit "0") with (["0"%char] ++ [] ++ [] ++ []). exists ["0"%char], [], [], [], 0%Z. split; [done|].
      split; [repeat constructor; vm_compute; lia|]. split; [constructor|]. split; [done|]. split; [by right|]. split; [by left|]. change (decimal (["0"%char] ++ [])) with 0%Z. ring.
    + replace (if s then - 0 else 0) with 0 by (destruct s; ring). unfold to_double. rewrite round_0; [done|typeclasses eauto].
    + intros _. destruct s; ring.
  - assert (exists v, v = F2R (Float radix2 (Z.pos m) e) /\ unsigned_numeral
      (if (0 <=? e)%Z then print_int (Z.pos m * 2 ^ e) ++ lit "e" ++ print_int 0 else print_int (Z.pos m * 5 ^ (- e)) ++ lit "e" ++ print_int e) v) as (v & Hv & Hn).
    { eexists. split; [reflexivity|]. destruct (0 <=? e)%Z eqn:E.
      - replace (F2R _) with (IZR (Z.pos m * 2 ^ e) * ten 0); [apply exact_unsigned; lia|]. rewrite ten_0, Rmult_1_r, mult_IZR. unfold F2R. cbn [Fnum Fexp]. f_equal.
        apply Z.leb_le in E. exact (IZR_Zpower radix2 e E).
      - apply Z.leb_gt in E. replace (F2R _) with (IZR (Z.pos m * 5 ^ (- e)) * ten e); [apply exact_unsigned; lia|].
        rewrite mult_IZR, Rmult_assoc. unfold F2R. cbn [Fnum Fexp]. f_equal. unfold ten.
        replace e with (- (- e))%Z at 2 3 by lia. set (k := (- e)%Z). assert (0 <= k)%Z as Hk by (unfold k; lia).
        rewrite <- (Z2Nat.id k Hk). rewrite powerRZ_neg by lra. rewrite <- pow_powerRZ, bpow_opp, <- IZR_Zpower by lia. change (radix_val radix2) with 2%Z.
        rewrite <- !pow_IZR. replace (/ 10) with (/ 5 * / 2) by lra. rewrite Rpow_mult_distr, !pow_inv. assert (5 ^ Z.to_nat k <> 0 /\ 2 ^ Z.to_nat k <> 0) as [] by (split; apply pow_nonzero; lra).
        field. done. }
    split; [apply plain_app; [done|]; destruct (0 <=? e)%Z; repeat apply plain_app; try done; apply print_int_plain|].
    exists (if s then - v else v). split; [apply signed, Hn|]. 
    assert ((if s then - v else v) = B2R (B754_finite s m e He)) as ->.
    { rewrite Hv. cbn [B2R]. destruct s; cbn [cond_Zopp]; [symmetry; apply (F2R_Zopp radix2 (Z.pos m) e)|done]. }
    split; [|done]. unfold to_double. apply round_generic; [typeclasses eauto|]. apply (generic_format_B2R 53 1024).
Qed.

(** ** The static scene with the constants of its script, in binary64 *)
Definition static_doubles : settings B64num :=
  mkSettings (bq 0 1) (bq 5 10) (bq 5 10000) (nofZ 1 /. nofZ (10 ^ 10)) (bq 1 1000) 100 (bq 1 10) (bq 98 10) (bq 9982 10) (bq 1004 1000000000) (bq 24 10) (bq 95 100).
Lemma static_doubles_finite : Forall (fun v : B64num => is_finite v = true)
  [stStart static_doubles; stEnd static_doubles; stInterval static_doubles; stEps static_doubles; stCourant static_doubles; stG static_doubles;
   stRho static_doubles; stNu static_doubles; stRatio static_doubles; stSurf static_doubles].
Proof. repeat (apply List.Forall_cons; [vm_cast_no_check (@eq_refl bool true)|]). constructor. Qed.
Lemma thousandth : / 10 ^ 12 <= B2R (bq 1 1000 : B64) <= 10 ^ 12.
Proof.
  destruct (int_double 1 ltac:(lia)) as [F1 V1]. destruct (int_double 1000 ltac:(lia)) as [F2 V2].
  change (bq 1 1000) with (Bdiv mode_NE (@nofZ B64num 1 : B64) (@nofZ B64num 1000 : B64)).
  pose proof (Bdiv_correct 53 1024 _ _ mode_NE (@nofZ B64num 1 : B64) (@nofZ B64num 1000 : B64)) as HM. rewrite V1, V2 in HM. specialize (HM ltac:(lra)).
  assert (bpow radix2 (-20) <= round radix2 (SpecFloat.fexp 53 1024) (round_mode mode_NE) (1 / 1000) <= bpow radix2 0) as [HL HU].
  { split; [apply round_ge_generic|apply round_le_generic]; try (apply (fexp_correct 53 1024), b64_prec); try apply valid_rnd_N; try (apply generic_format_bpow; done).
    - change (bpow radix2 (-20)) with (/ IZR (2 ^ 20)). assert (IZR (2 ^ 20) = 1048576) as -> by done. lra.
    - cbn. lra. }
  rewrite Rlt_bool_true in HM.
  2:{ rewrite Rabs_pos_eq by (pose proof (bpow_gt_0 radix2 (-20)); lra). eapply Rle_lt_trans; [exact HU|]. apply bpow_lt. lia. }
  destruct HM as [-> _]. split.
  - eapply Rle_trans; [|exact HL]. change (bpow radix2 (-20)) with (/ IZR (2 ^ 20)). apply Rinv_le_contravar; [apply IZR_lt; done|]. rewrite pow_IZR. apply IZR_le. vm_compute. discriminate.
  - eapply Rle_trans; [exact HU|]. cbn. rewrite <- (pow1 12) at 1. lra.
Qed.
Example static_script_loads hs hl ecs gc ds spp mid central pad :
  loads_as (N := B64num) hs hl ecs gc ds spp mid central stod get_double
    (script_tree (N := B64num) exact_text pad static_doubles (static_pressure (N := B64num) (stL0 static_doubles) 50 100))
    static_doubles (static_pressure (N := B64num) (stL0 static_doubles) 50 100).
Proof.
  apply (C74_static_python exact_text hs hl ecs gc ds spp mid central pad static_doubles 50 100 exact_python static_doubles_finite); [exact thousandth|lia|lia| |].
  - exists 3%Z. split; [|lia]. vm_cast_no_check (@eq_refl (option Z) (Some 3%Z)).
  - change (stSteps static_doubles) with 100%Z. lia.
Qed.

(** ** In exact arithmetic: numerals for the numbers of one file *)
Section Numbered.
  Context (l : list R).
  Definition table : list R := 0 :: l.
  Global Instance Req_decision (x y : R) : Decision (x = y) := Req_EM_T x y.
  Definition number_text (x : R) : text := match list_find (fun y => y = x) table with Some (i, _) => print_int (Z.of_nat i) | None => [] end.
  Definition number_of (s : text) : option Rnum := match parse_int s with Some z => table !! Z.to_nat z | None => None end.
  Lemma number_text_of (x : R) : (Z.of_nat (length table) < 2 ^ 31)%Z -> x ∈ table -> plain (number_text x) /\ number_of (number_text x) = Some x.
  Proof.
    intros Hl Hx. unfold number_text. destruct (list_find_elem_of (fun y => y = x) _ _ Hx eq_refl) as [[i y] E]. rewrite E. apply list_find_Some in E as (E1 & -> & _).
    pose proof (lookup_lt_Some _ _ _ E1). split; [apply print_int_plain|]. unfold number_of. rewrite parse_print_int by lia. rewrite Nat2Z.id. done.
  Qed.
End Numbered.
Definition static_reals : settings Rnum := mkSettings (N := Rnum) 0 (5/10) (5/10000) (1 / 10 ^ 10) (1/1000) 100 (1/10) (98/10) (9982/10) (1004 / 10 ^ 9) (24/10) (95/100).
Example static_script_runs hs hl ecs gc ds mid : exists (py_str : Rnum -> text) (parse : text -> option Rnum),
  loads_and_steps hs hl ecs gc ds mid parse parse
    (script_tree (N := Rnum) py_str [] static_reals (static_pressure (N := Rnum) (1/1000) 50 100)) (scParts (static_pressure (N := Rnum) (1/1000) 50 100)).
Proof.
  set (sc := static_pressure (N := Rnum) (1/1000) 50 100). set (l := setting_numbers static_reals sc ++ coordinates (scParts sc) : list R).
  exists (number_text l), (number_of l).
  assert (Z.of_nat (length (table l)) < 2 ^ 31)%Z as Hl.
  { assert (length (scParts sc) = length (static_sites 50 100)) as E. { unfold sc. apply map_length. }
    assert (forall ps : list (particle Rnum D2), length (coordinates ps) = (2 * length ps)%nat) as HC. { intros ps. unfold coordinates. induction ps as [|p ps IH]; [done|]. cbn [flat_map length]. rewrite app_length, IH. cbn. lia. }
    unfold table, l. cbn [length]. rewrite app_length, HC, E. clear. vm_compute. done. }
  assert (forall v, v ∈ l -> plain (number_text l v) /\ number_of l (number_text l v) = Some v) as HV.
  { intros v Hv. apply number_text_of; [done|by right]. }
  assert (script_settings static_reals) as H1.
  { split; [|cbn; lia]. cbn. repeat split; try lra. }
  assert (read_as_written (N := Rnum) (number_text l) (number_of l) (number_of l) static_reals sc) as H2.
  { split; [|split].
    - intros v Hv. apply HV. apply elem_of_app. by left.
    - intros v Hv. apply HV. apply elem_of_app. by right.
    - reflexivity. }
  refine (C74_static_run hs hl ecs gc ds mid (number_text l) (number_of l) (number_of l) [] static_reals 50 100 H1 H2 _ _); lia.
Qed.

(** Examples for C73, C74 and C75: CentralGravity/generate.py as it stands. *)
From Verif Require Import S_Terms.
From Verif Require Import S_Mirror S_Central P_Bench T_Env T_Bench T_Mirror T_Central E_Bench E_Script.
From stdpp Require Import list.
Open Scope R_scope.

Section Example_.
  Context (hs hl ecs gc ds mid : bool) (cond : M_Main.condition (N := Rnum)).
  Notation cfg := (plane false hs hl ecs gc ds true mid true).
  Let sc := central_gravity (N := Rnum) (5/10000) 100 100 2.
  (** A square of 201 by 201 particles half a millimetre apart: the first step succeeds, and after it the fluid is symmetric in both
      axes and in the diagonal. *)
  Example central_script : exists (env : environment Rnum cfg) (s' : computer cfg (fixed_walls cfg (map pX (scParts sc)))),
    one_step_succeeds (cfg := cfg) cond env (scParts sc) /\ after_some_steps (cfg := cfg) cond env (scParts sc) s' /\ eT (cEnv s') = eMaxDt env /\
    looks_the_same (left_right 0) (cParts s') /\ looks_the_same upside_down (cParts s') /\ looks_the_same diagonal (cParts s').
  Proof.
    destruct (C13_constructor_defined (cfg := cfg) (1/5000) (1/10) (98/10) (9982/10) (1004 / 10 ^ 9) (95/100) (24/10) 1 (5/10000) (scMin sc) (scMax sc) ltac:(lra)) as [env Henv].
    assert (one_step_succeeds (cfg := cfg) cond env (scParts sc)) as HO by (eapply C73_central_runs; [exact Henv|lra|lra|apply tiny; lra|lia..]).
    pose proof HO as (s & s' & Hi & Hf & HT & HF). exists env, s'. split; [done|].
    assert (after_some_steps (cfg := cfg) cond env (scParts sc) s') as HA.
    { exists s, 1%nat. split; [done|]. split; [eapply stepped_S; [constructor|done]|].
      destruct (C73_central (N := Rnum) (5/10000) 100 100 2) as (sites & HS & _ & Hsh).
      intros p' [i Hp']%elem_of_list_lookup. destruct (Forall2_lookup_r _ _ _ _ _ HF Hp') as (p & Hp & E).
      destruct (Forall2_lookup_r _ _ _ _ _ HS Hp) as ([[t a] b] & Hx & Hst & _). apply elem_of_list_lookup_2 in Hx. apply Hsh in Hx as [-> _].
      intros E'. assert (Newton = Disabled) as E2; [|done]. exact (eq_trans (eq_sym Hst) (eq_trans (eq_sym E) E')). }
    split; [done|]. split; [done|].
    destruct (C75_central_scene false hs hl ecs gc ds true mid (1/5000) (1/10) (98/10) (9982/10) (1004 / 10 ^ 9) (95/100) (24/10) 1 (5/10000) 100 100 2 cond env s' Henv) as (H1 & H2 & H3); try lra; [done|].
    split; [done|]. split; [done|]. by apply H3.
  Qed.
End Example_.

Definition central_reals : settings Rnum := mkSettings (N := Rnum) 0 30 (1/100) (1 / 10 ^ 10) (5/10000) 50 (1/10) (98/10) (9982/10) (1004 / 10 ^ 9) (24/10) (95/100).
Example central_script_runs hs hl ecs gc ds mid : exists (py_str : Rnum -> text) (parse : text -> option Rnum),
  loads_and_goes (plane false hs hl ecs gc ds true mid true) parse parse
    (script_tree (N := Rnum) py_str [] central_reals (central_gravity (N := Rnum) (5/10000) 100 100 2)) (scParts (central_gravity (N := Rnum) (5/10000) 100 100 2)).
Proof.
  set (sc := central_gravity (N := Rnum) (5/10000) 100 100 2). set (l := setting_numbers central_reals sc ++ coordinates (scParts sc) : list R).
  exists (number_text l), (number_of l).
  assert (Z.of_nat (length (table l)) < 2 ^ 31)%Z as Hl.
  { assert (length (scParts sc) = length (central_sites 100 100)) as E. { unfold sc. apply map_length. }
    assert (forall ps : list (particle Rnum D2), length (coordinates ps) = (2 * length ps)%nat) as HC. { intros ps. unfold coordinates. induction ps as [|p ps IH]; [done|]. cbn [flat_map length]. rewrite app_length, IH. cbn. lia. }
    unfold table, l. cbn [length]. rewrite app_length, HC, E. clear. vm_compute. done. }
  assert (forall v, v ∈ l -> plain (number_text l v) /\ number_of l (number_text l v) = Some v) as HV.
  { intros v Hv. apply number_text_of; [done|by right]. }
  assert (script_settings central_reals) as H1.
  { split; [|cbn; lia]. cbn. repeat split; try lra. }
  assert (read_as_written (N := Rnum) (number_text l) (number_of l) (number_of l) central_reals sc) as H2.
  { split; [|split].
    - intros v Hv. apply HV. apply elem_of_app. by left.
    - intros v Hv. apply HV. apply elem_of_app. by right.
    - reflexivity. }
  refine (C74_central_run hs hl ecs gc ds mid (number_text l) (number_of l) (number_of l) [] central_reals 100 100 2 H1 H2 _ _ _ _ _); lia.
Qed.

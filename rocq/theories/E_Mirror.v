(** Examples for C75: the static scene of the script after its first step. *)
From Verif Require Import S_Terms.
From Verif Require Import S_Mirror P_Bench T_Bench T_Mirror E_Bench.
From stdpp Require Import list.
Open Scope R_scope.

Lemma not_disabled {cfg : config} (ps ps' : list (particle Rnum D2)) (sites : list site) l_0 :
  Forall2 (stands (N := Rnum) l_0) sites ps -> (forall t a b, holds sites t a b -> t <> Disabled) ->
  Forall2 (fun p p' : particle Rnum D2 => pT p' = pT p /\ (pT p <> Newton -> pX p' = pX p)) ps ps' -> forall p', p' ∈ ps' -> pT p' <> Disabled.
Proof.
  intros HS HT HF p' [i Hi]%elem_of_list_lookup. destruct (Forall2_lookup_r _ _ _ _ _ HF Hi) as (p & Hp & E & _).
  destruct (Forall2_lookup_r _ _ _ _ _ HS Hp) as ([[t a] b] & Hx & Hst). rewrite E.
  replace (pT p) with t; [eapply HT, elem_of_list_lookup_2, Hx|]. destruct Hst as [E0 _]. symmetry. exact E0.
Qed.

Section Example_.
  Context (hs hl ecs gc ds mid : bool) (cond : M_Main.condition (N := Rnum)).
  Let sc := static_pressure (N := Rnum) (1/1000) 50 100.
  (** StaticPressure/generate.py as it stands, after its first step: the fluid is symmetric about the middle of the tank. *)
  Example static_script_symmetric : exists env (s' : computer (bench_config hs hl ecs gc ds mid) (fixed_walls (bench_config hs hl ecs gc ds mid) (map pX (scParts sc)))),
    eT (cEnv s') = eMaxDt env /\ after_some_steps (cfg := bench_config hs hl ecs gc ds mid) cond env (scParts sc) s' /\
    looks_the_same (left_right (49 * (1/1000))) (cParts s') /\ over_fluid (fun p => coord (pU p) 0) (cParts s') = 0.
  Proof.
    destruct (static_script hs hl ecs gc ds mid cond) as (env & Henv & s' & (s & Hs & Hf) & HT & HF). exists env, s'.
    assert (after_some_steps (cfg := bench_config hs hl ecs gc ds mid) cond env (scParts sc) s') as HA.
    { exists s, 1%nat. split; [done|]. split; [eapply stepped_S; [constructor|done]|].
      eapply (not_disabled (cfg := bench_config hs hl ecs gc ds mid) _ _ (static_sites 50 100)); [by apply stands_placed| |exact HF].
      intros t a b Hx%holds_static; [|lia..]. intros ->. destruct Hx as [[? _]|[[? _]|[? _]]]; done. }
    split; [done|]. split; [done|].
    destruct (C75_static false hs hl ecs gc ds true mid (5 / 1000000) (1/10) (98/10) (9982/10) (1004 / 10 ^ 9) (95/100) (24/10) 1 (1/1000) 50 100 cond env s' Henv) as (H1 & H2 & _); try lra; try lia; [done|].
    split; [|done]. replace (49 * (1/1000)) with ((IZR 50 - 1) * (1/1000)) by (cbn; lra). exact H1.
  Qed.
End Example_.

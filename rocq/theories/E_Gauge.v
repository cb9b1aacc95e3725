(** The gauges of zhouetal1999.py: a concrete case (C82). *)
From Coq Require Import String Ascii.
From Verif Require Import S_Terms.
From Verif Require Import S_Frame S_Outcome S_Bench S_Mirror P_Real T_Csv T_Env T_Main T_Rest T_Bench E_Bench M_Post S_Post T_Post S_Gauge T_Gauge.
From stdpp Require Import list.
Open Scope R_scope.

(** For finitely many values there are texts from which they are read back. *)
Lemma some_printing (vs : list R) : exists (print_num : Rnum -> text) (py_float : text -> option Rnum),
  forall v, v ∈ vs -> plain (print_num v) /\ py_float (print_num v) = Some (v : Rnum).
Proof.
  pose proof (fun v x : R => Req_EM_T x v : Decision (x = v)) as HDec.
  exists (fun v : R => print_int (match list_find (fun x : R => x = v) vs with Some (i, _) => Z.of_nat i | None => 0%Z end)),
         (fun t => k ← py_int t; vs !! Z.to_nat k).
  intros v Hv. change (v ∈ (vs : list R)) in Hv. cbv beta. split; [apply print_int_plain|]. destruct (list_find_elem_of (fun x : R => x = v) vs v Hv eq_refl) as [[i x] Hf]. change (nT Rnum) with R in *. rewrite Hf.
  rewrite py_int_print. cbn [mbind option_bind]. rewrite Nat2Z.id. apply list_find_Some in Hf as (Hf & -> & _). exact Hf.
Qed.
(** The values of the particles of a table. *)
Lemma values_of {d : dim} (ps : list (particle Rnum d)) : exists vs : list R, forall p v, p ∈ ps -> value_of p v -> v ∈ vs.
Proof.
  induction ps as [|p ps [vs IH]]; [exists []; intros p v Hp; by apply elem_of_nil in Hp|].
  exists (pP p :: pN p :: (map (fun k => tget d (pX p) k) (seq 0 (dimn d)) ++ map (fun k => tget d (pU p) k) (seq 0 (dimn d))) ++ vs).
  intros q v [-> |Hq]%elem_of_cons Hv.
  - destruct Hv as [-> |[-> |(k & Hk & [-> | ->])]]; [by left|by right; left|..]; right; right; apply elem_of_app; left; apply elem_of_app; [left|right];
      apply elem_of_list_fmap; exists k; (split; [done|]); apply elem_of_seq; lia.
  - right; right. apply elem_of_app. right. by eapply IH.
Qed.

(** The scene of the generator as it is, the gauges and the sensor of the script: after the first step all hypotheses of C82_zhou are met. *)
Lemma zhou_gauges hs hl ecs gc ds mid cond : exists sc env, zhou_et_al (N := Rnum) (20/1000) (1000/1000) (3220/1000) (6/10) (1200/1000) = Some sc /\
  let cfg := plane false hs hl ecs gc ds true mid false in
  exists (s s' : computer cfg (fixed_walls cfg (map pX (scParts sc)))) print_num py_float,
  new_env (N := Rnum) cfg (5/10000) (1/10) (98/10) (9982/10) (1004 / 10 ^ 9) (97/100) (24/10) 1 (20/1000) (scMin sc) (scMax sc) = Some env /\
  initial cond env (scParts sc) s /\ stepped s 1 s' /\
  (forall p v, p ∈ cParts s' -> value_of p v -> plain (print_num v) /\ py_float (print_num v) = Some v) /\
  match py_gauges py_float (495/1000) (992/1000) (160/1000) (90/1000) (20/1000) (24/10) (write_csv print_num (cParts s')) with
  | Some (h1, h2, p2) => level_at id (495/1000) (20/1000) (fun p => pT p = Newton) (cParts s') h1 /\
      level_at id (992/1000) (20/1000) (fun p => pT p = Newton) (cParts s') h2
  | None => sensed id (160/1000) (90/1000) (cParts s') 0 0
  end.
Proof.
  destruct (C73_zhou_runs hs hl ecs gc ds mid (5/10000) (98/10) (9982/10) (1004 / 10 ^ 9) (97/100) 1 (20/1000) (1000/1000) (3220/1000) (6/10) (1200/1000) cond) as (sc & E & HR); try lra.
  destruct (some_env hs hl ecs gc ds mid (5/10000) (98/10) (9982/10) (1004 / 10 ^ 9) (97/100) 1 (20/1000) (scMin sc) (scMax sc)) as [env Henv].
  exists sc, env. split; [exact E|]. intros cfg. destruct (HR env Henv) as (s' & (s & Hi & Hf) & _). exists s, s'.
  destruct (values_of (cParts s')) as [vs Hvs]. destruct (some_printing vs) as (print_num & py_float & HP). exists print_num, py_float.
  assert (forall p v, p ∈ cParts s' -> value_of p v -> plain (print_num v) /\ py_float (print_num v) = Some v) as Hv by (intros p v Hp Hpv; by apply HP, (Hvs p)).
  assert (stepped s 1 s') as Hn by (econstructor; [constructor|exact Hf]).
  split; [exact Henv|]. split; [exact Hi|]. split; [exact Hn|]. split; [exact Hv|].
  pose proof (C82_zhou hs hl ecs gc ds mid false print_num py_float id (5/10000) (1/10) (98/10) (9982/10) (1004 / 10 ^ 9) (97/100) (24/10) 1 (20/1000) (1000/1000) (3220/1000) (6/10) (1200/1000) sc env cond 0
    (495/1000) (992/1000) (160/1000) (90/1000) E ltac:(lra) ltac:(lra) ltac:(lra) ltac:(lra) Henv) as HC.
  specialize (HC ltac:(intros X [-> | ->]; split; lra) ltac:(intros v; unfold id; replace (v - v) with 0 by lra; rewrite Rabs_R0; apply Rmult_le_pos; [left; apply Rinv_0_lt_compat; lra|apply Rabs_pos]) s s' Hi Hn Hv).
  destruct (py_gauges _ _ _ _ _ _ _ _) as [[[h1 h2] p2]|]; [tauto|exact HC].
Qed.

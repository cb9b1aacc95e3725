(** C76: with rounding the order of the solver's sums does matter. *)
From Coq Require Import ZArith.
From Verif Require Import M_NumF M_Main P_Life S_Reach S_Outcome T_Binary64 S_Red P_Red T_Red.

(** The solver and a step with a given way to add up. *)
Section By.
  Context {N : num} {cfg : config} {wm : wallmotion N (cDim cfg)}.
  Context (dot : list N -> list N -> N).
  Fixpoint cg_loop_by (A : list (@mrow N)) (residual0 : N) (fuel : nat) (x r p : list N) (rr : N) : list N * bool :=
    match fuel with
    | O => (x, false)
    | S fuel =>
        let Ap := lprod A p in
        let alpha := rr /. dot p Ap in
        let x' := ladd x (lscal alpha p) in
        let r' := lsub r (lscal alpha Ap) in
        let rrNew := dot r' r' in
        if rrNew <?. residual0 then (x', true)
        else cg_loop_by A residual0 fuel x' r' (ladd r' (lscal (rrNew /. rr) p)) rrNew
    end.
  Definition cg_solve_by (A : list (@mrow N)) (x b : list N) (eps : N) : list N * bool :=
    let r := lsub b (lprod A x) in
    let rr := dot r r in
    let residual0 := rr ×. eps ×. eps in
    if residual0 =?. nofZ 0 then (x, true) else cg_loop_by A residual0 (length x) x r r rr.
  Definition result_by (dt : N) (s : computer cfg wm) : list N * bool :=
    match before dt s with
    | Done s6 => match set_ppe s6 with Some t => cg_solve_by (cA t) (cXv t) (cBv t) (cEps t) | None => ([], false) end
    | _ => ([], false)
    end.
  Definition forward_by (dt : N) (s : computer cfg wm) : outcome (computer cfg wm) := forward_as (result_by dt s) dt s.

  Context (Hdot : forall a b, some_dot a b (dot a b)).
  Lemma cg_loop_by_some A r0 fuel x r p rr : some_cg_loop A r0 fuel x r p rr (cg_loop_by A r0 fuel x r p rr).
  Proof.
    revert x r p rr. induction fuel as [|fuel IH]; intros x r p rr; [constructor|]. simpl.
    destruct (_ <?. _) eqn:E.
    - eapply some_converged; [apply Hdot|apply Hdot|done].
    - eapply some_continue; [apply Hdot|apply Hdot|done|apply IH].
  Qed.
  Lemma cg_solve_by_some A x b eps : some_cg_solve A x b eps (cg_solve_by A x b eps).
  Proof. econstructor; [apply Hdot|]. unfold cg_solve_by. destruct (_ =?. _); [done|apply cg_loop_by_some]. Qed.
  Lemma forward_by_some dt s : red_forward_dt dt s (forward_by dt s).
  Proof.
    apply red_iff. eexists. split; [reflexivity|]. intros s6 t H6 Hx Ht. unfold result_by. rewrite H6, Ht. apply cg_solve_by_some.
  Qed.
End By.

(** Adding up from right to left. *)
Definition back_dot {N : num} (a b : list N) : N := foldr (fun t u => t +. u) (nofZ 0) (zip_with nmul a b).
Lemma back_some {N : num} (a b : list N) : some_dot a b (back_dot a b).
Proof.
  unfold some_dot, back_dot. generalize (zip_with nmul a b). intros l. induction l as [|x l IH]; simpl; [constructor|].
  eapply sum_join; [apply sum_one|exact IH|done].
Qed.

(** Five particles running into one another. *)
Definition c76_parts : list fpart :=
  [fluid_at (q 0 1) (q 0 1) (q 0 1) (q 0 1); fluid_at (q 1 7) (q 0 1) (q (-1) 5) (q 0 1); fluid_at (q 0 1) (q 1 6) (q 0 1) (q (-1) 3);
   fluid_at (q (-1) 5) (q 0 1) (q 1 3) (q 0 1); fluid_at (q 0 1) (q (-1) 8) (q 0 1) (q 1 4)].
Definition c76_init : list (vec F64num D2) := map pX c76_parts.
Definition c76_dt : F64num := q 1 100.
Definition c76_observe (s : fcomputer c76_init) :=
  match forward_by ldot c76_dt s, forward_by back_dot c76_dt s with
  | Done s1, Done s2 =>
      match cParts s1 !! 1%nat, cParts s2 !! 1%nat with
      | Some p1, Some p2 => Some (pP p1 =?. pP p2, (pX p1).1 =?. (pX p2).1, (pU p1).1 =?. (pU p2).1, nofZ 54669 <?. pP p1, pT p1)
      | _, _ => None
      end
  | _, _ => None
  end.
Lemma c76_observed : observed c76_init [AddParticles default_config c76_parts] c76_observe (false, false, false, true, Newton).
Proof. observe. Qed.

(** C76.  Two outcomes of the same call, in binary64: pressure, position and velocity of a fluid particle differ. *)
Theorem C76_refuted_reproducible : exists init e (s s1 s2 : fcomputer init) (dt : F64num) (p1 p2 : fpart),
  square_ground e /\ reachable e s /\
  red_forward_dt dt s (Done s1) /\ red_forward_dt dt s (Done s2) /\
  cParts s1 !! 1%nat = Some p1 /\ cParts s2 !! 1%nat = Some p2 /\
  (pP p1 =?. pP p2) = false /\ ((pX p1).1 =?. (pX p2).1) = false /\ ((pU p1).1 =?. (pU p2).1) = false.
Proof.
  destruct (run_observe _ _ _ _ c76_observed) as (e & s & Hsq & Hr & Hc). unfold c76_observe in Hc.
  pose proof (forward_by_some ldot ldot_some c76_dt s) as H1. pose proof (forward_by_some back_dot back_some c76_dt s) as H2.
  revert H1 H2 Hc. generalize c76_dt as dt. intros dt. generalize (forward_by ldot dt s) as r1, (forward_by back_dot dt s) as r2.
  intros r1 r2 H1 H2 Hc. destruct r1 as [s1| |]; [|inversion Hc..]. destruct r2 as [s2| |]; [|inversion Hc..].
  destruct (cParts s1 !! 1%nat) as [p1|] eqn:E1; [|inversion Hc]. destruct (cParts s2 !! 1%nat) as [p2|] eqn:E2; [|inversion Hc].
  apply (inj Some) in Hc.
  pose proof (f_equal (fun t => t.1.1.1.1) Hc) as A. pose proof (f_equal (fun t => t.1.1.1.2) Hc) as B. pose proof (f_equal (fun t => t.1.1.2) Hc) as C.
  cbn [fst snd] in A, B, C. exists c76_init, e, s, s1, s2, dt, p1, p2.
  split; [exact Hsq|]. split; [exact Hr|]. split; [exact H1|]. split; [exact H2|]. split; [exact E1|]. split; [exact E2|].
  split; [exact A|]. split; [exact B|exact C].
Qed.

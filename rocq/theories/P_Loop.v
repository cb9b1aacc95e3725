(** Facts about loops with independent iterations. *)
From Verif Require Export M_Base.
From stdpp Require Export list list_numbers.

Section FoldM.
  Context {A S : Type} (f : S -> A -> option S).

  Lemma foldM_app s l1 l2 : foldM f s (l1 ++ l2) = s' ← foldM f s l1; foldM f s' l2.
  Proof. revert s; induction l1 as [|a l1 IH]; intros s; [done|]. simpl. destruct (f s a); [apply IH|done]. Qed.

  Lemma foldM_inv (I : S -> Prop) l s s' :
    (forall s a s', a ∈ l -> I s -> f s a = Some s' -> I s') -> I s -> foldM f s l = Some s' -> I s'.
  Proof.
    revert s; induction l as [|a l IH]; intros s Hf Hs Hr; simpl in Hr; [by simplify_eq|].
    destruct (f s a) as [s1|] eqn:E; [|done].
    apply IH in Hr; [done| |].
    - intros ????; apply Hf. by right.
    - eapply Hf; [left|..]; done.
  Qed.

  Lemma foldM_is_Some (I : S -> Prop) l s :
    (forall s a, a ∈ l -> I s -> exists s', f s a = Some s' /\ I s') -> I s -> exists s', foldM f s l = Some s' /\ I s'.
  Proof.
    revert s; induction l as [|a l IH]; intros s Hf Hs; simpl; [eauto|].
    destruct (Hf s a) as (s1 & -> & H1); [left|done|].
    apply IH; [|done]. intros ???; apply Hf; by right.
  Qed.
End FoldM.

Section Loop.
  Context {S V : Type} (L : ploop S V).

  (** Iteration [i] computes the same value before and after the write of another iteration. *)
  Definition indep : Prop :=
    forall s i j v, i <> j -> l_compute L (l_write L j v s) i = l_compute L s i.
  (** Writes of different iterations commute. *)
  Definition wcomm : Prop :=
    forall s i j v w, i <> j -> l_write L i v (l_write L j w s) = l_write L j w (l_write L i v s).

  Definition run_over (l : list nat) (s : S) : option S := foldM (l_body L) s l.

  (** Pointwise effect of a loop. *)
  Lemma run_over_at (Hi : indep) {X} (π : S -> X) (upd : V -> X -> X) i l s s' :
    (forall v s, π (l_write L i v s) = upd v (π s)) ->
    (forall j v s, j <> i -> π (l_write L j v s) = π s) ->
    NoDup l -> i ∈ l -> run_over l s = Some s' ->
    exists v, l_compute L s i = Some v /\ π s' = upd v (π s).
  Proof.
    intros Hw Hf. unfold run_over. revert s; induction l as [|a l IH]; intros s Hnd Hin Hr; [by apply elem_of_nil in Hin|].
    apply NoDup_cons in Hnd as [Ha Hnd]. simpl in Hr.
    unfold l_body in Hr at 1. destruct (l_compute L s a) as [v|] eqn:E; [|done].
    destruct (decide (a = i)) as [->|Hne].
    - exists v; split; [done|].
      assert (π s' = π (l_write L i v s)) as ->; [|apply Hw].
      clear -Hf Ha Hr. revert Hr. generalize (l_write L i v s) as s0. intros s0 Hr.
      refine (foldM_inv (l_body L) (fun s => π s = π s0) l s0 s' _ eq_refl Hr).
      intros s1 a s2 Hin H1 Hb. unfold l_body in Hb. destruct (l_compute L s1 a); [|done]. simplify_eq.
      rewrite Hf; [done|]. intros ->; done.
    - apply elem_of_cons in Hin as [->|Hin]; [done|].
      destruct (IH _ Hnd Hin Hr) as (w & Hc & Hp).
      exists w. rewrite Hi in Hc by done. rewrite Hf in Hp by done. done.
  Qed.

  Lemma run_over_frame {X} (π : S -> X) l s s' :
    (forall j v s, j ∈ l -> π (l_write L j v s) = π s) ->
    run_over l s = Some s' -> π s' = π s.
  Proof.
    intros Hf Hr. refine (foldM_inv (l_body L) (fun s0 => π s0 = π s) l s s' _ eq_refl Hr).
    intros s1 a s2 Hin H1 Hb. unfold l_body in Hb. destruct (l_compute L s1 a); [|done]. simplify_eq.
    by rewrite Hf.
  Qed.

  Lemma run_over_defined (Hi : indep) l s :
    NoDup l -> (forall i, i ∈ l -> is_Some (l_compute L s i)) <-> is_Some (run_over l s).
  Proof.
    intros Hnd; unfold run_over; revert s; induction l as [|a l IH]; intros s.
    { split; [by eexists|]. intros _ i Hi'. by apply elem_of_nil in Hi'. }
    apply NoDup_cons in Hnd as [Ha Hnd]. simpl. unfold l_body at 1.
    split.
    - intros Hc. destruct (Hc a) as [v Hv]; [left|]. rewrite Hv.
      apply IH; [done|]. intros i Hin. rewrite Hi; [apply Hc; by right|]. intros ->; done.
    - destruct (l_compute L s a) as [v|] eqn:E; [|by intros [??]].
      intros Hr. pose proof (proj2 (IH Hnd _) Hr) as Hc. intros i Hin.
      apply elem_of_cons in Hin as [->|Hin]; [by rewrite E|].
      rewrite <- (Hi s i a v); [by apply Hc|]. intros ->; done.
  Qed.

  (** The loop as a snapshot: all values are computed from the initial state. *)
  Lemma run_over_snapshot (Hi : indep) l s :
    NoDup l ->
    run_over l s = vs ← mapM (l_compute L s) l;
                   Some (foldl (fun s iv => l_write L iv.1 iv.2 s) s (zip l vs)).
  Proof.
    intros Hnd. revert s. unfold run_over. induction l as [|a l IH]; intros s; [done|].
    apply NoDup_cons in Hnd as [Ha Hnd]. simpl. unfold l_body at 1.
    destruct (l_compute L s a) as [v|] eqn:E; [|done]. simpl.
    rewrite (IH Hnd).
    assert (mapM (l_compute L (l_write L a v s)) l = mapM (l_compute L s) l) as ->.
    { clear IH E Hnd. induction l as [|b l IHl]; [done|]. simpl. rewrite not_elem_of_cons in Ha.
      rewrite Hi by (intros ->; naive_solver). rewrite IHl by naive_solver. done. }
    destruct (mapM (l_compute L s) l); done.
  Qed.

  (** Iteration order is irrelevant. *)
  Lemma run_over_perm (Hi : indep) (Hw : wcomm) l1 l2 s :
    l1 ≡ₚ l2 -> NoDup l1 -> run_over l1 s = run_over l2 s.
  Proof.
    intros Hp; unfold run_over; revert s; induction Hp as [|a l1 l2 Hp IH|a b l|l1 l2 l3 H1 IH1 H2 IH2]; intros s Hnd.
    - done.
    - apply NoDup_cons in Hnd as [Ha Hnd]. simpl. destruct (l_body L s a); [by apply IH|done].
    - apply NoDup_cons in Hnd as [Ha Hnd]. rewrite not_elem_of_cons in Ha. destruct Ha as [Hne _].
      simpl. unfold l_body.
      destruct (l_compute L s a) as [v|] eqn:Ea; destruct (l_compute L s b) as [w|] eqn:Eb; simpl;
        rewrite ?Hi by done; rewrite ?Ea, ?Eb; try done.
      rewrite Hw by done. done.
    - rewrite IH1 by done. apply IH2. by rewrite <- H1.
  Qed.

  Lemma run_loop_at (Hi : indep) {X} (π : S -> X) (upd : V -> X -> X) i n s s' :
    (forall v s, π (l_write L i v s) = upd v (π s)) ->
    (forall j v s, j <> i -> π (l_write L j v s) = π s) ->
    (i < n)%nat -> run_loop L n s = Some s' ->
    exists v, l_compute L s i = Some v /\ π s' = upd v (π s).
  Proof.
    intros H1 H2 H3 H4. eapply run_over_at; eauto; [apply NoDup_seq|]. apply elem_of_seq; lia.
  Qed.

  Lemma run_loop_frame {X} (π : S -> X) n s s' :
    (forall j v s, (j < n)%nat -> π (l_write L j v s) = π s) ->
    run_loop L n s = Some s' -> π s' = π s.
  Proof. intros H1 H2. eapply run_over_frame; eauto. intros j v s0 Hj%elem_of_seq. apply H1. lia. Qed.

  Lemma run_loop_defined (Hi : indep) n s :
    (forall i, (i < n)%nat -> is_Some (l_compute L s i)) <-> is_Some (run_loop L n s).
  Proof.
    change (run_loop L n s) with (run_over (seq 0 n) s).
    rewrite <- (run_over_defined Hi) by apply NoDup_seq.
    split; intros H i Hin; apply H; [apply elem_of_seq in Hin; lia | apply elem_of_seq; lia].
  Qed.

  (** Invariant rule. *)
  Lemma run_loop_inv (I : S -> Prop) n s s' :
    (forall s i v, (i < n)%nat -> I s -> l_compute L s i = Some v -> I (l_write L i v s)) ->
    I s -> run_loop L n s = Some s' -> I s'.
  Proof.
    intros Hw Hs Hr. refine (foldM_inv (l_body L) I (seq 0 n) s s' _ Hs Hr).
    intros s1 a s2 Hin H1 Hb. unfold l_body in Hb. destruct (l_compute L s1 a) eqn:E; [|done]. simplify_eq.
    apply elem_of_seq in Hin. eapply Hw; eauto; lia.
  Qed.
End Loop.

Lemma obind_Done {S} (o : outcome S) (f : S -> outcome S) s :
  o >>o f = Done s <-> exists s1, o = Done s1 /\ f s1 = Done s.
Proof. destruct o; simpl; naive_solver. Qed.
Lemma obind_Throw {S} (o : outcome S) (f : S -> outcome S) e s :
  o >>o f = Throw e s <-> o = Throw e s \/ exists s1, o = Done s1 /\ f s1 = Throw e s.
Proof. destruct o; simpl; naive_solver. Qed.
Lemma of_opt_Done {S} (o : option S) s : of_opt o = Done s <-> o = Some s.
Proof. destruct o; simpl; naive_solver. Qed.
Lemma of_opt_Throw {S} (o : option S) e s : of_opt o = Throw e s <-> False.
Proof. destruct o; simpl; naive_solver. Qed.

(** State left behind by an outcome, whether normal or exceptional. *)
Definition final {S} (o : outcome S) : option S :=
  match o with Done s | Throw _ s => Some s | Undef => None end.
Lemma final_obind {S} (o : outcome S) (f : S -> outcome S) s :
  final (o >>o f) = Some s ->
  (exists e, o = Throw e s) \/ exists s1, o = Done s1 /\ final (f s1) = Some s.
Proof. destruct o; simpl; naive_solver. Qed.

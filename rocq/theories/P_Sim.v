(** Simulations between two runs of a loop or of a sequence of phases. *)
From Verif Require Export P_Loop S_Sim.

(** Options of the same kind. *)
Definition opt_rel {S S'} (R : S -> S' -> Prop) (o : option S) (o' : option S') : Prop :=
  match o, o' with Some s, Some s' => R s s' | None, None => True | _, _ => False end.

Lemma run_loop_sim {S S' V V'} (L : ploop S V) (L' : ploop S' V') (R : nat -> S -> S' -> Prop) n s s' :
  (forall i s s', (i < n)%nat -> R i s s' -> opt_rel (fun v v' => R (1 + i)%nat (l_write L i v s) (l_write L' i v' s')) (l_compute L s i) (l_compute L' s' i)) ->
  R 0%nat s s' -> opt_rel (R n) (run_loop L n s) (run_loop L' n s').
Proof.
  intros Hstep. unfold run_loop.
  assert (forall k m s s', (m + k = n)%nat -> R m s s' -> opt_rel (R n) (foldM (l_body L) s (seq m k)) (foldM (l_body L') s' (seq m k))) as HH.
  { induction k as [|k IH]; intros m t t' Hm Ht; simpl; [by replace n with m by lia|].
    specialize (Hstep m t t' ltac:(lia) Ht). unfold l_body at 1 3.
    destruct (l_compute L t m) as [v|], (l_compute L' t' m) as [v'|]; simpl in Hstep; try done.
    apply IH; [lia|done]. }
  intros H0. by apply HH.
Qed.
(** Loops that compute the same values. *)
Lemma run_loop_sim_eq {S S' V} (L : ploop S V) (L' : ploop S' V) (R : S -> S' -> Prop) n s s' :
  (forall i s s', (i < n)%nat -> R s s' -> l_compute L' s' i = l_compute L s i) ->
  (forall i v s s', R s s' -> R (l_write L i v s) (l_write L' i v s')) ->
  R s s' -> opt_rel R (run_loop L n s) (run_loop L' n s').
Proof.
  intros Hc Hw Hr. apply (run_loop_sim L L' (fun _ => R)); [|done]. intros i t t' Hi Ht.
  rewrite (Hc i t t' Hi Ht). destruct (l_compute L t i) as [v|]; simpl; [|done]. by apply Hw.
Qed.
Lemma opt_rel_bind {S S'} (R R' : S -> S' -> Prop) o o' f f' :
  opt_rel R o o' -> (forall t t', R t t' -> opt_rel R' (f t) (f' t')) -> opt_rel R' (o ≫= f) (o' ≫= f').
Proof. intros H Hf. destruct o, o'; simpl in *; try done. by apply Hf. Qed.
Lemma same_kind_bind {S S'} (R R' : S -> S' -> Prop) RT o o' f f' :
  same_kind R RT o o' -> (forall t t', R t t' -> same_kind R' RT (f t) (f' t')) -> same_kind R' RT (o >>o f) (o' >>o f').
Proof. intros H Hf. destruct o, o'; simpl in *; try done. by apply Hf. Qed.
Lemma same_kind_opt {S S'} (R : S -> S' -> Prop) RT o o' : opt_rel R o o' -> same_kind R RT (of_opt o) (of_opt o').
Proof. intros H. destruct o, o'; simpl in *; done. Qed.
Lemma same_kind_mono {S S'} (R : S -> S' -> Prop) (RT RT' : exn -> S -> S' -> Prop) o o' :
  (forall e t t', RT e t t' -> RT' e t t') -> same_kind R RT o o' -> same_kind R RT' o o'.
Proof. intros H Ho. destruct o, o'; simpl in *; try done. destruct Ho. split; [done|]. by apply H. Qed.
Lemma opt_rel_mono {S S'} (R R' : S -> S' -> Prop) o o' : (forall t t', R t t' -> R' t t') -> opt_rel R o o' -> opt_rel R' o o'.
Proof. intros H Ho. destruct o, o'; simpl in *; try done. by apply H. Qed.
Lemma same_kind_impl {S S'} (R R' : S -> S' -> Prop) (RT RT' : exn -> S -> S' -> Prop) o o' :
  (forall t t', R t t' -> R' t t') -> (forall e t t', RT e t t' -> RT' e t t') -> same_kind R RT o o' -> same_kind R' RT' o o'.
Proof. intros H HT Ho. destruct o, o'; simpl in *; try done; [by apply H|]. destruct Ho. split; [done|]. by apply HT. Qed.

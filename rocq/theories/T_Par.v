(** Property theorems: parallel execution (C39, C40). *)
From Verif Require Import M_Par P_Par.

Section Free.
  Context {N : num} {cfg : config} {wm : wallmotion N (cDim cfg)}.
  Notation d := (cDim cfg).
  Notation part := (particle N d).
  Notation computer := (computer cfg wm).
  Implicit Types (s view : computer).

  Lemma fmap_alter_same {A B} (f : A -> B) g i (l : list A) j :
    (forall p, f (g p) = f p) -> f <$> alter g i l !! j = f <$> l !! j.
  Proof.
    intros H. destruct (decide (i = j)) as [->|Hne]; [|by rewrite list_lookup_alter_ne].
    rewrite list_lookup_alter. destruct (l !! j); simpl; congruence.
  Qed.

  Ltac unf := unfold w_neighbor, w_dens, w_ecs, w_accel, w_move, w_explicit, w_assign, w_rhs, w_matrix, w_grad, w_kick, w_ds.
  (** Facts about a view, for a location that no other iteration writes. *)
  Ltac seen H l :=
    let E := fresh "E" in
    let Hk := fresh in
    let k := fresh in
    destruct (H l) as [E|(k & Hk & E)];
    [|exfalso; revert E; unf; rewrite ?elem_of_cons, elem_of_nil; clear -Hk; intuition congruence].

  Lemma view_parts s view :
    (forall j, same_at (LX j) view s) -> (forall j, same_at (LU j) view s) -> (forall j, same_at (LP j) view s) ->
    (forall j, same_at (LN j) view s) -> (forall j, same_at (LT j) view s) -> cParts view = cParts s.
  Proof. intros; by apply parts_ext. Qed.

  Ltac elem := repeat first [left; reflexivity | right].
  Ltac ne Hl := intros ->; apply Hl; elem.

  Ltac frame_tac :=
    intros i v s l Hl;
    repeat match goal with v : option _ |- _ => destruct v | v : (_ * _)%type |- _ => destruct v end;
    simpl;
    repeat match goal with v : option _ |- _ => destruct v end;
    destruct l as [j|j|j|j|j|j|j|j|j|j|j|j|j| ]; simpl;
    try (repeat split; rewrite ?insert_length, ?alter_length; reflexivity);
    try reflexivity;
    try (apply fmap_alter_same; done);
    try (rewrite list_lookup_insert_ne by (ne Hl); reflexivity);
    try (rewrite list_lookup_alter_ne by (ne Hl); reflexivity).

  Ltac disj_tac := intros i j l; unf; rewrite ?elem_of_cons, elem_of_nil; intuition congruence.
  Ltac rest_tac := intros i; unf; rewrite ?elem_of_cons, elem_of_nil; intuition congruence.


  Ltac partsof H HP :=
    match type of H with forall l, same_at l ?view ?s \/ _ =>
      assert (cParts view = cParts s) as HP by
        (let j := fresh "j" in apply view_parts; intros j;
         [seen H (LX j)|seen H (LU j)|seen H (LP j)|seen H (LN j)|seen H (LT j)]; assumption)
    end.
  Ltac listof H HP C c :=
    match type of H with forall l, same_at l ?view ?s \/ _ =>
      assert (c view = c s) as HP by
        (apply list_eq; let j := fresh "j" in intros j; seen H (C j); assumption)
    end.
  Ltac restof H He Hg Hw HlA :=
    let Hep := fresh "Hep" in
    seen H LRest;
    match goal with E : same_at LRest _ _ |- _ => destruct E as (He & Hg & Hep & Hw & _ & _ & HlA & _) end.

  (** Local effect of the writes. *)
  Ltac local_tac :=
    intros i v s s' l Hl Hr Hs; unf;
    let Hl' := fresh in
    repeat match goal with v : option _ |- _ => destruct v | v : (_ * _)%type |- _ => destruct v end; simpl in *;
    destruct Hr as (He & Hg & Hep & Hw & Hlp & Hlr & HlA & Hlx & Hlb & Hld & Hle & Hlo & Hln);
    repeat match goal with v : option _ |- _ => destruct v end;
    pose proof (Hs l Hl) as Hl';
    revert Hl; unf; rewrite ?elem_of_cons, elem_of_nil; intros Hl;
    repeat match type of Hl with _ \/ _ => destruct Hl as [Hl|Hl] end; try done; subst l; simpl in *.

  Lemma insert_same {A} (l l' : list A) i a : length l = length l' -> <[i:=a]> l !! i = <[i:=a]> l' !! i.
  Proof.
    intros Hl. destruct (decide (i < length l)%nat) as [Hi|Hi].
    - by rewrite !list_lookup_insert by lia.
    - rewrite !list_insert_ge by lia. rewrite !lookup_ge_None_2 by lia. done.
  Qed.
  Lemma alter_same {A B} (f : A -> B) g g' i (l l' : list A) :
    (forall p p', l !! i = Some p -> l' !! i = Some p' -> f (g p) = f (g' p')) -> length l = length l' ->
    f <$> alter g i l !! i = f <$> alter g' i l' !! i.
  Proof.
    intros Hf Hl. rewrite !list_lookup_alter. destruct (decide (i < length l)%nat) as [Hi|Hi].
    - destruct (lookup_lt_is_Some_2 l i Hi) as [p Hp]. rewrite Hl in Hi.
      destruct (lookup_lt_is_Some_2 l' i Hi) as [p' Hp']. rewrite Hp, Hp'. simpl. f_equal. by apply Hf.
    - rewrite !lookup_ge_None_2 by lia. done.
  Qed.

  Lemma neighbor_free : race_free (neighbor_loop cfg wm) w_neighbor.
  Proof.
    split; [|disj_tac|frame_tac| |rest_tac].
    - intros i s view H. partsof H HP. restof H He Hg Hw HlA. seen H (LRow i). simpl in E.
      simpl. rewrite HP, Hg, E. destruct (cParts s !! i) as [p|]; [|done]. simpl. destruct (is_disabled _); [done|].
      destruct (around d (cGrid s) (pX p)) as [js|]; [|done]. simpl.
      assert (near view i p js = near s i p js) as ->; [|done].
      induction js as [|k js IH]; [done|]. simpl. rewrite HP, He, IH. done.
    - local_tac. rewrite !list_lookup_alter. congruence.
  Qed.

  Lemma dens_free : race_free (dens_loop cfg wm) w_dens.
  Proof.
    split; [|disj_tac|frame_tac| |rest_tac].
    - intros i s view H. restof H He Hg Hw HlA. listof H HR LRow (cNeighbor (cfg := cfg) (wm := wm)).
      seen H (LNws i). seen H (LT i). seen H (LX i). seen H (LU i). simpl in E, E0, E1, E2. simpl. rewrite He.
      destruct (cParts view !! i) as [p|] eqn:Ep, (cParts s !! i) as [p'|] eqn:Ep'; try done.
      simpl in *. injection E0 as ->. injection E1 as ->. injection E2 as HU. rewrite E.
      destruct (cNws s !! i) as [w|] eqn:Ew; [|done]. simpl. destruct (is_active _); [|done].
      rewrite (acc_ext (with_nws view _) (with_nws s (<[i:=eN0 (cEnv s)]> (cNws s))) i _ _ _ (dens_func cfg (pX p') (eRe (cEnv s)))); simpl; try congruence; try done.
      + rewrite !list_lookup_insert; [done|by eapply lookup_lt_Some|by eapply lookup_lt_Some].
      + intros j. seen H (LX j). done.
      + rewrite Ep, Ep'. simpl. congruence.
      + intros j q q' Hq Hq'. unfold dens_func. seen H (LX j). simpl in E0. rewrite Hq, Hq' in E0. simpl in E0. injection E0 as ->. done.
    - local_tac; first [by apply insert_same|by apply alter_same|done].
  Qed.

  Lemma ecs_free : race_free (ecs_loop cfg wm) w_ecs.
  Proof.
    split; [|disj_tac|frame_tac| |rest_tac].
    - intros i s view H. partsof H HP. restof H He Hg Hw HlA. seen H (LEcs i). seen H (LNws i). simpl in E, E0.
      listof H HR LRow (cNeighbor (cfg := cfg) (wm := wm)). simpl. rewrite HP, E, He.
      rewrite (density_speed_same view s) by congruence. done.
    - local_tac; by apply insert_same.
  Qed.

  Lemma accel_free : race_free (accel_loop cfg wm) w_accel.
  Proof.
    split; [|disj_tac|frame_tac| |rest_tac].
    - intros i s view H. partsof H HP. restof H He Hg Hw HlA. seen H (LDu i). seen H (LNws i). simpl in E, E0.
      listof H HR LRow (cNeighbor (cfg := cfg) (wm := wm)). simpl. rewrite HP, E, He.
      destruct (cParts s !! i) as [p|]; [|done]. simpl. destruct (is_newton _); [|done].
      rewrite (acc_same view s) by congruence. done.
    - local_tac; by apply insert_same.
  Qed.

  Lemma move_free : race_free (move_loop cfg wm) w_move.
  Proof.
    split; [|disj_tac|frame_tac| |rest_tac].
    - intros i s view H. restof H He Hg Hw HlA. seen H (LDu i). seen H (LX i). seen H (LU i). seen H (LT i).
      simpl in E, E0, E1, E2. simpl. rewrite He, Hw, E.
      destruct (cParts view !! i) as [p|], (cParts s !! i) as [p'|]; try done. simpl in *.
      injection E0 as ->. injection E1 as ->. injection E2 as ->. done.
    - local_tac; by apply alter_same.
  Qed.

  Lemma rhs_free : race_free (rhs_loop cfg wm) w_rhs.
  Proof.
    split; [|disj_tac|frame_tac| |rest_tac].
    - intros i s view H. partsof H HP. restof H He Hg Hw HlA. seen H (LXv i). seen H (LBv i). seen H (LNws i). seen H (LEcs i).
      simpl in E, E0, E1, E2.
      listof H HR LRow (cNeighbor (cfg := cfg) (wm := wm)). simpl. rewrite HP, E, E0, E2, He.
      rewrite (density_speed_same view s) by congruence. done.
    - local_tac; by apply insert_same.
  Qed.

  Lemma matrix_free : race_free (matrix_loop cfg wm) w_matrix.
  Proof.
    split; [|disj_tac|frame_tac| |rest_tac].
    - intros i s view H. partsof H HP. restof H He Hg Hw HlA. seen H (LA i). seen H (LNws i).
      simpl in E, E0.
      listof H HR LRow (cNeighbor (cfg := cfg) (wm := wm)). simpl. rewrite HP, E, HlA, He.
      destruct (cParts s !! i) as [p|]; [|done]. simpl.
      rewrite (acc_same view s) by congruence. done.
    - local_tac; by apply insert_same.
  Qed.

  Lemma assign_free : race_free (assign_loop cfg wm) w_assign.
  Proof.
    split; [|disj_tac|frame_tac| |rest_tac].
    - intros i s view H. restof H He Hg Hw HlA. seen H (LXv i). seen H (LN i). seen H (LT i).
      simpl in E, E0, E1. simpl. rewrite He, E.
      destruct (cParts view !! i) as [p|], (cParts s !! i) as [p'|]; try done. simpl in *.
      injection E0 as ->. injection E1 as ->. done.
    - local_tac; by apply alter_same.
  Qed.

  Lemma explicit_free : race_free (explicit_loop cfg wm) w_explicit.
  Proof.
    split; [|disj_tac|frame_tac| |rest_tac].
    - intros i s view H. restof H He Hg Hw HlA. seen H (LN i).
      simpl in E. simpl. rewrite He.
      destruct (cParts view !! i) as [p|], (cParts s !! i) as [p'|]; try done. simpl in *.
      injection E as ->. done.
    - local_tac; by apply alter_same.
  Qed.

  Lemma grad_free : race_free (grad_loop cfg wm) w_grad.
  Proof.
    split; [|disj_tac|frame_tac| |rest_tac].
    - intros i s view H. partsof H HP. restof H He Hg Hw HlA. seen H (LDu i). seen H (LNws i). simpl in E, E0.
      listof H HR LRow (cNeighbor (cfg := cfg) (wm := wm)). simpl. rewrite HP, E, He.
      destruct (cParts s !! i) as [p|]; [|done]. simpl. destruct (is_newton _); [|done].
      rewrite !(acc_same view s) by congruence. destruct (cGC cfg); [|done].
      destruct (acc s i mzero madd _) as [C|]; [|done]. simpl.
      by rewrite !(acc_same view s) by congruence.
    - local_tac; by apply insert_same.
  Qed.

  Lemma kick_free : race_free (kick_loop cfg wm) w_kick.
  Proof.
    split; [|disj_tac|frame_tac| |rest_tac].
    - intros i s view H. restof H He Hg Hw HlA. seen H (LDu i). seen H (LT i).
      simpl in E, E0. simpl. rewrite E.
      destruct (cParts view !! i) as [p|], (cParts s !! i) as [p'|]; try done. simpl in *.
      injection E0 as ->. done.
    - local_tac; try done; apply alter_same; try done; intros p p' Hp Hp'; simpl;
        rewrite Hp, Hp' in *; simpl in *; congruence.
  Qed.

  Lemma ds_free : race_free (ds_loop cfg wm) w_ds.
  Proof.
    split; [|disj_tac|frame_tac| |rest_tac].
    - intros i s view H. partsof H HP. restof H He Hg Hw HlA. seen H (LDu i). seen H (LNws i). simpl in E, E0.
      listof H HR LRow (cNeighbor (cfg := cfg) (wm := wm)).
      listof H HO LOrig (cOrigX (cfg := cfg) (wm := wm)). simpl. rewrite HP, HO, E, He.
      destruct (cParts s !! i) as [p|]; [|done]. simpl. destruct (is_newton _); [|done].
      destruct (cOrigX s !! i) as [x0|]; [|done]. simpl.
      rewrite (acc_ext view s i _ _ _ (ds_func s x0 (pX p) ((eL0 (cEnv s) -. eMaxDx (cEnv s)) ×. (eL0 (cEnv s) -. eMaxDx (cEnv s))))); try congruence; try done.
      + intros j q q' Hq Hq'. rewrite HP, Hq' in Hq. injection Hq as <-. unfold ds_func. rewrite HO. done.
      + intros x q Hq. unfold ds_func. rewrite HO. done.
    - local_tac; by apply insert_same.
  Qed.

  (** C39.  Whatever the schedule and the interleaving, whatever is seen of locations another
      iteration is writing: a parallel loop ends like the sequential one - with the same memory, or in
      undefined behaviour if that does. *)
  Theorem C39_loops_deterministic n s r :
    (par_loop (neighbor_loop cfg wm) w_neighbor n s r <-> r = run_loop (neighbor_loop cfg wm) n s) /\
    (par_loop (dens_loop cfg wm) w_dens n s r <-> r = run_loop (dens_loop cfg wm) n s) /\
    (par_loop (ecs_loop cfg wm) w_ecs n s r <-> r = run_loop (ecs_loop cfg wm) n s) /\
    (par_loop (accel_loop cfg wm) w_accel n s r <-> r = run_loop (accel_loop cfg wm) n s) /\
    (par_loop (move_loop cfg wm) w_move n s r <-> r = run_loop (move_loop cfg wm) n s) /\
    (par_loop (rhs_loop cfg wm) w_rhs n s r <-> r = run_loop (rhs_loop cfg wm) n s) /\
    (par_loop (matrix_loop cfg wm) w_matrix n s r <-> r = run_loop (matrix_loop cfg wm) n s) /\
    (par_loop (assign_loop cfg wm) w_assign n s r <-> r = run_loop (assign_loop cfg wm) n s) /\
    (par_loop (explicit_loop cfg wm) w_explicit n s r <-> r = run_loop (explicit_loop cfg wm) n s) /\
    (par_loop (grad_loop cfg wm) w_grad n s r <-> r = run_loop (grad_loop cfg wm) n s) /\
    (par_loop (kick_loop cfg wm) w_kick n s r <-> r = run_loop (kick_loop cfg wm) n s) /\
    (par_loop (ds_loop cfg wm) w_ds n s r <-> r = run_loop (ds_loop cfg wm) n s).
  Proof.
    repeat split; try (intros ->; apply par_loop_seq); try (intros H; eapply par_loop_iff; [|exact H]);
      auto using neighbor_free, dens_free, ecs_free, accel_free, move_free, rhs_free, matrix_free, assign_free,
        explicit_free, grad_free, kick_free, ds_free.
  Qed.

  Lemma par_iff {V} (L : ploop computer V) W s r : race_free L W -> par L W s r <-> r = of_opt (run_loop L (psize s) s).
  Proof.
    intros HL. unfold par. split.
    - intros (o & Ho & ->). apply (par_loop_iff L W _ HL) in Ho as ->. done.
    - intros ->. eexists. split; [by apply par_loop_iff|done].
  Qed.
  Lemma pseq_iff (P Q : prog) o g s :
    (forall r, P s r <-> r = o) -> (forall s r, Q s r <-> r = g s) -> forall r, pseq P Q s r <-> r = o >>o g.
  Proof.
    intros HP HQ r. unfold pseq. split.
    - intros (o' & ->%HP & Ho). destruct o as [s1|e s1|]; simpl; [by apply HQ|done|done].
    - intros ->. exists o. split; [by apply HP|]. destruct o as [s1|e s1|]; simpl; [by apply HQ|done|done].
  Qed.
  Lemma seqly_iff f s r : seqly f s r <-> r = f s.
  Proof. done. Qed.
  Lemma of_opt_bind (o : option computer) (f : computer -> option computer) :
    of_opt (s ← o; f s) = of_opt o >>o (fun s => of_opt (f s)).
  Proof. by destruct o. Qed.

  (** C39 for whole steps: the result of a parallel step is that of the sequential one. *)
  Theorem C39_step_deterministic dt s r : par_forward_dt dt s r <-> r = forward_dt dt s.
  Proof.
    assert (forall s r, par_search s r <-> r = search_neighbor s) as Hsearch.
    { intros s1 r1. unfold par_search.
      rewrite (pseq_iff _ _ _ _ _ (fun r => seqly_iff _ s1 r) (fun s r => par_iff _ _ s r neighbor_free)).
      unfold search_neighbor. by destruct (clear d (cGrid s1)). }
    assert (forall s r, par_densities s r <-> r = of_opt (compute_densities s)) as Hdens.
    { intros. apply par_iff, dens_free. }
    assert (forall s r, (if cECS cfg then par_ecs else seqly Done) s r <-> r = (if cECS cfg then of_opt (compute_ecs s) else Done s)) as Hecs.
    { intros. destruct (cECS cfg); [apply par_iff, ecs_free|done]. }
    assert (forall s r, par_explicit s r <-> r = of_opt (compute_explicit s)) as Hexp.
    { intros s1 r1. unfold par_explicit, compute_explicit. rewrite of_opt_bind.
      rewrite (pseq_iff _ _ _ _ _ (pseq_iff _ _ _ _ _ (fun r => par_iff _ _ s1 r accel_free) (fun s r => seqly_iff _ s r))
                 (fun s r => par_iff _ _ s r move_free)).
      by destruct (run_loop (accel_loop cfg wm) (psize s1) s1). }
    assert (forall s r, (if cDS cfg then seqly (fun s => of_opt (save_x s)) else seqly Done) s r <-> r = (if cDS cfg then of_opt (save_x s) else Done s)) as Hsave.
    { intros. by destruct (cDS cfg). }
    assert (forall s r, par_set_ppe s r <-> r = of_opt (set_ppe s)) as Hset.
    { intros s1 r1. unfold par_set_ppe, set_ppe. rewrite of_opt_bind.
      set (s0 := if (psize s1 =? length (cBv s1))%nat then s1 else _).
      rewrite (pseq_iff _ _ _ _ _ (pseq_iff _ _ _ _ _ (fun r => seqly_iff _ s1 r) (fun s r => par_iff _ _ s r rhs_free))
                 (fun s r => par_iff _ _ s r matrix_free)).
      simpl. fold s0. assert (psize s0 = psize s1) as Hn by (unfold s0; by destruct (_ =? _)%nat). rewrite Hn.
      destruct (run_loop (rhs_loop cfg wm) (psize s1) s0) as [s2|] eqn:E; [|done]. simpl.
      assert (psize s2 = psize s1) as ->; [|done]. rewrite <- Hn.
      by apply (run_loop_frame _ (fun s => psize s) _ _ _) in E. }
    assert (forall s r, pseq (par (grad_loop cfg wm) w_grad) (par (kick_loop cfg wm) w_kick) s r <-> r = of_opt (modify_by_gradient s)) as Hgrad.
    { intros s1 r1. unfold modify_by_gradient. rewrite of_opt_bind.
      apply pseq_iff; intros; apply par_iff; [apply grad_free|apply kick_free]. }
    assert (forall s r, par_implicit s r <-> r = compute_implicit s) as Himp.
    { intros s1 r1. unfold par_implicit, compute_implicit. apply pseq_iff; [|done].
      intros r2. destruct (cExplicit cfg); [apply par_iff, explicit_free|].
      apply pseq_iff; [|intros; apply par_iff, assign_free]. by apply pseq_iff. }
    assert (forall s r, (if cDS cfg then par_stabilize else seqly Done) s r <-> r = (if cDS cfg then of_opt (stabilize s) else Done s)) as Hstab.
    { intros s1 r1. destruct (cDS cfg); [|done]. unfold par_stabilize, stabilize. rewrite of_opt_bind.
      apply pseq_iff; intros; apply par_iff; [apply ds_free|apply kick_free]. }
    unfold par_forward_dt, forward_dt. revert r.
    apply pseq_iff; [|exact Hstab].
    apply pseq_iff; [|exact Himp].
    apply pseq_iff; [|exact Hsave].
    apply pseq_iff; [|exact Hdens].
    apply pseq_iff; [|exact Hexp].
    apply pseq_iff; [|exact Hecs].
    apply pseq_iff; [|exact Hdens].
    intros r. by rewrite (pseq_iff _ _ _ _ _ (fun r => seqly_iff _ s r) Hsearch).
  Qed.

  Theorem C39_auto_step_deterministic s r : par_forward s r <-> r = forward s.
  Proof. unfold par_forward, forward. destruct (determine_dt s); [apply C39_step_deterministic|done]. Qed.
End Free.

(** Effect of every phase on a single particle (any arithmetic). *)
From Verif Require Export P_Reach.

Section Point.
  Context {N : num} {cfg : config} {wm : wallmotion N (cDim cfg)}.
  Notation d := (cDim cfg).
  Notation V := (vec N d).
  Notation part := (particle N d).
  Notation computer := (computer cfg wm).
  Implicit Types (s : computer) (p : part).

  (** ** Densities *)
  Lemma dens_at s s' i p :
    compute_densities s = Some s' -> cParts s !! i = Some p ->
    if is_active (pT p) then
      exists n, acc (with_nws s (<[i := eN0 (cEnv s)]> (cNws s))) i (nofZ 0) nadd (dens_func cfg (pX p) (eRe (cEnv s))) = Some n /\
        cParts s' !! i = Some (set_N (if cSPP cfg then nmax n (eN0 (cEnv s)) else n) p) /\
        cNws s' !! i = Some n
    else cParts s' !! i = Some p /\ cNws s' !! i = Some (eN0 (cEnv s)).
  Proof.
    intros Hr Hp.
    destruct (run_loop_at (dens_loop cfg wm) dens_indep (fun s => (cParts s !! i, cNws s !! i))
      (fun v o => (match v.2 with Some n => set_N n <$> o.1 | None => o.1 end, (fun _ => v.1) <$> o.2))
      i (psize s) s s') as ([v1 v2] & Hc & He); [| | |done|].
    - intros [v1 [n|]] s0; simpl; [rewrite list_lookup_alter|];
      (destruct (cNws s0 !! i) eqn:E; [by rewrite list_lookup_insert by (by eapply lookup_lt_Some)|]; rewrite list_insert_ge; [by rewrite E|by apply lookup_ge_None]).
    - intros j [v1 [n|]] s0 Hj; simpl; [rewrite list_lookup_alter_ne by done|]; by rewrite list_lookup_insert_ne by done.
    - by eapply lookup_lt_Some.
    - simpl in He. injection He as Hep Hew. rewrite Hp in Hep.
      simpl in Hc. rewrite Hp in Hc. simpl in Hc. destruct (cNws s !! i) as [w|] eqn:Ew; [|done]. simpl in Hc, Hew.
      destruct (is_active (pT p)).
      + destruct (acc _ _ _ _ _) as [n|]; [|done]. simpl in Hc. injection Hc as <- <-. eauto.
      + injection Hc as <- <-. eauto.
  Qed.

  Lemma dens_rest s s' : compute_densities s = Some s' ->
    s' = with_nws (with_parts s (cParts s')) (cNws s').
  Proof.
    intros Hr. refine (run_loop_inv (dens_loop cfg wm) (fun s' => s' = with_nws (with_parts s (cParts s')) (cNws s')) _ _ _ _ _ Hr).
    - intros s0 i [v1 [n|]] _ H0 _; simpl; rewrite H0 at 1; done.
    - by destruct s.
  Qed.

  (** Phases never change a type; densities keep everything but [N]. *)
  Lemma dens_keep s s' i p :
    compute_densities s = Some s' -> cParts s !! i = Some p ->
    exists n, cParts s' !! i = Some (set_N n p) /\ (is_active (pT p) = false -> n = pN p).
  Proof.
    intros Hr Hp. pose proof (dens_at s s' i p Hr Hp) as H. destruct (is_active (pT p)).
    - destruct H as (n & _ & -> & _). by eexists.
    - destruct H as (-> & _). exists (pN p). split; [by destruct p|done].
  Qed.

  (** ** Error correction *)
  Lemma ecs_rest s s' : compute_ecs s = Some s' -> s' = with_ecs s (cEcs s').
  Proof.
    intros Hr. refine (run_loop_inv (ecs_loop cfg wm) (fun s' => s' = with_ecs s (cEcs s')) _ _ _ _ _ Hr).
    - intros s0 i [v|] _ H0 _; simpl; [rewrite H0 at 1; done|done].
    - by destruct s.
  Qed.
  Lemma ecs_at s s' i p :
    compute_ecs s = Some s' -> cParts s !! i = Some p ->
    if is_active (pT p) then exists speed, density_speed s i = Some speed /\
       cEcs s' !! i = Some (nabs ((pN p -. eN0 (cEnv s)) /. eN0 (cEnv s)) ×. speed
                            +. nabs speed ×. ((pN p -. eN0 (cEnv s)) /. eN0 (cEnv s)))
    else cEcs s' !! i = cEcs s !! i.
  Proof.
    intros Hr Hp.
    destruct (run_loop_at (ecs_loop cfg wm) ecs_indep (fun s => cEcs s !! i)
      (fun v o => match v with Some e => (fun _ => e) <$> o | None => o end)
      i (psize s) s s') as (v & Hc & He); [| | |done|].
    - intros [e|] s0; simpl; [|done].
      destruct (cEcs s0 !! i) eqn:E; [by rewrite list_lookup_insert by (by eapply lookup_lt_Some)|]; rewrite list_insert_ge; [by rewrite E|by apply lookup_ge_None].
    - intros j [e|] s0 Hj; simpl; [|done]. by rewrite list_lookup_insert_ne by done.
    - by eapply lookup_lt_Some.
    - simpl in Hc. rewrite Hp in Hc. simpl in Hc. destruct (is_active (pT p)).
      + destruct (density_speed s i) as [sp|]; [|done]. simpl in Hc.
        destruct (cEcs s !! i) as [e0|]; [|done]. simpl in Hc. injection Hc as <-. simpl in He. eauto.
      + by injection Hc as <-.
  Qed.

  (** ** Explicit phase *)
  Lemma accel_rest n s s' : run_loop (accel_loop cfg wm) n s = Some s' -> s' = with_du s (cDu s').
  Proof.
    intros Hr. refine (run_loop_inv (accel_loop cfg wm) (fun s' => s' = with_du s (cDu s')) _ _ _ _ _ Hr).
    - intros s0 i [v|] _ H0 _; simpl; [rewrite H0 at 1; done|done].
    - by destruct s.
  Qed.
  Lemma du_upd (l : list V) i (v : V) : (<[i:=v]> l) !! i = (fun _ => v) <$> l !! i.
  Proof.
    destruct (l !! i) eqn:E; [by rewrite list_lookup_insert by (by eapply lookup_lt_Some)|].
    rewrite list_insert_ge; [done|by apply lookup_ge_None].
  Qed.
  Lemma accel_at s s' i p :
    run_loop (accel_loop cfg wm) (psize s) s = Some s' -> cParts s !! i = Some p -> pT p = Newton ->
    exists vis, acc s i vzero vadd (vis_func (cEnv s) (pX p) (pU p)) = Some vis /\
      cDu s' !! i = Some (vis +^ gravity (cEnv s) (pX p)).
  Proof.
    intros Hr Hp HT.
    destruct (run_loop_at (accel_loop cfg wm) accel_indep (fun s => cDu s !! i)
      (fun v o => match v with Some e => (fun _ => e) <$> o | None => o end)
      i (psize s) s s') as (v & Hc & He); [| | |done|].
    - intros [e|] s0; simpl; [apply du_upd|done].
    - intros j [e|] s0 Hj; simpl; [|done]. by rewrite list_lookup_insert_ne by done.
    - by eapply lookup_lt_Some.
    - simpl in Hc. rewrite Hp in Hc. simpl in Hc. rewrite HT in Hc. simpl in Hc.
      destruct (acc s i vzero vadd _) as [vis|]; [|done]. simpl in Hc.
      destruct (cDu s !! i) as [e0|]; [|done]. simpl in Hc. injection Hc as <-. simpl in He. eauto.
  Qed.
  Lemma move_rest n s s' : run_loop (move_loop cfg wm) n s = Some s' -> s' = with_parts s (cParts s').
  Proof.
    intros Hr. refine (run_loop_inv (move_loop cfg wm) (fun s' => s' = with_parts s (cParts s')) _ _ _ _ _ Hr).
    - intros s0 i v _ H0 _; simpl. rewrite H0 at 1. done.
    - by destruct s.
  Qed.
  Lemma move_at s s' i p :
    run_loop (move_loop cfg wm) (psize s) s = Some s' -> cParts s !! i = Some p ->
    let t := eT (cEnv s) in let dt := eDt (cEnv s) in
    if is_newton (pT p) then
      exists a, cDu s !! i = Some a /\
        let u := pU p +^ vscalr a dt in
        cParts s' !! i = Some (set_U u (set_X (pX p +^ vscalr u dt) p))
    else
      let x := wPos wm (cWall s) i t dt in
      cParts s' !! i = Some (set_U ((x -^ pX p) /^ dt) (set_X x p)).
  Proof.
    intros Hr Hp.
    destruct (run_loop_at (move_loop cfg wm) move_indep (fun s => cParts s !! i)
      (fun v o => (fun p => set_U v.2 (set_X v.1 p)) <$> o)
      i (psize s) s s') as (v & Hc & He); [| | |done|].
    - intros v s0; simpl. apply list_lookup_alter.
    - intros j v s0 Hj; simpl. by apply list_lookup_alter_ne.
    - by eapply lookup_lt_Some.
    - rewrite Hp in He. simpl in Hc. rewrite Hp in Hc. simpl in Hc, He. simpl.
      destruct (is_newton (pT p)).
      + destruct (cDu s !! i) as [a|]; [|done]. simpl in Hc. injection Hc as <-. exists a. eauto.
      + injection Hc as <-. done.
  Qed.

  (** The explicit phase on one particle. *)
  Lemma explicit_at s s' i p :
    compute_explicit s = Some s' -> cParts s !! i = Some p ->
    let t := eT (cEnv s) in let dt := eDt (cEnv s) in
    if is_newton (pT p) then
      exists vis, acc s i vzero vadd (vis_func (cEnv s) (pX p) (pU p)) = Some vis /\
        let u := pU p +^ vscalr (vis +^ gravity (cEnv s) (pX p)) dt in
        cParts s' !! i = Some (set_U u (set_X (pX p +^ vscalr u dt) p))
    else
      let x := wPos wm (wPre wm (cWall s) t dt) i t dt in
      cParts s' !! i = Some (set_U ((x -^ pX p) /^ dt) (set_X x p)).
  Proof.
    unfold compute_explicit. intros H Hp.
    destruct (run_loop (accel_loop cfg wm) _ s) as [s1|] eqn:E; [|done]. cbn [mbind option_bind] in H.
    pose proof (accel_rest _ _ _ E) as Hs1.
    assert (cParts (with_wall s1 (wPre wm (cWall s1) (eT (cEnv s1)) (eDt (cEnv s1)))) !! i = Some p) as Hp1.
    { simpl. rewrite Hs1. done. }
    pose proof (move_at _ _ i p H Hp1) as Hm. cbn [cEnv cWall cDu with_wall] in Hm.
    assert (cEnv s1 = cEnv s) as He by (by rewrite Hs1). assert (cWall s1 = cWall s) as Hw by (by rewrite Hs1).
    rewrite He, Hw in Hm. cbv zeta in Hm |- *. destruct (is_newton (pT p)) eqn:HT; [|done].
    apply is_newton_true in HT. destruct (accel_at s s1 i p E Hp HT) as (vis & Hvis & Hdu).
    destruct Hm as (a & Ha & Hres). exists vis. split; [done|]. rewrite Hdu in Ha. by injection Ha as <-.
  Qed.
  Lemma explicit_rest s s' : compute_explicit s = Some s' ->
    s' = with_wall (with_parts (with_du s (cDu s')) (cParts s')) (wPre wm (cWall s) (eT (cEnv s)) (eDt (cEnv s))).
  Proof.
    unfold compute_explicit. intros H.
    destruct (run_loop (accel_loop cfg wm) _ s) as [s1|] eqn:E; [|done]. cbn [mbind option_bind] in H.
    apply accel_rest in E. apply move_rest in H. destruct s, s1, s'. unfold with_du, with_wall, with_parts in *.
    cbn in *. injection E as; injection H as; subst; reflexivity.
  Qed.

  (** ** Saved positions *)
  Lemma savex_rest s s' : save_x s = Some s' -> s' = with_origx s (cOrigX s').
  Proof.
    intros Hr. refine (run_loop_inv (savex_loop cfg wm) (fun s' => s' = with_origx s (cOrigX s')) _ _ _ _ _ Hr).
    - intros s0 i [v|] _ H0 _; simpl; [rewrite H0 at 1; done|done].
    - by destruct s.
  Qed.
  Lemma savex_at s s' i p :
    save_x s = Some s' -> cParts s !! i = Some p -> is_active (pT p) = true -> cOrigX s' !! i = Some (pX p).
  Proof.
    intros Hr Hp HT.
    destruct (run_loop_at (savex_loop cfg wm) savex_indep (fun s => cOrigX s !! i)
      (fun v o => match v with Some e => (fun _ => e) <$> o | None => o end)
      i (psize s) s s') as (v & Hc & He); [| | |done|].
    - intros [e|] s0; simpl; [apply du_upd|done].
    - intros j [e|] s0 Hj; simpl; [|done]. by rewrite list_lookup_insert_ne by done.
    - by eapply lookup_lt_Some.
    - simpl in Hc. rewrite Hp in Hc. simpl in Hc. rewrite HT in Hc. simpl in Hc.
      destruct (cOrigX s !! i); [|done]. simpl in Hc. injection Hc as <-. done.
  Qed.

  (** ** Pressure equation *)
  Lemma rhs_rest n s s' : run_loop (rhs_loop cfg wm) n s = Some s' -> s' = with_ppe s (cA s) (cXv s') (cBv s').
  Proof.
    intros Hr. refine (run_loop_inv (rhs_loop cfg wm) (fun s' => s' = with_ppe s (cA s) (cXv s') (cBv s')) _ _ _ _ _ Hr).
    - intros s0 i v _ H0 _; simpl. rewrite H0 at 1 2. done.
    - by destruct s.
  Qed.
  Lemma matrix_rest n s s' : run_loop (matrix_loop cfg wm) n s = Some s' -> s' = with_ppe s (cA s') (cXv s) (cBv s).
  Proof.
    intros Hr. refine (run_loop_inv (matrix_loop cfg wm) (fun s' => s' = with_ppe s (cA s') (cXv s) (cBv s)) _ _ _ _ _ Hr).
    - intros s0 i v _ H0 _; simpl. rewrite H0 at 1 3 4. done.
    - by destruct s.
  Qed.
  Lemma resized_rest s : resized s = with_ppe s (cA (resized s)) (cXv (resized s)) (cBv (resized s)).
  Proof. unfold resized. destruct (_ =? _)%nat; [by destruct s|done]. Qed.
  Lemma set_ppe_rest s s' : set_ppe s = Some s' -> s' = with_ppe s (cA s') (cXv s') (cBv s').
  Proof.
    rewrite set_ppe_unfold. intros H. destruct (run_loop (rhs_loop cfg wm) _ _) as [s1|] eqn:E; [|done]. simpl in H.
    apply rhs_rest in E. apply matrix_rest in H. rewrite H at 1. rewrite E at 1. rewrite (resized_rest s) at 1. rewrite H. done.
  Qed.

  (** Right-hand side and start value. *)
  Definition rhs_value (s : computer) i p : option (N * N) :=
    if ppe_excluded (cEnv s) p then Some (nofZ 0, nofZ 0)
    else
      speed ← density_speed s i;
      let k := nopp (eRho (cEnv s)) /. (eN0 (cEnv s) ×. eDt (cEnv s)) in
      if cECS cfg then e ← cEcs s !! i; Some (k ×. (speed +. e), pP p) else Some (k ×. speed, pP p).
  Definition row_entries (s : computer) i p : option mrow :=
    if ppe_excluded (cEnv s) p then Some [(i, nofZ 1)]
    else a ← acc s i ppe_zero ppe_plus (ppe_func (cEnv s) (pX p)); Some (a.1 ++ [(i, a.2)]).

  Lemma list_upd {A} (l : list A) i (v : A) : (<[i:=v]> l) !! i = (fun _ => v) <$> l !! i.
  Proof.
    destruct (l !! i) eqn:E; [by rewrite list_lookup_insert by (by eapply lookup_lt_Some)|].
    rewrite list_insert_ge; [done|by apply lookup_ge_None].
  Qed.

  Lemma set_ppe_at s s' i p :
    set_ppe s = Some s' -> cParts s !! i = Some p ->
    (exists v, rhs_value s i p = Some v /\ cBv s' !! i = Some v.1 /\ cXv s' !! i = Some v.2) /\
    (exists es, row_entries s i p = Some es /\
       cA s' !! i = Some (foldl (fun row e => row_set e.1 e.2 row) [] es)).
  Proof.
    rewrite set_ppe_unfold. intros H Hp.
    destruct (run_loop (rhs_loop cfg wm) _ _) as [s1|] eqn:E; [|done]. cbn [mbind option_bind] in H.
    pose proof (matrix_rest _ _ _ H) as Hs'. pose proof (rhs_rest _ _ _ E) as Hs1.
    pose proof (resized_rest s) as Hs0.
    assert (i < psize s)%nat as Hi by (by eapply lookup_lt_Some).
    split.
    - destruct (run_loop_at (rhs_loop cfg wm) rhs_indep (fun s => (cBv s !! i, cXv s !! i))
        (fun v o => ((fun _ => v.1) <$> o.1, (fun _ => v.2) <$> o.2))
        i (psize s) (resized s) s1) as (v & Hc & He); [| |done|done|].
      + intros v s0; simpl. by rewrite !list_upd.
      + intros j v s0 Hj; simpl. by rewrite !list_lookup_insert_ne by done.
      + exists v. injection He as Heb Hex. rewrite Hs'. simpl.
        simpl in Hc. replace (cParts (resized s)) with (cParts s) in Hc by (by rewrite Hs0).
        rewrite Hp in Hc. simpl in Hc.
        destruct (cBv (resized s) !! i); [|done]. destruct (cXv (resized s) !! i); [|done]. simpl in Hc, Heb, Hex.
        split; [|done]. rewrite <- Hc. unfold rhs_value.
        replace (cEnv (resized s)) with (cEnv s) by (by rewrite Hs0).
        replace (cEcs (resized s)) with (cEcs s) by (by rewrite Hs0).
        rewrite (density_speed_same (resized s) s) by (by rewrite Hs0). done.
    - destruct (run_loop_at (matrix_loop cfg wm) matrix_indep (fun s => cA s !! i)
        (fun v o => (fun _ => v) <$> o)
        i (psize s) s1 s') as (v & Hc & He); [| |done|done|].
      + intros v s0; simpl. by rewrite !list_upd.
      + intros j v s0 Hj; simpl. by rewrite !list_lookup_insert_ne by done.
      + assert (cParts s1 = cParts s) as Hps by (rewrite Hs1, Hs0; done).
        assert (cEnv s1 = cEnv s) as Hen by (rewrite Hs1, Hs0; done).
        simpl in Hc. rewrite Hps, Hp, Hen in Hc. simpl in Hc.
        destruct (cA s1 !! i) as [a0|]; [|done]. simpl in Hc, He.
        rewrite (acc_same s1 s) in Hc by (rewrite Hs1, Hs0; done).
        unfold row_entries. destruct (ppe_excluded (cEnv s) p).
        * simpl in Hc. destruct (_ && _) in Hc; [|done]. injection Hc as <-. eauto.
        * destruct (acc s i _ _ _) as [a|]; [|done]. simpl in Hc |- *.
          destruct (forallb _ _) in Hc; [|done]. injection Hc as <-. eauto.
  Qed.

  Lemma assign_rest n s s' : run_loop (assign_loop cfg wm) n s = Some s' -> s' = with_parts s (cParts s').
  Proof.
    intros Hr. refine (run_loop_inv (assign_loop cfg wm) (fun s' => s' = with_parts s (cParts s')) _ _ _ _ _ Hr).
    - intros s0 i [v|] _ H0 _; simpl; [rewrite H0 at 1|]; done.
    - by destruct s.
  Qed.
  Definition clamp (s : computer) p (x : N) : N :=
    if (x <?. nofZ 0) || (negb (cSPP cfg) && is_surface (pN p) (eN0 (cEnv s)) (eSurf (cEnv s))) then nofZ 0 else x.
  Lemma assign_at s s' i p :
    run_loop (assign_loop cfg wm) (psize s) s = Some s' -> cParts s !! i = Some p ->
    if is_active (pT p) then exists x, cXv s !! i = Some x /\ cParts s' !! i = Some (set_P (clamp s p x) p)
    else cParts s' !! i = Some p.
  Proof.
    intros Hr Hp.
    destruct (run_loop_at (assign_loop cfg wm) assign_indep (fun s => cParts s !! i)
      (fun v o => match v with Some x => set_P x <$> o | None => o end)
      i (psize s) s s') as (v & Hc & He); [| | |done|].
    - intros [v|] s0; simpl; [apply list_lookup_alter|done].
    - intros j [v|] s0 Hj; simpl; [by apply list_lookup_alter_ne|done].
    - by eapply lookup_lt_Some.
    - simpl in Hc. rewrite Hp in Hc, He. simpl in Hc. destruct (is_active (pT p)).
      + destruct (cXv s !! i) as [x|]; [|done]. simpl in Hc. injection Hc as <-. exists x. done.
      + by injection Hc as <-.
  Qed.
  Lemma explicitp_rest n s s' : run_loop (explicit_loop cfg wm) n s = Some s' -> s' = with_parts s (cParts s').
  Proof.
    intros Hr. refine (run_loop_inv (explicit_loop cfg wm) (fun s' => s' = with_parts s (cParts s')) _ _ _ _ _ Hr).
    - intros s0 i v _ H0 _; simpl. rewrite H0 at 1. done.
    - by destruct s.
  Qed.
  Lemma explicitp_at s s' i p :
    run_loop (explicit_loop cfg wm) (psize s) s = Some s' -> cParts s !! i = Some p ->
    cParts s' !! i = Some (set_P (explicit_pressure (cEnv s) (pN p)) p).
  Proof.
    intros Hr Hp.
    destruct (run_loop_at (explicit_loop cfg wm) explicit_indep (fun s => cParts s !! i)
      (fun v o => set_P v <$> o) i (psize s) s s') as (v & Hc & He); [| | |done|].
    - intros v s0; simpl. apply list_lookup_alter.
    - intros j v s0 Hj; simpl. by apply list_lookup_alter_ne.
    - by eapply lookup_lt_Some.
    - simpl in Hc. rewrite Hp in Hc, He. simpl in Hc. injection Hc as <-. done.
  Qed.

  (** ** Pressure gradient and stabilisation *)
  Lemma grad_rest n s s' : run_loop (grad_loop cfg wm) n s = Some s' -> s' = with_du s (cDu s').
  Proof.
    intros Hr. refine (run_loop_inv (grad_loop cfg wm) (fun s' => s' = with_du s (cDu s')) _ _ _ _ _ Hr).
    - intros s0 i [v|] _ H0 _; simpl; [rewrite H0 at 1; done|done].
    - by destruct s.
  Qed.
  Lemma ds_rest n s s' : run_loop (ds_loop cfg wm) n s = Some s' -> s' = with_du s (cDu s').
  Proof.
    intros Hr. refine (run_loop_inv (ds_loop cfg wm) (fun s' => s' = with_du s (cDu s')) _ _ _ _ _ Hr).
    - intros s0 i [v|] _ H0 _; simpl; [rewrite H0 at 1; done|done].
    - by destruct s.
  Qed.
  Lemma kick_rest n s s' : run_loop (kick_loop cfg wm) n s = Some s' -> s' = with_parts s (cParts s').
  Proof.
    intros Hr. refine (run_loop_inv (kick_loop cfg wm) (fun s' => s' = with_parts s (cParts s')) _ _ _ _ _ Hr).
    - intros s0 i [v|] _ H0 _; simpl; [rewrite H0 at 1|]; done.
    - by destruct s.
  Qed.
  Definition kicked (dt : N) (a : V) p : part := set_X (pX p +^ vscalr a dt) (set_U (pU p +^ a) p).
  Lemma kick_at s s' i p :
    run_loop (kick_loop cfg wm) (psize s) s = Some s' -> cParts s !! i = Some p ->
    if is_newton (pT p) then exists a, cDu s !! i = Some a /\ cParts s' !! i = Some (kicked (eDt (cEnv s)) a p)
    else cParts s' !! i = Some p.
  Proof.
    intros Hr Hp.
    destruct (run_loop_at (kick_loop cfg wm) kick_indep (fun s => (cParts s !! i, eDt (cEnv s)))
      (fun v o => match v with Some a => (kicked o.2 a <$> o.1, o.2) | None => o end)
      i (psize s) s s') as (v & Hc & He); [| | |done|].
    - intros [v|] s0; simpl; [by rewrite list_lookup_alter|done].
    - intros j [v|] s0 Hj; simpl; [by rewrite list_lookup_alter_ne|done].
    - by eapply lookup_lt_Some.
    - simpl in Hc. rewrite Hp in Hc, He. simpl in Hc. destruct (is_newton (pT p)).
      + destruct (cDu s !! i) as [a|]; [|done]. simpl in Hc. injection Hc as <-. injection He as He _. exists a. done.
      + injection Hc as <-. by injection He.
  Qed.

  (** velocity change computed for fluid particle [i] *)
  Definition grad_value (s : computer) i p : option V :=
    let env := cEnv s in
    let r_e := eRe env in let dt := eDt env in let rho := eRho env in let n0 := eN0 env in
    if cGC cfg then
      invC ← acc s i mzero madd (gc_matrix_func (pX p) r_e);
      let C := minvert invC (nofZ (Z.of_nat (dimn d)) /. n0) in
      a ← acc s i vzero vadd (gc_func cfg (pP p) (pX p) r_e C);
      Some ((nopp dt ×. pN p /. (rho ×. n0)) *^ a)
    else
      a ← acc s i vzero vadd (grad_func (pP p) (pX p) r_e);
      Some ((nopp dt /. rho ×. nofZ (Z.of_nat (dimn d)) /. n0) *^ a).

  Lemma grad_at s s' i p :
    run_loop (grad_loop cfg wm) (psize s) s = Some s' -> cParts s !! i = Some p -> pT p = Newton ->
    exists a, grad_value s i p = Some a /\ cDu s' !! i = Some a.
  Proof.
    intros Hr Hp HT.
    destruct (run_loop_at (grad_loop cfg wm) grad_indep (fun s => cDu s !! i)
      (fun v o => match v with Some e => (fun _ => e) <$> o | None => o end)
      i (psize s) s s') as (v & Hc & He); [| | |done|].
    - intros [e|] s0; simpl; [apply list_upd|done].
    - intros j [e|] s0 Hj; simpl; [|done]. by rewrite list_lookup_insert_ne by done.
    - by eapply lookup_lt_Some.
    - simpl in Hc. rewrite Hp in Hc. cbn [mbind option_bind] in Hc. rewrite HT in Hc. cbn [is_newton] in Hc.
      unfold grad_value. cbv zeta in Hc |- *. destruct (if cGC cfg then _ else _) as [a|]; [|done].
      simpl in Hc. destruct (cDu s !! i); [|done]. simpl in Hc. injection Hc as <-. exists a. done.
  Qed.

  Lemma gradient_at s s' i p :
    modify_by_gradient s = Some s' -> cParts s !! i = Some p ->
    if is_newton (pT p) then exists a, grad_value s i p = Some a /\ cParts s' !! i = Some (kicked (eDt (cEnv s)) a p)
    else cParts s' !! i = Some p.
  Proof.
    unfold modify_by_gradient. intros H Hp.
    destruct (run_loop (grad_loop cfg wm) _ s) as [s1|] eqn:E; [|done]. cbn [mbind option_bind] in H.
    pose proof (grad_rest _ _ _ E) as Hs1.
    assert (cParts s1 !! i = Some p) as Hp1 by (by rewrite Hs1).
    pose proof (kick_at _ _ i p H Hp1) as Hk.
    destruct (is_newton (pT p)) eqn:HT; [|done]. apply is_newton_true in HT.
    destruct (grad_at s s1 i p E Hp HT) as (a & Ha & Hdu). destruct Hk as (a' & Ha' & Hk).
    rewrite Hdu in Ha'. injection Ha' as <-. exists a. split; [done|]. rewrite Hk. by rewrite Hs1.
  Qed.
  Lemma gradient_rest s s' : modify_by_gradient s = Some s' -> s' = with_parts (with_du s (cDu s')) (cParts s').
  Proof.
    unfold modify_by_gradient. intros H.
    destruct (run_loop (grad_loop cfg wm) _ s) as [s1|] eqn:E; [|done]. cbn [mbind option_bind] in H.
    apply grad_rest in E. apply kick_rest in H. rewrite H at 1. rewrite E at 1. rewrite H. done.
  Qed.

  Definition ds_value (s : computer) i p : option V :=
    let env := cEnv s in
    let dd := eL0 env -. eMaxDx env in
    x0 ← cOrigX s !! i;
    a ← acc s i (Some vzero) (ds_plus cfg) (ds_func s x0 (pX p) (dd ×. dd));
    a ← a;
    Some ((nofZ (-1) /. (nofZ 2 ×. eDt env ×. eN0 env)) *^ a).
  Lemma ds_at s s' i p :
    run_loop (ds_loop cfg wm) (psize s) s = Some s' -> cParts s !! i = Some p -> pT p = Newton ->
    exists a, ds_value s i p = Some a /\ cDu s' !! i = Some a.
  Proof.
    intros Hr Hp HT.
    destruct (run_loop_at (ds_loop cfg wm) ds_indep (fun s => cDu s !! i)
      (fun v o => match v with Some e => (fun _ => e) <$> o | None => o end)
      i (psize s) s s') as (v & Hc & He); [| | |done|].
    - intros [e|] s0; simpl; [apply list_upd|done].
    - intros j [e|] s0 Hj; simpl; [|done]. by rewrite list_lookup_insert_ne by done.
    - by eapply lookup_lt_Some.
    - simpl in Hc. rewrite Hp in Hc. cbn [mbind option_bind] in Hc. rewrite HT in Hc. cbn [is_newton] in Hc.
      unfold ds_value. cbv zeta in Hc |- *. destruct (cOrigX s !! i) as [x0|]; [|done]. cbn [mbind option_bind] in Hc |- *.
      destruct (acc s i _ _ _) as [[a|]|]; try done. cbn [mbind option_bind] in Hc |- *.
      destruct (cDu s !! i); [|done]. simpl in Hc. injection Hc as <-. eauto.
  Qed.
  Lemma stabilize_at s s' i p :
    stabilize s = Some s' -> cParts s !! i = Some p ->
    if is_newton (pT p) then exists a, ds_value s i p = Some a /\ cParts s' !! i = Some (kicked (eDt (cEnv s)) a p)
    else cParts s' !! i = Some p.
  Proof.
    unfold stabilize. intros H Hp.
    destruct (run_loop (ds_loop cfg wm) _ s) as [s1|] eqn:E; [|done]. cbn [mbind option_bind] in H.
    pose proof (ds_rest _ _ _ E) as Hs1.
    assert (cParts s1 !! i = Some p) as Hp1 by (by rewrite Hs1).
    pose proof (kick_at _ _ i p H Hp1) as Hk.
    destruct (is_newton (pT p)) eqn:HT; [|done]. apply is_newton_true in HT.
    destruct (ds_at s s1 i p E Hp HT) as (a & Ha & Hdu). destruct Hk as (a' & Ha' & Hk).
    rewrite Hdu in Ha'. injection Ha' as <-. exists a. split; [done|]. rewrite Hk. by rewrite Hs1.
  Qed.
  Lemma stabilize_rest s s' : stabilize s = Some s' -> s' = with_parts (with_du s (cDu s')) (cParts s').
  Proof.
    unfold stabilize. intros H.
    destruct (run_loop (ds_loop cfg wm) _ s) as [s1|] eqn:E; [|done]. cbn [mbind option_bind] in H.
    apply ds_rest in E. apply kick_rest in H. rewrite H at 1. rewrite E at 1. rewrite H. done.
  Qed.

  (** ** Whole implicit phase *)
  Record implicit_trace (s s1 s2 s3 s' : computer) : Prop := {
    it_ppe : set_ppe s = Some s1;
    it_solve : s2 = with_ppe s1 (cA s1) (cg_solve (cA s1) (cXv s1) (cBv s1) (cEps s1)).1 (cBv s1);
    it_conv : (cg_solve (cA s1) (cXv s1) (cBv s1) (cEps s1)).2 = true;
    it_assign : run_loop (assign_loop cfg wm) (psize s2) s2 = Some s3;
    it_grad : modify_by_gradient s3 = Some s';
  }.
  Lemma implicit_Done s s' : compute_implicit s = Done s' -> cExplicit cfg = false ->
    exists s1 s2 s3, implicit_trace s s1 s2 s3 s'.
  Proof.
    unfold compute_implicit. intros H Hx. rewrite Hx in H.
    apply obind_Done in H as (s3 & H & H4). apply obind_Done in H as (s2 & H & H3). apply obind_Done in H as (s1 & H1 & H2).
    apply of_opt_Done in H1, H3, H4. unfold solve_ppe in H2.
    destruct (cg_solve _ _ _ _).2 eqn:E; [|done]. injection H2 as <-.
    exists s1. eexists. exists s3. by split.
  Qed.
  Lemma implicit_Done_explicit s s' : compute_implicit s = Done s' -> cExplicit cfg = true ->
    exists s1, run_loop (explicit_loop cfg wm) (psize s) s = Some s1 /\ modify_by_gradient s1 = Some s'.
  Proof.
    unfold compute_implicit. intros H Hx. rewrite Hx in H.
    apply obind_Done in H as (s1 & H & H4). apply of_opt_Done in H, H4. eauto.
  Qed.

  (** Position, velocity and type of non-fluid particles survive the implicit phase;
      fluid particles get a kick; N is untouched. *)
  Lemma implicit_at s s' i p :
    compute_implicit s = Done s' -> cParts s !! i = Some p ->
    exists P, if is_newton (pT p)
      then exists a, cParts s' !! i = Some (kicked (eDt (cEnv s)) a (set_P P p))
      else cParts s' !! i = Some (set_P P p).
  Proof.
    intros H Hp. destruct (cExplicit cfg) eqn:Hx.
    - destruct (implicit_Done_explicit s s' H Hx) as (s1 & H1 & H2).
      pose proof (explicitp_at _ _ _ _ H1 Hp) as Hp1. pose proof (explicitp_rest _ _ _ H1) as Hr1.
      pose proof (gradient_at _ _ _ _ H2 Hp1) as Hk. simpl in Hk. eexists.
      destruct (is_newton (pT p)); [|exact Hk]. destruct Hk as (a & _ & Hk). exists a. rewrite Hk. by rewrite Hr1.
    - destruct (implicit_Done s s' H Hx) as (s1 & s2 & s3 & [H1 H2 H3 H4 H5]).
      assert (cParts s2 !! i = Some p) as Hp2.
      { rewrite H2. simpl. by rewrite (set_ppe_rest _ _ H1). }
      assert (eDt (cEnv s3) = eDt (cEnv s)) as Hdt.
      { rewrite (assign_rest _ _ _ H4). simpl. rewrite H2. simpl. by rewrite (set_ppe_rest _ _ H1). }
      pose proof (assign_at _ _ _ _ H4 Hp2) as Ha.
      assert (exists P, cParts s3 !! i = Some (set_P P p)) as (P & Hp3).
      { destruct (is_active (pT p)); [destruct Ha as (x & _ & Ha); eauto|]. exists (pP p). rewrite Ha. by destruct p. }
      pose proof (gradient_at _ _ _ _ H5 Hp3) as Hk. simpl in Hk. exists P.
      destruct (is_newton (pT p)); [|exact Hk]. destruct Hk as (a & _ & Hk). exists a. rewrite Hk. by rewrite Hdt.
  Qed.
End Point.

(** Parallel loops: every execution gives the result of the sequential loop. *)
From Verif Require Export M_Par P_Indep.

Section Par.
  Context {N : num} {cfg : config} {wm : wallmotion N (cDim cfg)}.
  Notation d := (cDim cfg).
  Notation part := (particle N d).
  Notation computer := (computer cfg wm).
  Implicit Types (s : computer).

  Lemma same_at_refl l s : same_at l s s.
  Proof. destruct l; simpl; try done. Qed.
  Lemma same_at_sym l s s' : same_at l s s' -> same_at l s' s.
  Proof. destruct l; simpl; try by intros ->. intuition congruence. Qed.
  Lemma same_at_trans l s s' s'' : same_at l s s' -> same_at l s' s'' -> same_at l s s''.
  Proof. destruct l; simpl; try (intros ->; intros ->; done). intuition congruence. Qed.

  Lemma parts_ext (l l' : list part) :
    (forall j, pX <$> l !! j = pX <$> l' !! j) -> (forall j, pU <$> l !! j = pU <$> l' !! j) ->
    (forall j, pP <$> l !! j = pP <$> l' !! j) -> (forall j, pN <$> l !! j = pN <$> l' !! j) ->
    (forall j, pT <$> l !! j = pT <$> l' !! j) -> l = l'.
  Proof.
    intros H1 H2 H3 H4 H5. apply list_eq. intros j.
    specialize (H1 j); specialize (H2 j); specialize (H3 j); specialize (H4 j); specialize (H5 j).
    destruct (l !! j) as [[]|], (l' !! j) as [[]|]; simpl in *; congruence.
  Qed.

  Lemma same_at_ext s s' : (forall l, same_at l s s') -> s = s'.
  Proof.
    intros H. pose proof (H LRest) as (H1 & H2 & H3 & H4 & _).
    destruct s as [ps e g nb a xv bv ep du ec ox nw w], s' as [ps' e' g' nb' a' xv' bv' ep' du' ec' ox' nw' w'].
    simpl in *. subst. f_equal.
    - apply parts_ext; intros j; [apply (H (LX j))|apply (H (LU j))|apply (H (LP j))|apply (H (LN j))|apply (H (LT j))].
    - apply list_eq; intros j; apply (H (LRow j)).
    - apply list_eq; intros j; apply (H (LA j)).
    - apply list_eq; intros j; apply (H (LXv j)).
    - apply list_eq; intros j; apply (H (LBv j)).
    - apply list_eq; intros j; apply (H (LDu j)).
    - apply list_eq; intros j; apply (H (LEcs j)).
    - apply list_eq; intros j; apply (H (LOrig j)).
    - apply list_eq; intros j; apply (H (LNws j)).
  Qed.

  (** What makes a loop deterministic: no iteration's result depends on another's locations, no
      location has two writers, and writes stay within their locations. *)
  Record race_free {V} (L : ploop computer V) (W : nat -> list loc) : Prop := {
    rf_view : forall i s view,
      (forall l, same_at l view s \/ exists j, j <> i /\ l ∈ W j) -> l_compute L view i = l_compute L s i;
    rf_disj : forall i j l, l ∈ W i -> l ∈ W j -> i = j;
    rf_frame : forall i v s l, l ∉ W i -> same_at l (l_write L i v s) s;
    rf_local : forall i v s s' l, l ∈ W i -> same_at LRest s s' -> (forall l, l ∈ W i -> same_at l s s') ->
      same_at l (l_write L i v s) (l_write L i v s');
    rf_rest : forall i, LRest ∉ W i
  }.

  Section Loop.
    Context {V : Type} (L : ploop computer V) (W : nat -> list loc) (n : nat) (HL : race_free L W).

    Lemma owner l : (exists j, (j < n)%nat /\ l ∈ W j) \/ ~ exists j, (j < n)%nat /\ l ∈ W j.
    Proof.
      destruct (decide (Exists (fun j => l ∈ W j) (seq 0 n))) as [H|H].
      - left. apply Exists_exists in H as (j & Hj%elem_of_seq & Hl). exists j. split; [lia|done].
      - right. intros (j & Hj & Hl). apply H. apply Exists_exists. exists j. rewrite elem_of_seq. split; [lia|done].
    Qed.

    Lemma sees_compute i s view : sees W n i s view -> l_compute L view i = l_compute L s i.
    Proof. intros H. apply (rf_view L W HL). intros l. destruct (H l) as [|(j & ? & ? & ?)]; eauto. Qed.

    Definition pinv (s0 : computer) (c : list (status cfg wm) * computer) : Prop :=
      length c.1 = n /\
      (forall l, (forall i, (i < n)%nat -> l ∉ W i) -> same_at l c.2 s0) /\
      (forall i, c.1 !! i = Some (Waiting (wm := wm)) -> forall l, l ∈ W i -> same_at l c.2 s0) /\
      (forall i tg, c.1 !! i = Some (Writing tg) -> exists v, l_compute L s0 i = Some v /\
         forall l, l ∈ W i -> same_at l tg (l_write L i v s0) /\ (same_at l c.2 s0 \/ same_at l c.2 tg)) /\
      (forall i, c.1 !! i = Some (Over (wm := wm)) -> exists v, l_compute L s0 i = Some v /\
         forall l, l ∈ W i -> same_at l c.2 (l_write L i v s0)).

    Lemma pinv_view s0 t s i : pinv s0 (t, s) -> t !! i = Some (Waiting (wm := wm)) -> l_compute L s i = l_compute L s0 i.
    Proof.
      intros (Hn & Hrest & Hwait & _) Hi. simpl in *. apply (rf_view L W HL). intros l.
      destruct (owner l) as [(j & Hj & Hl)|Hno].
      - destruct (decide (j = i)) as [->|Hne]; [left; by apply (Hwait i)|right; eauto].
      - left. apply Hrest. intros j Hj Hl. apply Hno. eauto.
    Qed.

    Lemma pinv_step s0 c c' : pinv s0 c -> par_step L W n c c' -> pinv s0 c'.
    Proof.
      intros Hinv Hstep. destruct Hstep as [t s i view v Hi Hsee Hc|t s i tg s' Hi Hw|t s i tg Hi Hw].
      - assert (l_compute L s0 i = Some v) as Hv.
        { rewrite <- (pinv_view s0 t s i) by done. by rewrite <- (sees_compute i s view). }
        destruct Hinv as (Hn & Hrest & Hwait & Hwr & Hov). simpl in *.
        split; [simpl; by rewrite insert_length|]. split; [done|]. simpl.
        split; [|split].
        + intros j Hj. destruct (decide (i = j)) as [<-|Hne]; [|rewrite list_lookup_insert_ne in Hj by done; eauto].
          rewrite list_lookup_insert in Hj by (by eapply lookup_lt_Some). done.
        + intros j tg Hj. destruct (decide (i = j)) as [<-|Hne]; [|rewrite list_lookup_insert_ne in Hj by done; eauto].
          rewrite list_lookup_insert in Hj by (by eapply lookup_lt_Some). injection Hj as <-.
          exists v. split; [done|]. intros l Hl. split; [|left; by apply (Hwait i)].
          apply (rf_local L W HL); [done| |by apply Hwait].
          apply Hrest. intros j _. apply (rf_rest L W HL).
        + intros j Hj. destruct (decide (i = j)) as [<-|Hne]; [|rewrite list_lookup_insert_ne in Hj by done; eauto].
          rewrite list_lookup_insert in Hj by (by eapply lookup_lt_Some). done.
      - destruct Hinv as (Hn & Hrest & Hwait & Hwr & Hov). simpl in *.
        assert (forall l, l ∉ W i -> same_at l s' s) as Hsame.
        { intros l Hl. destruct (Hw l) as [|[? _]]; done. }
        assert (forall j l, j <> i -> l ∈ W j -> same_at l s' s) as Hoth.
        { intros j l Hne Hl. apply Hsame. intros Hl'. apply Hne. by eapply (rf_disj L W HL). }
        split; [done|]. split; [|split; [|split]]; simpl.
        + intros l Hl. eapply same_at_trans; [apply Hsame, Hl|by apply Hrest]. apply lookup_lt_Some in Hi. lia.
        + intros j Hj l Hl. assert (j <> i) as Hne by (intros ->; congruence).
          eapply same_at_trans; [by eapply Hoth|by eapply Hwait].
        + intros j tg' Hj. destruct (Hwr j tg' Hj) as (v & Hv & Hl). exists v. split; [done|]. intros l Hlj.
          destruct (Hl l Hlj) as [H1 H2]. split; [done|].
          destruct (decide (j = i)) as [->|Hne].
          * replace tg' with tg by congruence. destruct (Hw l) as [Hs|[_ Hs]]; [|by right].
            assert (tg' = tg) as -> by congruence.
            destruct H2; [left|right]; by eapply same_at_trans.
          * pose proof (Hoth j l Hne Hlj) as Hs. destruct H2; [left|right]; by eapply same_at_trans.
        + intros j Hj. assert (j <> i) as Hne by (intros ->; congruence).
          destruct (Hov j Hj) as (v & Hv & Hl). exists v. split; [done|]. intros l Hlj.
          eapply same_at_trans; [by eapply Hoth|by apply Hl].
      - destruct Hinv as (Hn & Hrest & Hwait & Hwr & Hov). simpl in *.
        split; [simpl; by rewrite insert_length|]. split; [done|]. simpl.
        split; [|split].
        + intros j Hj. destruct (decide (i = j)) as [<-|Hne]; [|rewrite list_lookup_insert_ne in Hj by done; eauto].
          rewrite list_lookup_insert in Hj by (by eapply lookup_lt_Some). done.
        + intros j tg' Hj. destruct (decide (i = j)) as [<-|Hne]; [|rewrite list_lookup_insert_ne in Hj by done; eauto].
          rewrite list_lookup_insert in Hj by (by eapply lookup_lt_Some). done.
        + intros j Hj. destruct (decide (i = j)) as [<-|Hne]; [|rewrite list_lookup_insert_ne in Hj by done; eauto].
          destruct (Hwr i tg Hi) as (v & Hv & Hl). exists v. split; [done|]. intros l Hl'.
          eapply same_at_trans; [by apply Hw|by apply Hl].
    Qed.

    Lemma pinv_init s0 : pinv s0 (replicate n (Waiting (wm := wm)), s0).
    Proof.
      split; [simpl; by rewrite replicate_length|]. split; [intros; apply same_at_refl|]. simpl.
      split; [intros; apply same_at_refl|]. split; intros i *; rewrite lookup_replicate; naive_solver.
    Qed.

    Lemma pinv_reach s0 c : rtc (par_step L W n) (replicate n (Waiting (wm := wm)), s0) c -> pinv s0 c.
    Proof.
      intros H. refine (rtc_ind_r (fun c => pinv s0 c) _ (pinv_init s0) _ c H). intros; by eapply pinv_step.
    Qed.

    Lemma par_loop_det s0 r r' : par_loop L W n s0 r -> par_loop L W n s0 r' -> r = r'.
    Proof.
      assert (forall s, par_loop L W n s0 (Some s) ->
        (forall i, (i < n)%nat -> exists v, l_compute L s0 i = Some v /\ forall l, l ∈ W i -> same_at l s (l_write L i v s0)) /\
        (forall l, (forall i, (i < n)%nat -> l ∉ W i) -> same_at l s s0)) as Hsome.
      { intros s H. inversion H as [t ? Hr Ht|]; subst. apply pinv_reach in Hr as (Hn & Hrest & _ & _ & Hov). simpl in *.
        split; [|done]. intros i Hi. rewrite <- Hn in Hi. apply lookup_lt_is_Some in Hi as [st Hst].
        apply Hov. rewrite Hst. f_equal. by eapply Ht. }
      assert (par_loop L W n s0 None -> exists i, (i < n)%nat /\ l_compute L s0 i = None) as Hnone.
      { intros H. inversion H as [|t s i view Hr Hi Hs Hc]; subst. apply pinv_reach in Hr as Hinv. exists i.
        split; [rewrite <- (proj1 Hinv); by eapply lookup_lt_Some|].
        rewrite <- (pinv_view s0 t s i) by done. by rewrite <- (sees_compute i s view). }
      intros H H'. destruct r as [s|], r' as [s'|]; try done.
      - f_equal. destruct (Hsome s H) as [Ha Hb], (Hsome s' H') as [Ha' Hb']. apply same_at_ext. intros l.
        destruct (owner l) as [(j & Hj & Hl)|Hno].
        + destruct (Ha j Hj) as (v & Hv & Hs), (Ha' j Hj) as (v' & Hv' & Hs').
          assert (v' = v) as -> by congruence.
          eapply same_at_trans; [by apply Hs|apply same_at_sym; by apply Hs'].
        + assert (forall i, (i < n)%nat -> l ∉ W i) as Hl by (intros i Hi Hl; apply Hno; eauto).
          eapply same_at_trans; [by apply Hb|apply same_at_sym; by apply Hb'].
      - destruct (Hnone H') as (i & Hi & Hc). destruct (proj1 (Hsome s H) i Hi) as (v & Hv & _). congruence.
      - destruct (Hnone H) as (i & Hi & Hc). destruct (proj1 (Hsome s' H') i Hi) as (v & Hv & _). congruence.
    Qed.

    Lemma sees_refl i s : sees W n i s s.
    Proof. intros l. left. apply same_at_refl. Qed.

    Lemma par_iteration k s v : (k < n)%nat -> l_compute L s k = Some v ->
      rtc (par_step L W n)
        (replicate k (Over (wm := wm)) ++ replicate (n - k) (Waiting (wm := wm)), s)
        (replicate (S k) (Over (wm := wm)) ++ replicate (n - S k) (Waiting (wm := wm)), l_write L k v s).
    Proof.
      intros Hk Hv.
      assert (replicate (n - k) (Waiting (wm := wm)) = Waiting :: replicate (n - S k) Waiting) as ->.
      { replace (n - k)%nat with (S (n - S k)) by lia. done. }
      assert (forall a (b b' : status cfg wm) c, <[length a := b']> (a ++ b :: c) = a ++ b' :: c) as Hins.
      { intros a b b' c. rewrite <- (Nat.add_0_r (length a)). by rewrite insert_app_r. }
      set (pre := replicate k (Over (wm := wm))) in *.
      assert (length pre = k) as Hpre by apply replicate_length.
      assert (forall b c, (pre ++ b :: c) !! k = Some b) as Hat.
      { intros b c. rewrite <- Hpre. by apply list_lookup_middle. }
      eapply rtc_l.
      { apply (par_read L W n _ s k s v); [apply Hat|apply sees_refl|done]. }
      rewrite <- Hpre at 1. rewrite Hins.
      eapply rtc_l.
      { apply (par_write L W n _ s k (l_write L k v s) (l_write L k v s)); [apply Hat|].
        intros l. destruct (decide (l ∈ W k)) as [Hl|Hl]; [right; split; [done|apply same_at_refl]|].
        left. by apply (rf_frame L W HL). }
      eapply rtc_l.
      { eapply (par_over L W n _ _ k); [apply Hat|]. intros; apply same_at_refl. }
      rewrite <- Hpre at 1. rewrite Hins.
      replace (pre ++ Over :: replicate (n - S k) Waiting)
        with (replicate (S k) (Over (wm := wm)) ++ replicate (n - S k) (Waiting (wm := wm))); [apply rtc_refl|].
      rewrite replicate_S_end, <- app_assoc. done.
    Qed.

    Lemma par_loop_seq s0 : par_loop L W n s0 (run_loop L n s0).
    Proof.
      assert (forall k s, (k <= n)%nat ->
        rtc (par_step L W n) (replicate n (Waiting (wm := wm)), s0)
          (replicate k (Over (wm := wm)) ++ replicate (n - k) (Waiting (wm := wm)), s) ->
        par_loop L W n s0 (foldM (l_body L) s (seq k (n - k)))) as Hgen.
      { intros k s Hk. remember (n - k)%nat as m eqn:Hm. revert k s Hk Hm.
        induction m as [|m IH]; intros k s Hk Hm Hr.
        - simpl. eapply par_done; [exact Hr|]. rewrite app_nil_r. intros i st. rewrite lookup_replicate. naive_solver.
        - simpl. unfold l_body at 1. destruct (l_compute L s k) as [v|] eqn:Hv.
          + apply IH; [lia|lia|]. etrans; [exact Hr|].
            replace m with (n - S k)%nat by lia. replace (S (n - S k)) with (n - k)%nat by lia.
            apply par_iteration; [lia|done].
          + eapply par_undef; [exact Hr| |apply sees_refl|done].
            rewrite lookup_app_r by (rewrite replicate_length; lia). rewrite replicate_length, Nat.sub_diag. done. }
      unfold run_loop. replace (seq 0 n) with (seq 0 (n - 0)) by (f_equal; lia).
      apply Hgen; [lia|]. simpl. rewrite Nat.sub_0_r. apply rtc_refl.
    Qed.

    Lemma par_loop_iff s0 r : par_loop L W n s0 r <-> r = run_loop L n s0.
    Proof.
      split; [intros H; eapply par_loop_det; [exact H|apply par_loop_seq]|]. intros ->. apply par_loop_seq.
    Qed.
  End Loop.
End Par.

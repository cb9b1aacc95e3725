(** The neighbour search (any arithmetic). *)
From Verif Require Export P_Grid P_Indep.
From Coq Require Import ZifyBool.

Section Search.
  Context {N : num} {cfg : config} {wm : wallmotion N (cDim cfg)}.
  Notation d := (cDim cfg).
  Notation V := (vec N d).
  Notation part := (particle N d).
  Notation grid := (grid N d).
  Notation computer := (computer cfg wm).

  (** same geometry *)
  Definition same_geom (g g' : grid) : Prop :=
    g_len d g' = g_len d g /\ g_origin d g' = g_origin d g /\ g_shape d g' = g_shape d g /\ g_cap d g' = g_cap d g.
  Lemma is_empty_like_geom g g' : is_empty_like g g' -> same_geom g g'.
  Proof. unfold is_empty_like, same_geom. tauto. Qed.
  Lemma same_geom_trans g1 g2 g3 : same_geom g1 g2 -> same_geom g2 g3 -> same_geom g1 g3.
  Proof. unfold same_geom. intuition congruence. Qed.
  Lemma same_geom_refl g : same_geom g g.
  Proof. by repeat split. Qed.
  Lemma same_geom_block g g' x : same_geom g g' -> block_of d g' x = block_of d g x.
  Proof.
    intros (H1 & H2 & H3 & H4). unfold block_of. apply mapM_ext. intros k. unfold block_axis. by rewrite H1, H2.
  Qed.

  Definition in_grid (g : grid) (x : V) : bool :=
    match block_of d g x with Some b => in_range (g_shape d g) b | None => false end.
  Lemma same_geom_in_grid g g' x : same_geom g g' -> in_grid g' x = in_grid g x.
  Proof. intros H. unfold in_grid. rewrite (same_geom_block g g') by done. by destruct H as (_ & _ & -> & _). Qed.

  (** Effect of the registration on a particle. *)
  Definition leave (g : grid) (p : part) : part :=
    if is_disabled (pT p) then p else if in_grid g (pX p) then p else disable p.

  (** Block in which particle [j] of [ps] is registered. *)
  Definition home (g : grid) (ps : list part) (j : nat) (k : list Z) : bool :=
    match ps !! j with
    | Some p => negb (is_disabled (pT p)) && bool_decide (block_of d g (pX p) = Some k) && in_range (g_shape d g) k
    | None => false
    end.

  Lemma home_Some g ps j k :
    home g ps j k = true <->
    exists p, ps !! j = Some p /\ is_disabled (pT p) = false /\ block_of d g (pX p) = Some k /\ in_range (g_shape d g) k = true.
  Proof.
    unfold home. destruct (ps !! j) as [p|].
    - rewrite !andb_true_iff, bool_decide_eq_true, negb_true_iff. naive_solver.
    - naive_solver.
  Qed.

  Definition bfilter {A} (f : A -> bool) (l : list A) : list A := filter (fun a => f a = true) l.

  (** State after registering the particles below [m]. *)
  Definition stored_upto (s0 : computer) (m : nat) (s : computer) : Prop :=
    grid_wf (cGrid s) /\ counts_ok (cGrid s) /\ same_geom (cGrid s0) (cGrid s) /\
    (forall k, contents (cGrid s) k = bfilter (fun j => home (cGrid s0) (cParts s0) j k) (seq 0 m)) /\
    s = with_parts (with_grid s0 (cGrid s))
          (imap (fun i p => if (i <? m)%nat then leave (cGrid s0) p else p) (cParts s0)).

  Lemma bfilter_seq_S (f : nat -> bool) m :
    bfilter f (seq 0 (S m)) = bfilter f (seq 0 m) ++ (if f m then [m] else []).
  Proof.
    unfold bfilter. rewrite seq_S, filter_app. simpl. f_equal.
    destruct (f m) eqn:E; [by rewrite filter_cons_True|]. rewrite filter_cons_False by congruence. done.
  Qed.

  Lemma leave_imap_S (g : grid) (ps : list part) m p :
    ps !! m = Some p ->
    imap (fun i p => if (i <? S m)%nat then leave g p else p) ps
    = <[m := leave g p]> (imap (fun i p => if (i <? m)%nat then leave g p else p) ps).
  Proof.
    intros Hp. apply list_eq. intros i. rewrite list_lookup_imap.
    destruct (decide (i = m)) as [->|Hne].
    - rewrite list_lookup_insert by (rewrite imap_length; by eapply lookup_lt_Some).
      rewrite Hp. simpl. by rewrite (proj2 (Nat.ltb_lt m (S m))) by lia.
    - rewrite list_lookup_insert_ne, list_lookup_imap by done.
      destruct (ps !! i); [|done]. simpl. f_equal.
      destruct (Nat.ltb_spec i (S m)), (Nat.ltb_spec i m); try done; lia.
  Qed.

  Lemma leave_imap_same (g : grid) (ps : list part) m p :
    ps !! m = Some p -> leave g p = p ->
    imap (fun i p => if (i <? S m)%nat then leave g p else p) ps
    = imap (fun i p => if (i <? m)%nat then leave g p else p) ps.
  Proof.
    intros Hp Hl. rewrite (leave_imap_S g ps m p Hp), Hl. apply list_insert_id.
    rewrite list_lookup_imap, Hp. simpl. by rewrite Nat.ltb_irrefl.
  Qed.

  (** Outcome of the registration phase. *)
  Definition store_outcome (s0 : computer) (m0 m : nat) (o : outcome computer) : Prop :=
    match o with
    | Done s => stored_upto s0 m s
    | Throw e s => e = TooManyParticles /\ exists m' k, (m0 <= m' < m)%nat /\
        length (bfilter (fun j => home (cGrid s0) (cParts s0) j k) (seq 0 m')) = g_cap d (cGrid s0) /\
        home (cGrid s0) (cParts s0) m' k = true /\
        grid_wf (cGrid s) /\ same_geom (cGrid s0) (cGrid s) /\
        s = with_parts (with_grid s0 (cGrid s))
              (imap (fun i p => if (i <? m')%nat then leave (cGrid s0) p else p) (cParts s0))
    | Undef => exists i p, cParts s0 !! i = Some p /\ is_disabled (pT p) = false /\ block_of d (cGrid s0) (pX p) = None
    end.

  Lemma store_one_spec s0 m s :
    (m < psize s0)%nat -> stored_upto s0 m s -> store_outcome s0 m (S m) (store_one s m).
  Proof.
    intros Hm (Hg & Hc & Hgeo & Hcont & Hs). unfold store_one.
    destruct (lookup_lt_is_Some_2 (cParts s0) m Hm) as [p Hp].
    assert (cParts s !! m = Some p) as ->.
    { rewrite Hs. simpl. rewrite list_lookup_imap, Hp. simpl. by rewrite Nat.ltb_irrefl. }
    destruct (is_disabled (pT p)) eqn:Hd.
    { simpl. split; [done|]. split; [done|]. split; [done|]. split.
      - intros k. rewrite bfilter_seq_S, Hcont. unfold home at 3. rewrite Hp, Hd. simpl. by rewrite app_nil_r.
      - rewrite Hs at 1. simpl. f_equal. symmetry. apply leave_imap_same with p; [done|]. unfold leave. by rewrite Hd. }
    destruct (store_correct (cGrid s) (pX p) m Hg Hc) as [Hb|b Hb Hr|b g' Hb Hr Hlen Hg' He|b g' Hb Hr Hlen Hg' Hc' He Hcont'].
    - simpl. exists m, p. rewrite (same_geom_block (cGrid s0) (cGrid s)) in Hb by done. done.
    - rewrite (same_geom_block (cGrid s0) (cGrid s)) in Hb by done.
      assert (in_range (g_shape d (cGrid s0)) b = false) as Hr'.
      { destruct Hgeo as (_ & _ & Hsh & _). by rewrite <- Hsh. }
      assert (leave (cGrid s0) p = disable p) as Hlv.
      { unfold leave, in_grid. by rewrite Hd, Hb, Hr'. }
      simpl. split; [done|]. split; [done|]. split; [done|]. split.
      + intros k. rewrite bfilter_seq_S, Hcont.
        destruct (home _ _ m k) eqn:Hh; [|by rewrite app_nil_r].
        apply home_Some in Hh as (p' & Hp' & _ & Hb' & Hr''). exfalso; congruence.
      + rewrite (leave_imap_S _ _ m p Hp), Hlv. rewrite Hs. done.
    - rewrite (same_geom_block (cGrid s0) (cGrid s)) in Hb by done.
      simpl. split; [done|]. exists m, b. split; [lia|].
      assert (in_range (g_shape d (cGrid s0)) b = true) as Hr'.
      { destruct Hgeo as (_ & _ & Hsh & _). by rewrite <- Hsh. }
      split; [rewrite <- Hcont, Hlen; apply Hgeo|].
      split; [apply home_Some; eauto|]. split; [done|].
      split; [eapply same_geom_trans; [done|by apply is_empty_like_geom]|].
      rewrite Hs at 1. done.
    - rewrite (same_geom_block (cGrid s0) (cGrid s)) in Hb by done.
      assert (in_range (g_shape d (cGrid s0)) b = true) as Hr'.
      { destruct Hgeo as (_ & _ & Hsh & _). by rewrite <- Hsh. }
      assert (leave (cGrid s0) p = p) as Hlv.
      { unfold leave, in_grid. by rewrite Hd, Hb, Hr'. }
      simpl. split; [done|]. split; [done|].
      split; [eapply same_geom_trans; [done|by apply is_empty_like_geom]|]. split.
      + intros k. rewrite Hcont', bfilter_seq_S. destruct (decide (k = b)) as [->|Hne].
        * rewrite Hcont. f_equal. assert (home (cGrid s0) (cParts s0) m b = true) as -> by (apply home_Some; eauto). done.
        * rewrite Hcont. destruct (home _ _ m k) eqn:Hh; [|by rewrite app_nil_r].
          apply home_Some in Hh as (p' & Hp' & _ & Hb' & Hr''). exfalso; congruence.
      + rewrite (leave_imap_same _ _ m p) by done. rewrite Hs at 1. done.
  Qed.

  Lemma store_all_spec s0 m k s :
    (m + k <= psize s0)%nat -> stored_upto s0 m s -> store_outcome s0 m (m + k) (store_all (seq m k) s).
  Proof.
    revert m s; induction k as [|k IH]; intros m s Hle Hs; simpl.
    { by rewrite Nat.add_0_r. }
    pose proof (store_one_spec s0 m s ltac:(lia) Hs) as H1.
    destruct (store_one s m) as [s1|e s1|]; simpl in *.
    - replace (m + S k)%nat with (S m + k)%nat by lia.
      specialize (IH (S m) s1 ltac:(lia) H1).
      destruct (store_all _ s1) as [s2|e s2|]; simpl in *; [done| |done].
      destruct IH as (-> & m' & b & Hm' & Hrest). split; [done|]. exists m', b. split; [lia|done].
    - destruct H1 as (-> & m' & b & Hm' & Hrest). split; [done|]. exists m', b. split; [lia|done].
    - done.
  Qed.

  Lemma stored_upto_0 s : grid_wf (cGrid s) -> counts_ok (cGrid s) -> (forall k, contents (cGrid s) k = []) ->
    stored_upto s 0 s.
  Proof.
    intros Hg Hc He. split; [done|]. split; [done|]. split; [apply same_geom_refl|]. split; [done|].
    destruct s; simpl in *. unfold with_parts, with_grid; simpl. f_equal.
    apply list_eq. intros i. rewrite list_lookup_imap. by destruct (_ !! i).
  Qed.

  (** ** Reading off the neighbours *)
  Definition near_test (s : computer) (i : nat) (p : part) (j : nat) : bool :=
    negb (j =? i)%nat &&
    match cParts s !! j with
    | Some q => negb (is_disabled (pT q)) && (dist (pX p) (pX q) <?. eNL (cEnv s))
    | None => false
    end.

  Lemma near_spec (s : computer) i p js :
    (forall j, j ∈ js -> (j < psize s)%nat) -> near s i p js = Some (bfilter (near_test s i p) js).
  Proof.
    induction js as [|j js IH]; intros Hjs; [done|]. simpl.
    assert (forall j, j ∈ js -> (j < psize s)%nat) as Hjs' by (intros; apply Hjs; by right).
    rewrite (IH Hjs'). unfold bfilter.
    destruct (Nat.eqb_spec j i) as [->|Hne].
    - rewrite filter_cons_False; [done|]. unfold near_test. rewrite Nat.eqb_refl. done.
    - destruct (lookup_lt_is_Some_2 (cParts s) j) as [q Hq]; [apply Hjs; left|]. rewrite Hq. simpl.
      assert (near_test s i p j = negb (is_disabled (pT q)) && (dist (pX p) (pX q) <?. eNL (cEnv s))) as Ht.
      { unfold near_test. rewrite Hq. by rewrite (proj2 (Nat.eqb_neq j i)). }
      destruct (is_disabled (pT q)); simpl in Ht; [rewrite filter_cons_False by congruence; done|].
      destruct (_ <?. _); [rewrite filter_cons_True by done|rewrite filter_cons_False by congruence]; done.
  Qed.

  (** ** The whole search *)
  (** Structural invariant of the computer's state (array extents). *)
  Record wf (s : computer) : Prop := {
    wf_grid : grid_wf (cGrid s);
    wf_nrows : length (cNeighbor s) = psize s;
    wf_row : forall i row, cNeighbor s !! i = Some row -> length row = row_len s;
    wf_list : forall i row, cNeighbor s !! i = Some row ->
      exists js, neighbor_list s i = Some js /\ Forall (fun j => (j < psize s)%nat) js;
    wf_du : length (cDu s) = psize s;
    wf_ecs : length (cEcs s) = psize s;
    wf_origx : length (cOrigX s) = psize s;
    wf_nws : length (cNws s) = psize s;
    wf_ax : length (cXv s) = length (cA s);
    wf_ab : length (cBv s) = length (cA s);
  }.

  Lemma elem_of_bfilter {A} (f : A -> bool) l a : a ∈ bfilter f l <-> f a = true /\ a ∈ l.
  Proof. unfold bfilter. by rewrite elem_of_list_filter. Qed.

  (** The list computed for particle [i] from state [s]. *)
  Definition found (s : computer) (i : nat) (p : part) : list nat :=
    match block_of d (cGrid s) (pX p) with
    | Some b => bfilter (near_test s i p) (around_contents (cGrid s) b)
    | None => []
    end.

  Lemma row_read (s : computer) i l rest :
    cNeighbor s !! i = Some (length l :: l ++ rest) -> neighbor_list s i = Some l.
  Proof.
    intros H. unfold neighbor_list. rewrite H. simpl.
    apply mapM_Some. apply Forall2_same_length_lookup_2; [by rewrite seq_length|].
    intros k x y Hx Hy. apply lookup_seq in Hx as [-> Hk]. simpl.
    by apply lookup_app_l_Some.
  Qed.

  (** The state right after registration, and the neighbour rows written afterwards. *)
  Record searched (s s' : computer) : Prop := {
    se_parts : cParts s' = leave (cGrid s) <$> cParts s;
    se_grid : grid_wf (cGrid s');
    se_counts : counts_ok (cGrid s');
    se_geom : same_geom (cGrid s) (cGrid s');
    se_contents : forall k, contents (cGrid s') k = bfilter (fun j => home (cGrid s) (cParts s) j k) (seq 0 (psize s));
    se_rest : s' = with_neighbor (with_grid (with_parts s (cParts s')) (cGrid s')) (cNeighbor s');
    se_rows : forall i p, cParts s' !! i = Some p -> is_disabled (pT p) = false ->
        exists row, cNeighbor s !! i = Some row /\ (1 + length (found s' i p) <= length row)%nat /\
        cNeighbor s' !! i = Some (length (found s' i p) :: found s' i p ++ drop (1 + length (found s' i p)) row);
    se_rows_dis : forall i p, cParts s' !! i = Some p -> is_disabled (pT p) = true -> cNeighbor s' !! i = cNeighbor s !! i;
    se_nrows : length (cNeighbor s') = length (cNeighbor s)
  }.

  Lemma home_of_enabled (s s' : computer) i p :
    cParts s' = leave (cGrid s) <$> cParts s -> cParts s' !! i = Some p -> is_disabled (pT p) = false ->
    cParts s !! i = Some p /\ exists b, block_of d (cGrid s) (pX p) = Some b /\ in_range (g_shape d (cGrid s)) b = true.
  Proof.
    intros Hps Hp Hd. rewrite Hps, list_lookup_fmap in Hp.
    destruct (cParts s !! i) as [p0|]; [|done]. simpl in Hp. injection Hp as <-.
    unfold leave in *. destruct (is_disabled (pT p0)) eqn:Hd0; [congruence|].
    unfold in_grid in *. destruct (block_of d (cGrid s) (pX p0)) as [b|] eqn:Eb; [|done].
    destruct (in_range _ b) eqn:Er; [|done]. eauto.
  Qed.

  Lemma around_contents_bound (s s' : computer) b j :
    (forall k, contents (cGrid s') k = bfilter (fun j => home (cGrid s) (cParts s) j k) (seq 0 (psize s))) ->
    j ∈ around_contents (cGrid s') b ->
    exists k, k ∈ neighbor_blocks (d := d) b /\ in_range (g_shape d (cGrid s')) k = true /\ home (cGrid s) (cParts s) j k = true /\ (j < psize s)%nat.
  Proof.
    intros Hcont Hj. unfold around_contents in Hj. apply elem_of_list_In, in_concat in Hj as (l & Hl & Hj).
    apply elem_of_list_In in Hl, Hj. apply elem_of_list_fmap in Hl as (k & -> & Hk).
    unfold cont in Hj. destruct (in_range _ k) eqn:Hr; [|by apply elem_of_nil in Hj].
    rewrite Hcont in Hj. apply elem_of_bfilter in Hj as [Hh Hj]. apply elem_of_seq in Hj.
    exists k. eauto with lia.
  Qed.

  Lemma search_spec (s : computer) :
    wf s -> clear_ok (cGrid s) ->
    match search_neighbor s with
    | Done s' => searched s s'
    | Throw e s' => e = TooManyParticles /\ grid_wf (cGrid s') /\ same_geom (cGrid s) (cGrid s') /\
        exists m k, (m < psize s)%nat /\
        (g_cap d (cGrid s) < length (bfilter (fun j => home (cGrid s) (cParts s) j k) (seq 0 (psize s))))%nat /\
        s' = with_parts (with_grid s (cGrid s'))
               (imap (fun i p => if (i <? m)%nat then leave (cGrid s) p else p) (cParts s))
    | Undef => (exists i p, cParts s !! i = Some p /\ is_disabled (pT p) = false /\ block_of d (cGrid s) (pX p) = None) /\
        forall g, clear d (cGrid s) = Some g -> store_all (seq 0 (psize s)) (with_grid s g) = Undef
    end.
  Proof.
    intros Hwf Hok. unfold search_neighbor.
    destruct (clear_spec (cGrid s) (wf_grid s Hwf) Hok) as (g & Hclr & Hg & Hgok & Hgc & Hge & Hgempty). rewrite Hclr.
    set (s0 := with_grid s g).
    pose proof (store_all_spec s0 0 (psize s) s0 ltac:(done) (stored_upto_0 s0 Hg Hgc Hgempty)) as Hst.
    assert (same_geom (cGrid s) g) as Hgeo by (by apply is_empty_like_geom).
    assert (forall j k, home g (cParts s) j k = home (cGrid s) (cParts s) j k) as Hhome.
    { intros j k. unfold home. destruct (cParts s !! j); [|done].
      rewrite (same_geom_block (cGrid s) g) by done. by destruct Hgeo as (_ & _ & -> & _). }
    assert (forall p, leave g p = leave (cGrid s) p) as Hleave.
    { intros p. unfold leave. by rewrite (same_geom_in_grid (cGrid s) g). }
    destruct (store_all (seq 0 (psize s)) s0) as [s1|e s1|] eqn:Hsa; simpl in Hst |- *.
    2:{ destruct Hst as (-> & m & k & Hm & Hcap & Hh & Hg1 & Hgeo1 & Hs1).
        split; [done|]. split; [done|]. split; [by eapply same_geom_trans|].
        exists m, k. split; [lia|]. split.
        - destruct Hgeo as (_ & _ & _ & <-). rewrite <- Hcap.
          replace (psize s) with (S m + (psize s - S m))%nat by lia.
          rewrite seq_app. unfold bfilter at 2. rewrite filter_app, app_length.
          change (filter _ (seq 0 (S m))) with (bfilter (fun j => home (cGrid s) (cParts s) j k) (seq 0 (S m))).
          rewrite bfilter_seq_S. rewrite <- Hhome, Hh, app_length. simpl.
          assert (bfilter (fun j => home g (cParts s) j k) (seq 0 m) = bfilter (fun j => home (cGrid s) (cParts s) j k) (seq 0 m)) as ->; [|lia].
          apply list_filter_iff. intros j. by rewrite Hhome.
        - rewrite Hs1 at 1. unfold s0, with_parts, with_grid; simpl. f_equal.
          apply imap_ext. intros i p _. destruct (_ <? _)%nat; [apply Hleave|done]. }
    2:{ destruct Hst as (i & p & Hp & Hd & Hb). split; [|intros g' [= <-]; exact Hsa]. exists i, p. split; [done|]. split; [done|].
        by rewrite <- (same_geom_block (cGrid s) g). }
    destruct Hst as (Hg1 & Hc1 & Hgeo1 & Hcont1 & Hs1).
    assert (same_geom (cGrid s) (cGrid s1)) as Hgeo' by (by eapply same_geom_trans).
    assert (cParts s1 = leave (cGrid s) <$> cParts s) as Hps1.
    { rewrite Hs1. simpl. apply list_eq. intros i. rewrite list_lookup_imap, list_lookup_fmap.
      destruct (cParts s !! i) as [p|] eqn:Ep; [|done]. simpl. rewrite Hleave.
      by rewrite (proj2 (Nat.ltb_lt i (psize s))) by (by eapply lookup_lt_Some). }
    assert (forall k, contents (cGrid s1) k = bfilter (fun j => home (cGrid s) (cParts s) j k) (seq 0 (psize s))) as Hcont.
    { intros k. rewrite Hcont1. apply list_filter_iff. intros j. simpl. by rewrite Hhome. }
    assert (psize s1 = psize s) as Hn by (unfold psize; by rewrite Hps1, fmap_length).
    assert (cNeighbor s1 = cNeighbor s) as Hnb by (by rewrite Hs1).
    assert (forall i p, cParts s1 !! i = Some p -> is_disabled (pT p) = false ->
      exists row, cNeighbor s !! i = Some row /\ (1 + length (found s1 i p) <= length row)%nat /\
        l_compute (neighbor_loop cfg wm) s1 i = Some (Some (found s1 i p))) as Hcomp.
    { intros i p Hp Hd. destruct (home_of_enabled s s1 i p Hps1 Hp Hd) as (Hp0 & b & Hb & Hr).
      destruct (lookup_lt_is_Some_2 (cNeighbor s) i) as [row Hrow].
      { rewrite (wf_nrows s Hwf). by eapply lookup_lt_Some. }
      assert (block_of d (cGrid s1) (pX p) = Some b) as Hb1 by (by rewrite (same_geom_block (cGrid s))).
      assert (in_range (g_shape d (cGrid s1)) b = true) as Hr1.
      { by destruct Hgeo' as (_ & _ & -> & _). }
      assert (1 + length (found s1 i p) <= length row)%nat as Hlen.
      { rewrite (wf_row s Hwf i row Hrow). unfold found. rewrite Hb1. unfold row_len.
        pose proof (around_contents_le (cGrid s1) b Hg1 Hc1 (block_length _ _ _ Hb1)) as Hle.
        unfold iter_fuel in Hle. destruct Hgeo' as (_ & _ & _ & Hcap). rewrite Hcap in Hle.
        pose proof (filter_length (fun j => near_test s1 i p j = true) (around_contents (cGrid s1) b)) as Hf.
        unfold bfilter. simpl. lia. }
      exists row. split; [done|]. split; [done|].
      simpl. rewrite Hp. simpl. rewrite Hd. rewrite (around_spec _ _ b) by done. simpl.
      rewrite near_spec.
      - simpl. rewrite Hnb, Hrow. simpl. unfold found in *. rewrite Hb1 in *.
        destruct (length row); [lia|].
        rewrite (proj2 (Nat.leb_le _ _)) by lia. done.
      - intros j Hj. destruct (around_contents_bound s s1 b j Hcont Hj) as (k & _ & _ & _ & Hjn). lia. }
    assert (is_Some (run_loop (neighbor_loop cfg wm) (psize s1) s1)) as [s2 Hs2].
    { apply run_loop_defined; [apply neighbor_indep|]. intros i Hi.
      destruct (lookup_lt_is_Some_2 (cParts s1) i Hi) as [p Hp].
      destruct (is_disabled (pT p)) eqn:Hd; [simpl; rewrite Hp; simpl; rewrite Hd; by eexists|].
      destruct (Hcomp i p Hp Hd) as (row & _ & _ & ->). by eexists. }
    rewrite Hs2. simpl.
    assert (s2 = with_neighbor s1 (cNeighbor s2)) as Hs2eq.
    { refine (run_loop_inv (neighbor_loop cfg wm) (fun s => s = with_neighbor s1 (cNeighbor s)) _ _ _ _ _ Hs2).
      - intros s3 i v _ H3 _. destruct v as [l|]; [|done]. simpl. rewrite H3 at 1. done.
      - by destruct s1. }
    assert (cParts s2 = cParts s1) as Hps2 by (by rewrite Hs2eq).
    assert (cGrid s2 = cGrid s1) as Hgr2 by (by rewrite Hs2eq).
    assert (cEnv s2 = cEnv s1) as Hen2 by (by rewrite Hs2eq).
    assert (forall i p, found s2 i p = found s1 i p) as Hfound.
    { intros i p. unfold found, near_test. by rewrite Hps2, Hgr2, Hen2. }
    split.
    - by rewrite Hps2.
    - by rewrite Hgr2.
    - by rewrite Hgr2.
    - by rewrite Hgr2.
    - by rewrite Hgr2.
    - rewrite Hs2eq at 1. rewrite Hps2, Hgr2.
      assert (forall a b : list part, a = b -> with_neighbor (with_parts (with_grid s0 (cGrid s1)) a) (cNeighbor s2)
        = with_neighbor (with_grid (with_parts s b) (cGrid s1)) (cNeighbor s2)) as Haux by (by intros a b ->).
      rewrite Hs1 at 1. apply Haux. by rewrite Hs1.
    - intros i p Hp Hd. rewrite Hps2 in Hp. rewrite !Hfound.
      destruct (Hcomp i p Hp Hd) as (row & Hrow & Hlen & Hc). exists row. split; [done|]. split; [done|].
      destruct (run_loop_at (neighbor_loop cfg wm) neighbor_indep (fun s => cNeighbor s !! i)
        (fun v o => match v with None => o | Some l => (fun row => length l :: l ++ drop (1 + length l) row) <$> o end)
        i (psize s1) s1 s2) as (v & Hv & He).
      + intros v s3. destruct v; [|done]. simpl. by rewrite list_lookup_alter.
      + intros j v s3 Hj. destruct v; [|done]. simpl. by rewrite list_lookup_alter_ne.
      + by eapply lookup_lt_Some.
      + done.
      + rewrite Hc in Hv. injection Hv as <-. rewrite He, Hnb, Hrow. done.
    - intros i p Hp Hd. rewrite Hps2 in Hp.
      destruct (run_loop_at (neighbor_loop cfg wm) neighbor_indep (fun s => cNeighbor s !! i)
        (fun v o => match v with None => o | Some l => (fun row => length l :: l ++ drop (1 + length l) row) <$> o end)
        i (psize s1) s1 s2) as (v & Hv & He).
      + intros v s3. destruct v; [|done]. simpl. by rewrite list_lookup_alter.
      + intros j v s3 Hj. destruct v; [|done]. simpl. by rewrite list_lookup_alter_ne.
      + by eapply lookup_lt_Some.
      + done.
      + simpl in Hv. rewrite Hp in Hv. simpl in Hv. rewrite Hd in Hv. injection Hv as <-. by rewrite He, Hnb.
    - rewrite <- Hnb.
      refine (run_loop_frame (neighbor_loop cfg wm) (fun s => length (cNeighbor s)) _ _ _ _ Hs2).
      intros j v s3 _. destruct v; [|done]. simpl. apply alter_length.
  Qed.
End Search.

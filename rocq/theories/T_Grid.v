(** Property theorems: the grid (C02, C03, C05).  Any arithmetic, both dimensions. *)
From Coq Require Import ZifyBool.
From Verif Require Import S_Grid P_Grid.

Section Grid.
  Context {N : num} {d : dim}.
  Notation grid := (grid N d).
  Implicit Types (g : grid).

  Lemma holds_contents g b : holds g b = contents g b.
  Proof. done. Qed.

  Lemma inside_range g b : grid_wf g -> length b = dimn d -> inside g b <-> in_range (g_shape d g) b = true.
  Proof.
    intros Hg Hb. unfold inside, in_range. rewrite <- (gw_dim g Hg) in Hb. revert Hb.
    generalize (g_shape d g) as l. induction b as [|z b IH]; intros [|n l] Hl; simpl in *; try done.
    rewrite Forall2_cons, IH, andb_true_iff by lia. simpl. lia.
  Qed.

  Lemma lies_in_block g x b : lies_in g x b <-> block_of d g x = Some b.
  Proof.
    unfold lies_in, block_of. rewrite mapM_Some. split.
    - intros [Hl H]. apply Forall2_same_length_lookup_2; [by rewrite seq_length|].
      intros k i z Hk Hz. apply lookup_seq in Hk as [-> Hk]. unfold block_axis, floor_div. by apply H.
    - intros H. split; [by apply Forall2_length in H; rewrite seq_length in H|].
      intros k z Hz. assert (k < dimn d)%nat as Hk.
      { apply lookup_lt_Some in Hz. apply Forall2_length in H. rewrite seq_length in H. lia. }
      eapply (Forall2_lookup_lr _ _ _ k k z H) in Hz; [exact Hz|]. by apply lookup_seq.
  Qed.

  Lemma square_clear g : grid_wf g -> square_grid g -> clear_ok g.
  Proof.
    intros Hg [Hd|Hs]; [by apply clear_ok_2d|]. unfold clear_ok, clear_bounds.
    destruct d; [done|]. pose proof (gw_dim g Hg) as Hl.
    destruct (g_shape D3 g) as [|a [|b [|c [|]]]]; try done. simpl in Hs. by injection Hs as <-.
  Qed.

  Lemma store_wf g x id g' : grid_wf g -> store d g x id = Stored _ g' \/ store d g x id = Overflow _ g' -> grid_wf g'.
  Proof.
    intros Hg H. unfold store in H. destruct (block_of d g x) as [b|]; [|by destruct H].
    destruct (in_range _ b); [|by destruct H]. destruct (g_data d g !! b) as [c|] eqn:Hc; [|by destruct H].
    pose proof (gw_slots g Hg _ _ Hc) as Hlen.
    assert (forall c' k, is_Some (<[b:=c']> (g_data d g) !! k) <-> is_Some (g_data d g !! k)) as Hdom.
    { intros c' k. destruct (decide (b = k)) as [->|Hne]; [rewrite lookup_insert, Hc; split; by eexists|].
      by rewrite lookup_insert_ne. }
    assert (forall c', length (c_slots c') = g_cap d g -> grid_wf (set_data d g (<[b:=c']> (g_data d g)))) as Hset.
    { intros c' Hc'. apply set_data_wf; [done|apply Hdom|]. intros k c''.
      destruct (decide (b = k)) as [->|Hne]; [rewrite lookup_insert; by intros [= <-]|].
      rewrite lookup_insert_ne by done. apply Hg. }
    destruct (_ <=? _)%nat; [destruct H as [H|H]; [done|]; injection H as <-; by apply Hset|].
    destruct (_ <? _)%nat; [|by destruct H]. destruct H as [H|H]; [|done]. injection H as <-. apply Hset.
    simpl. by rewrite insert_length.
  Qed.

  Lemma built_wf i g : built i g -> grid_wf g /\ (i = true -> counts_ok g).
  Proof.
    induction 1 as [nl l0 minX maxX g H|i g g' _ [IH _] Hs H|i g x id g' _ [IH1 IH2] H|i g x id g' _ [IH1 _] H].
    - split; [by eapply new_grid_wf|]. intros _ k c Hc.
      unfold new_grid in H. destruct (mapM _ _); [|done]. simpl in H. destruct (ceil_div _ _); [|done]. simpl in H.
      destruct (_ && _); [|done]. injection H as <-. simpl in *. apply elem_of_list_to_map_2 in Hc.
      apply elem_of_list_fmap in Hc as (k' & [= _ ->] & _). simpl. lia.
    - destruct (clear_spec g IH (square_clear g IH Hs)) as (g1 & H1 & Hg1 & _ & Hc1 & _).
      rewrite H in H1. injection H1 as <-. done.
    - split; [eapply store_wf; eauto|]. intros Hi. pose proof (store_correct g x id IH1 (IH2 Hi)) as Hst.
      rewrite H in Hst. by inversion Hst.
    - split; [eapply store_wf; eauto|done].
  Qed.

  Lemma blocks_around_eq b : length b = dimn d -> blocks_around b = neighbor_blocks (d := d) b.
  Proof.
    intros Hb. unfold neighbor_blocks. destruct d; simpl in Hb.
    - destruct b as [|x [|y [|]]]; try done. simpl. rewrite !Z.add_0_r. done.
    - destruct b as [|x [|y [|z [|]]]]; try done. simpl. rewrite !Z.add_0_r. done.
  Qed.

  (** C02.  The iteration over the neighbourhood of [x] ends, without undefined behaviour, and yields
      block by block what the blocks around that of [x] hold. *)
  Theorem C02_iteration g x b :
    built true g -> lies_in g x b -> inside g b ->
    around d g x = Some (concat (map (holds g) (blocks_around b))).
  Proof.
    intros Hb Hx Hi. apply built_wf in Hb as [Hg Hc]. specialize (Hc eq_refl).
    pose proof (proj1 Hx) as Hl. apply lies_in_block in Hx. apply inside_range in Hi; [|done|done].
    rewrite (around_spec g x b) by done. f_equal. unfold around_contents. rewrite blocks_around_eq by done.
    f_equal. apply map_ext_in. intros k Hk. apply elem_of_list_In in Hk. unfold cont.
    destruct (in_range _ k) eqn:Er; [done|]. unfold holds.
    destruct (g_data d g !! k) as [c|] eqn:E; [|done].
    assert (k ∈ all_keys (g_shape d g)) as Hk' by (apply Hg; by eexists).
    apply elem_of_all_keys in Hk' as [_ Hr]. congruence.
  Qed.

  (** C03.  The four possible reactions of Store. *)
  Theorem C03_store g x id :
    built true g ->
    match store d g x id with
    | Stored _ g' => exists b, lies_in g x b /\ inside g b /\ (length (holds g b) < g_cap d g)%nat /\
        holds g' b = holds g b ++ [id] /\ forall b', b' <> b -> holds g' b' = holds g b'
    | Rejected _ => exists b, lies_in g x b /\ ~ inside g b
    | Overflow _ _ => exists b, lies_in g x b /\ inside g b /\ length (holds g b) = g_cap d g
    | StoreUndef _ => forall b, ~ lies_in g x b
    end.
  Proof.
    intros Hb. apply built_wf in Hb as [Hg Hc]. specialize (Hc eq_refl).
    pose proof (store_correct g x id Hg Hc) as Hst.
    inversion Hst as [Hn|b Hbl Hr|b g' Hbl Hr Hl Hw _|b g' Hbl Hr Hl Hw Hc' He Hin Hout].
    - intros b Hx. apply lies_in_block in Hx. congruence.
    - exists b. split; [by apply lies_in_block|]. rewrite inside_range by (eauto using block_length). congruence.
    - exists b. split; [by apply lies_in_block|]. split; [apply inside_range; eauto using block_length|]. done.
    - exists b. split; [by apply lies_in_block|]. split; [apply inside_range; eauto using block_length|].
      split; [done|]. rewrite !holds_contents. split; [by rewrite Hin, decide_True|]. intros b' Hne. by rewrite !holds_contents, Hin, decide_False.
  Qed.

  (** C05, where it holds: after Clear() nothing is held any more, and the grid is fit for use. *)
  Theorem C05_clear_square i g :
    built i g -> square_grid g -> exists g', clear d g = Some g' /\ built true g' /\ forall b, holds g' b = [].
  Proof.
    intros Hb Hs. destruct (built_wf i g Hb) as [Hg _].
    destruct (clear_spec g Hg (square_clear g Hg Hs)) as (g1 & H1 & _ & _ & _ & _ & He).
    exists g1. split; [done|]. split; [by eapply built_clear|done].
  Qed.
End Grid.

(** C05 is refuted for 3-D grids with unequal extents.  More blocks along x than along y: out of
    bounds. *)
Theorem C05_refuted_out_of_bounds {N : num} i (g : grid N D3) nx ny nz :
  built i g -> g_shape D3 g = [nx; ny; nz] -> (0 <= ny < nx)%Z -> (0 < nz)%Z -> clear D3 g = None.
Proof.
  intros Hb Hs Hn Hz. destruct (built_wf i g Hb) as [Hg _]. unfold clear. rewrite Hs. simpl clear_bounds.
  destruct (foldM clear_block (g_data D3 g) (all_keys [nx; nx; nz])) as [m|] eqn:E; [|done]. exfalso.
  assert (forall l (m m' : gmap (list Z) cell) k, foldM clear_block m l = Some m' -> k ∈ l -> is_Some (m !! k)) as Hall.
  { clear. induction l as [|a l IH]; intros m m' k H Hk; [by apply elem_of_nil in Hk|].
    simpl in H. unfold clear_block at 1 in H. destruct (m !! a) as [c|] eqn:Ea; [|done]. simpl in H.
    destruct (decide (a = k)) as [->|Hne]; [by eexists|]. apply elem_of_cons in Hk as [Hk|Hk]; [congruence|].
    apply (IH _ _ k) in H; [|done]. by rewrite lookup_insert_ne in H. }
  assert (is_Some (g_data D3 g !! [0; ny; 0]%Z)) as Hin.
  { eapply Hall; [exact E|]. apply elem_of_all_keys. split; [done|]. unfold in_range. simpl. lia. }
  apply Hg in Hin. rewrite Hs in Hin. apply elem_of_all_keys in Hin as [_ Hin]. unfold in_range in Hin. simpl in Hin. lia.
Qed.

(** More blocks along y than along x: the blocks beyond keep what they held. *)
Theorem C05_refuted_not_cleared {N : num} i (g g' : grid N D3) nx ny nz bx by_ bz :
  built i g -> g_shape D3 g = [nx; ny; nz] -> (nx <= by_ < ny)%Z -> clear D3 g = Some g' ->
  holds g' [bx; by_; bz] = holds g [bx; by_; bz].
Proof.
  intros Hb Hs Hn Hc. unfold clear in Hc. rewrite Hs in Hc. simpl clear_bounds in Hc.
  destruct (foldM clear_block (g_data D3 g) (all_keys [nx; nx; nz])) as [m|] eqn:E; [|done].
  simpl in Hc. injection Hc as <-. unfold holds. simpl.
  assert (forall l (m m' : gmap (list Z) cell) k, foldM clear_block m l = Some m' -> k ∉ l -> m' !! k = m !! k) as Hall.
  { clear. induction l as [|a l IH]; intros m m' k H Hk; simpl in H; [by injection H as ->|].
    unfold clear_block at 1 in H. destruct (m !! a) as [c|] eqn:Ea; [|done]. simpl in H.
    apply not_elem_of_cons in Hk as [Hne Hk]. apply (IH _ _ k) in H; [|done]. by rewrite lookup_insert_ne in H. }
  rewrite (Hall _ _ _ [bx; by_; bz] E); [done|]. intros Hk. apply elem_of_all_keys in Hk as [_ Hk].
  unfold in_range in Hk. simpl in Hk. lia.
Qed.

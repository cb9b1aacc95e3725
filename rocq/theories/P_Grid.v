(** The neighbour-search grid. *)
From Verif Require Export M_Grid P_Loop.
From Coq Require Import ZifyBool.

Lemma NoDup_bind {A B} (f : A -> list B) (l : list A) :
  (forall x1 x2 y, x1 ∈ l -> x2 ∈ l -> y ∈ f x1 -> y ∈ f x2 -> x1 = x2) ->
  (forall x, x ∈ l -> NoDup (f x)) -> NoDup l -> NoDup (l ≫= f).
Proof.
  intros Hinj Hf Hl. induction Hl as [|x l Hx Hl IH]; simpl; [constructor|].
  apply NoDup_app. split; [apply Hf; left|]. split.
  - intros y Hy Hy'. apply elem_of_list_bind in Hy' as (x' & Hy' & Hx').
    destruct Hx. rewrite (Hinj x x' y); [done|left|by right|done|done].
  - apply IH; [|intros; apply Hf; by right].
    intros x1 x2 y H1 H2. apply Hinj; by right.
Qed.

Section Grid.
  Context {N : num} {d : dim}.
  Notation grid := (grid N d).

  (** ** Index tuples *)
  Lemma elem_of_all_keys shape k :
    k ∈ all_keys shape <-> length k = length shape /\ in_range shape k = true.
  Proof.
    revert k; induction shape as [|n shape IH]; intros k; simpl.
    - rewrite elem_of_list_singleton. split; [intros ->; done|]. intros [H _]. by destruct k.
    - rewrite elem_of_list_bind. split.
      + intros (i & Hk & Hi). apply elem_of_list_bind in Hk as (l & Hk & Hl).
        apply elem_of_list_singleton in Hk as ->.
        apply elem_of_list_fmap in Hi as (i' & -> & Hi). apply elem_of_seq in Hi.
        apply IH in Hl as [Hl1 Hl2]. simpl. split; [lia|].
        unfold in_range in *. simpl. rewrite Hl2.
        apply andb_true_iff; split; [|done]. apply andb_true_iff. split; [apply Z.leb_le|apply Z.ltb_lt]; lia.
      + intros [Hl Hr]. destruct k as [|i k]; [done|]. unfold in_range in Hr. simpl in Hr, Hl.
        apply andb_true_iff in Hr as [Hi Hr]. apply andb_true_iff in Hi as [Hi1 Hi2].
        apply Z.leb_le in Hi1. apply Z.ltb_lt in Hi2.
        exists i. split.
        * apply elem_of_list_bind. exists k. split; [by apply elem_of_list_singleton|].
          apply IH. split; [lia|done].
        * apply elem_of_list_fmap. exists (Z.to_nat i). split; [lia|]. apply elem_of_seq. lia.
  Qed.

  Lemma NoDup_all_keys shape : NoDup (all_keys shape).
  Proof.
    induction shape as [|n shape IH]; [apply NoDup_singleton|]. simpl.
    apply NoDup_bind.
    - intros x1 x2 y _ _ H1 H2.
      apply elem_of_list_bind in H1 as (? & H1%elem_of_list_singleton & _).
      apply elem_of_list_bind in H2 as (? & H2%elem_of_list_singleton & _). congruence.
    - intros x _. apply NoDup_bind.
      + intros x1 x2 y _ _ H1%elem_of_list_singleton H2%elem_of_list_singleton. congruence.
      + intros; apply NoDup_singleton.
      + done.
    - apply NoDup_fmap; [intros ???; lia|apply NoDup_seq].
  Qed.

  Lemma length_offsets : length (offsets d) = LAST_NEIGHBOR d.
  Proof. by destruct d. Qed.
  Lemma length_offset o : o ∈ offsets d -> length o = dimn d.
  Proof. intros Ho. revert o Ho. apply Forall_forall. destruct d; repeat constructor. Qed.

  (** [o] ranges over all tuples of -1, 0, 1 *)
  Lemma elem_of_offsets o :
    o ∈ offsets d <-> length o = dimn d /\ Forall (fun z => -1 <= z <= 1)%Z o.
  Proof.
    split.
    - intros Ho. split; [by apply length_offset|].
      revert o Ho. apply Forall_forall. destruct d; repeat constructor; lia.
    - intros [Hl Hf].
      assert (forall z, (-1 <= z <= 1)%Z -> z = (-1)%Z \/ z = 0%Z \/ z = 1%Z) as Hz by lia.
      destruct d; simpl in Hl;
        repeat (destruct o as [|? o]; [done|simpl in Hl]); destruct o; try done;
        repeat (apply Forall_cons in Hf as [Hf0 Hf]; destruct (Hz _ Hf0) as [-> | [-> | ->] ]; clear Hf0);
        unfold offsets; rewrite !elem_of_cons; tauto.
  Qed.
  Lemma NoDup_offsets : NoDup (offsets d).
  Proof. destruct d; apply (bool_decide_unpack _); vm_compute; exact I. Qed.

  (** ** Well-formed grids and their contents *)
  Record grid_wf (g : grid) : Prop := {
    gw_dim : length (g_shape d g) = dimn d;
    gw_keys : forall k, is_Some (g_data d g !! k) <-> k ∈ all_keys (g_shape d g);
    gw_slots : forall k c, g_data d g !! k = Some c -> length (c_slots c) = g_cap d g;
  }.

  (** The particles held by block [k]. *)
  Definition contents (g : grid) (k : list Z) : list nat :=
    match g_data d g !! k with Some c => take (c_cnt c) (c_slots c) | None => [] end.
  (** No counter exceeds the capacity. *)
  Definition counts_ok (g : grid) : Prop :=
    forall k c, g_data d g !! k = Some c -> (c_cnt c <= g_cap d g)%nat.

  Lemma gw_lookup (g : grid) k :
    grid_wf g -> length k = dimn d -> in_range (g_shape d g) k = true -> exists c, g_data d g !! k = Some c.
  Proof.
    intros Hg Hl Hr. apply (gw_keys g Hg). apply elem_of_all_keys. by rewrite (gw_dim g Hg).
  Qed.

  Lemma new_grid_wf nl l0 minX maxX g : new_grid d nl l0 minX maxX = Some g -> grid_wf g.
  Proof.
    unfold new_grid. intros H.
    destruct (mapM _ (seq 0 (dimn d))) as [shape|] eqn:Hs; [|done]. simpl in H.
    destruct (ceil_div nl l0) as [m|]; [|done]. simpl in H.
    destruct (_ && _); [|done]. simplify_eq.
    split; simpl.
    - apply mapM_length in Hs. by rewrite <- Hs, seq_length.
    - intros k. set (c0 := mkCell _ _).
      assert ((map (fun k => (k, c0)) (all_keys shape)).*1 = all_keys shape) as Hfst.
      { rewrite <- list_fmap_compose. simpl. apply list_fmap_id. }
      rewrite <- Hfst at 2. split.
      + intros [c Hc]. apply elem_of_list_to_map_2 in Hc. apply elem_of_list_fmap. by exists (k, c).
      + intros Hk. apply elem_of_list_fmap in Hk as ([k' c] & -> & Hk).
        exists c. apply elem_of_list_to_map_1; [|done]. rewrite Hfst. apply NoDup_all_keys.
    - intros k c Hc. apply elem_of_list_to_map_2 in Hc.
      apply elem_of_list_fmap in Hc as (? & Hc & _). simplify_eq. simpl. apply replicate_length.
  Qed.

  Lemma set_data_wf (g : grid) m :
    grid_wf g -> (forall k, is_Some (m !! k) <-> is_Some (g_data d g !! k)) ->
    (forall k c, m !! k = Some c -> length (c_slots c) = g_cap d g) -> grid_wf (set_data d g m).
  Proof. intros Hg Hk Hc. split; simpl; [apply Hg| |done]. intros k. rewrite Hk. apply Hg. Qed.

  (** ** Clear *)
  (** Grids whose Clear() works as intended: 2-D, or equal x and y extents. *)
  Definition clear_ok (g : grid) : Prop := clear_bounds d (g_shape d g) = g_shape d g.

  Lemma clear_ok_2d (g : grid) : d = D2 -> clear_ok g.
  Proof. unfold clear_ok, clear_bounds. by intros ->. Qed.
  Lemma clear_ok_3d (g : grid) nx nz : g_shape d g = [nx; nx; nz] -> clear_ok g.
  Proof. unfold clear_ok, clear_bounds. intros ->. by destruct d. Qed.

  Definition is_empty_like (g g' : grid) : Prop :=
    g_len d g' = g_len d g /\ g_origin d g' = g_origin d g /\ g_shape d g' = g_shape d g /\ g_cap d g' = g_cap d g /\
    (forall k, is_Some (g_data d g' !! k) <-> is_Some (g_data d g !! k)).

  Lemma clear_blocks_spec (m : gmap (list Z) cell) l :
    (forall k, k ∈ l -> is_Some (m !! k)) -> NoDup l ->
    exists m', foldM clear_block m l = Some m' /\
      forall k, m' !! k = if decide (k ∈ l) then (fun c => mkCell 0 (c_slots c)) <$> m !! k else m !! k.
  Proof.
    revert m; induction l as [|k l IH]; intros m Hl Hnd.
    { exists m; split; [done|]. intros k. rewrite decide_False; [done|]. apply not_elem_of_nil. }
    apply NoDup_cons in Hnd as [Hk Hnd].
    simpl. unfold clear_block at 1. destruct (Hl k) as [c Hc]; [left|]. rewrite Hc. simpl.
    destruct (IH (<[k := mkCell 0 (c_slots c)]> m)) as (m' & Hm' & Hs).
    - intros k' Hk'. destruct (decide (k = k')) as [->|Hne]; [by rewrite lookup_insert|].
      rewrite lookup_insert_ne by done. apply Hl. by right.
    - done.
    - exists m'. split; [done|]. intros k'. rewrite Hs.
      destruct (decide (k' = k)) as [->|Hne].
      + rewrite (decide_False (P := k ∈ l)) by done. rewrite decide_True by left.
        by rewrite lookup_insert, Hc.
      + rewrite lookup_insert_ne by done.
        destruct (decide (k' ∈ l)); [by rewrite decide_True by (by right)|].
        rewrite decide_False; [done|]. by rewrite not_elem_of_cons.
  Qed.

  Lemma clear_spec (g : grid) :
    grid_wf g -> clear_ok g ->
    exists g', clear d g = Some g' /\ grid_wf g' /\ clear_ok g' /\ counts_ok g' /\ is_empty_like g g' /\
      (forall k, contents g' k = []).
  Proof.
    intros Hg Hok. unfold clear. rewrite Hok.
    destruct (clear_blocks_spec (g_data d g) (all_keys (g_shape d g))) as (m & -> & Hm).
    - intros k Hk. by apply Hg.
    - apply NoDup_all_keys.
    - simpl. exists (set_data d g m). split; [done|].
      assert (forall k, m !! k = (fun c => mkCell 0 (c_slots c)) <$> g_data d g !! k) as Hm'.
      { intros k. rewrite Hm. destruct (decide _) as [|Hk]; [done|].
        destruct (g_data d g !! k) eqn:E; [|done]. destruct Hk. by apply Hg. }
      clear Hm.
      assert (forall k, is_Some (m !! k) <-> is_Some (g_data d g !! k)) as Hdom.
      { intros k. rewrite Hm'. apply fmap_is_Some. }
      split; [|split; [done|split; [|split]]].
      + apply set_data_wf; [done|done|].
        intros k c. rewrite Hm'. intros (c0 & Hc0 & ->)%fmap_Some. simpl. by eapply (gw_slots g).
      + intros k c. simpl. rewrite Hm'. intros (c0 & Hc0 & ->)%fmap_Some. simpl. lia.
      + repeat split; try done; apply Hdom.
      + intros k. unfold contents. simpl. rewrite Hm'. by destruct (g_data d g !! k).
  Qed.

  (** ** Store *)
  Inductive store_spec (g : grid) (x : vec N d) (id : nat) : store_result N d -> Prop :=
    | SS_undef : block_of d g x = None -> store_spec g x id (StoreUndef _)
    | SS_rejected b : block_of d g x = Some b -> in_range (g_shape d g) b = false ->
        store_spec g x id (Rejected _)
    | SS_overflow b g' : block_of d g x = Some b -> in_range (g_shape d g) b = true ->
        length (contents g b) = g_cap d g ->
        grid_wf g' -> is_empty_like g g' ->
        store_spec g x id (Overflow _ g')
    | SS_stored b g' : block_of d g x = Some b -> in_range (g_shape d g) b = true ->
        (length (contents g b) < g_cap d g)%nat ->
        grid_wf g' -> counts_ok g' -> is_empty_like g g' ->
        (forall k, contents g' k = if decide (k = b) then contents g b ++ [id] else contents g k) ->
        store_spec g x id (Stored _ g').

  Lemma block_length (g : grid) x b : block_of d g x = Some b -> length b = dimn d.
  Proof. unfold block. intros H%mapM_length. by rewrite <- H, seq_length. Qed.

  Lemma contents_length (g : grid) k c :
    grid_wf g -> counts_ok g -> g_data d g !! k = Some c -> length (contents g k) = c_cnt c.
  Proof.
    intros Hg Hc Hk. unfold contents. rewrite Hk, take_length.
    pose proof (gw_slots g Hg _ _ Hk). pose proof (Hc _ _ Hk). lia.
  Qed.

  Lemma store_correct (g : grid) x id : grid_wf g -> counts_ok g -> store_spec g x id (store d g x id).
  Proof.
    intros Hg Hc. unfold store. destruct (block_of d g x) as [b|] eqn:Hb; [|by constructor].
    destruct (in_range _ b) eqn:Hr; [|by econstructor].
    destruct (gw_lookup g b) as [c Hbc]; [done|by eapply block_length|done|]. rewrite Hbc.
    pose proof (gw_slots g Hg _ _ Hbc) as Hlen. pose proof (Hc _ _ Hbc) as Hcnt.
    pose proof (contents_length g b c Hg Hc Hbc) as Hcl.
    assert (forall c' k, is_Some (<[b:=c']> (g_data d g) !! k) <-> is_Some (g_data d g !! k)) as Hdom.
    { intros c' k. destruct (decide (k = b)) as [->|]; [rewrite lookup_insert, Hbc; split; by eexists|].
      by rewrite lookup_insert_ne. }
    destruct (Nat.leb_spec (g_cap d g) (c_cnt c)) as [Hle|Hlt].
    - eapply SS_overflow; [done|done|lia| |].
      + apply set_data_wf; [done|done|]. intros k c'. destruct (decide (k = b)) as [->|].
        * rewrite lookup_insert. intros; by simplify_eq.
        * rewrite lookup_insert_ne by done. apply Hg.
      + repeat split; try done; apply Hdom.
    - destruct (Nat.ltb_spec (c_cnt c) (length (c_slots c))); [|lia].
      eapply SS_stored; [done|done|lia| | | |].
      + apply set_data_wf; [done|done|]. intros k c'. destruct (decide (k = b)) as [->|].
        * rewrite lookup_insert. intros; simplify_eq. simpl. by rewrite insert_length.
        * rewrite lookup_insert_ne by done. apply Hg.
      + intros k c'. simpl. destruct (decide (k = b)) as [->|].
        * rewrite lookup_insert. intros; simplify_eq. simpl. lia.
        * rewrite lookup_insert_ne by done. apply Hc.
      + repeat split; try done; apply Hdom.
      + intros k. unfold contents at 1. simpl. destruct (decide (k = b)) as [->|].
        * rewrite lookup_insert. simpl.
          erewrite take_S_r; [|apply list_lookup_insert; done].
          rewrite take_insert by done. unfold contents. by rewrite Hbc.
        * rewrite lookup_insert_ne by done. done.
  Qed.

  (** ** Iteration *)
  Lemma max_neighbor_eq : MAX_NEIGHBOR d = S (LAST_NEIGHBOR d).
  Proof. unfold MAX_NEIGHBOR. lia. Qed.
  Section Iter.
    Context (g : grid) (Hg : grid_wf g) (Hc : counts_ok g).
    Context (nb : list (list Z)) (Hnb : length nb = LAST_NEIGHBOR d)
            (Hdim : forall k, k ∈ nb -> length k = dimn d).

    Definition cont (k : list Z) : list nat :=
      if in_range (g_shape d g) k then contents g k else [].
    Definition tail_from (ni : nat) : list nat := concat (map cont (drop ni nb)).

    Lemma tail_from_S ni k : nb !! ni = Some k -> tail_from ni = cont k ++ tail_from (S ni).
    Proof. intros Hk. unfold tail_from. by rewrite (drop_S nb k ni). Qed.
    Lemma tail_from_end ni : (LAST_NEIGHBOR d <= ni)%nat -> tail_from ni = [].
    Proof. intros. unfold tail_from. by rewrite drop_ge by lia. Qed.

    Lemma scan_spec fuel index :
      (index < LAST_NEIGHBOR d)%nat -> (LAST_NEIGHBOR d <= index + 1 + fuel)%nat ->
      (exists i k, scan d g nb fuel false index = Some (true, i) /\ (i < LAST_NEIGHBOR d)%nat /\
         nb !! i = Some k /\ in_range (g_shape d g) k = true /\ contents g k <> [] /\
         tail_from (S index) = contents g k ++ tail_from (S i)) \/
      (exists i, scan d g nb fuel false index = Some (false, i) /\ tail_from (S index) = []).
    Proof.
      revert index; induction fuel as [|fuel IH]; intros index Hi Hf.
      { right. exists index. split; [done|]. apply tail_from_end. lia. }
      cbn [scan]. cbn [negb andb].
      destruct (Nat.ltb_spec (index + 1) (LAST_NEIGHBOR d)) as [Hlt|Hge].
      - destruct (lookup_lt_is_Some_2 nb (index + 1)) as [k Hk]; [lia|]. rewrite Hk. simpl.
        assert (nb !! S index = Some k) as Hk' by (by rewrite <- Nat.add_1_r).
        pose proof (tail_from_S _ _ Hk') as Ht. unfold cont in Ht.
        destruct (in_range _ k) eqn:Hr.
        + destruct (gw_lookup g k) as [c Hkc]; [done|apply Hdim; by eapply elem_of_list_lookup_2|done|].
          unfold particle_count. rewrite Hkc. simpl.
          pose proof (contents_length g k c Hg Hc Hkc) as Hlen.
          destruct (Nat.ltb_spec 0 (c_cnt c)) as [Hpos|Hzero].
          * left. exists (index + 1)%nat, k. split; [by destruct fuel|].
            split; [done|]. split; [done|]. split; [done|]. split; [intros H0; rewrite H0 in Hlen; simpl in Hlen; lia|].
            by rewrite Nat.add_1_r.
          * assert (contents g k = []) as H0 by (apply nil_length_inv; lia).
            rewrite H0 in Ht. simpl in Ht. rewrite Ht. replace (index + 1)%nat with (S index) by lia. apply IH; lia.
        + simpl in Ht. rewrite Ht. replace (index + 1)%nat with (S index) by lia. apply IH; lia.
      - right. exists index. split; [done|]. apply tail_from_end. lia.
    Qed.


    (** What remains to be visited from a valid iterator position. *)
    Definition remaining (l ni : nat) (k : list Z) : list nat := drop l (contents g k) ++ tail_from (S ni).

    Lemma index_div l ni : (ni < MAX_NEIGHBOR d)%nat -> ((l * MAX_NEIGHBOR d + ni) / MAX_NEIGHBOR d = l)%nat.
    Proof. intros. rewrite Nat.div_add_l by (rewrite max_neighbor_eq; lia). rewrite Nat.div_small by done. lia. Qed.
    Lemma index_mod l ni : (ni < MAX_NEIGHBOR d)%nat -> ((l * MAX_NEIGHBOR d + ni) mod MAX_NEIGHBOR d = ni)%nat.
    Proof. intros. rewrite Nat.add_comm, Nat.mod_add by (rewrite max_neighbor_eq; lia). by apply Nat.mod_small. Qed.
    Lemma index_not_end l ni : (ni < LAST_NEIGHBOR d)%nat -> (l * MAX_NEIGHBOR d + ni =? LAST_NEIGHBOR d)%nat = false.
    Proof. intros. apply Nat.eqb_neq. rewrite max_neighbor_eq. destruct l; [simpl; lia|]. simpl. lia. Qed.

    (** [Increment] from position [l] of block [ni]; [l] may be one past the last particle. *)
    Lemma increment_spec l ni k :
      (ni < LAST_NEIGHBOR d)%nat -> nb !! ni = Some k -> in_range (g_shape d g) k = true ->
      (exists l' ni' k', increment d g (mkIter nb (l * MAX_NEIGHBOR d + ni)) = Some (mkIter nb (l' * MAX_NEIGHBOR d + ni')) /\
         (ni' < LAST_NEIGHBOR d)%nat /\ nb !! ni' = Some k' /\ in_range (g_shape d g) k' = true /\
         (l' < length (contents g k'))%nat /\
         remaining (S l) ni k = remaining l' ni' k') \/
      (increment d g (mkIter nb (l * MAX_NEIGHBOR d + ni)) = Some (mkIter nb (LAST_NEIGHBOR d)) /\ remaining (S l) ni k = []).
    Proof.
      intros Hni Hk Hr. unfold increment. cbn [it_index it_neighbor].
      rewrite index_mod, index_div by (rewrite max_neighbor_eq; lia). rewrite Hk. cbn [mbind option_bind].
      destruct (gw_lookup g k) as [c Hkc]; [done|apply Hdim; by eapply elem_of_list_lookup_2|done|].
      unfold particle_count. rewrite Hkc. cbn [mbind option_bind fmap option_fmap option_map].
      pose proof (contents_length g k c Hg Hc Hkc) as Hlen.
      destruct (Nat.leb_spec (c_cnt c) (l + 1)) as [Hle|Hgt].
      - assert (remaining (S l) ni k = tail_from (S ni)) as ->.
        { unfold remaining. by rewrite drop_ge by lia. }
        destruct (Nat.eqb_spec ni (LAST_NEIGHBOR d - 1)) as [->|Hne].
        + right. split; [done|]. apply tail_from_end. lia.
        + destruct (scan_spec (LAST_NEIGHBOR d) ni) as [(i & k' & -> & Hi & Hk' & Hr' & Hne' & Ht)|(i & -> & Ht)]; [lia|lia| |].
          * left. exists 0%nat, i, k'. split; [done|]. split; [done|]. split; [done|]. split; [done|].
            split; [by destruct (contents g k'); simpl; [done|lia]|].
            unfold remaining. by rewrite drop_0.
          * right. done.
      - left. exists (S l), ni, k. split; [f_equal; f_equal; simpl; lia|].
        split; [done|]. split; [done|]. split; [done|]. split; [lia|done].
    Qed.

    Lemma collect_spec fuel l ni k :
      (ni < LAST_NEIGHBOR d)%nat -> nb !! ni = Some k -> in_range (g_shape d g) k = true ->
      (l < length (contents g k))%nat -> (length (remaining l ni k) <= fuel)%nat ->
      collect d g fuel (mkIter nb (l * MAX_NEIGHBOR d + ni)) = Some (remaining l ni k).
    Proof.
      revert l ni k; induction fuel as [|fuel IH]; intros l ni k Hni Hk Hr Hl Hf.
      { unfold remaining in Hf. rewrite app_length, drop_length in Hf. lia. }
      cbn [collect it_index]. rewrite index_not_end by done.
      unfold deref at 1. cbn [it_index it_neighbor].
      rewrite index_mod, index_div by (rewrite max_neighbor_eq; lia). rewrite Hk. cbn [mbind option_bind].
      destruct (lookup_lt_is_Some_2 _ _ Hl) as [j Hj].
      assert (grid_particle d g k l = Some j) as ->.
      { unfold contents in Hj. unfold grid_particle. destruct (g_data d g !! k) as [c|]; [|done]. simpl.
        rewrite lookup_take_Some in Hj. by destruct Hj. }
      cbn [mbind option_bind].
      assert (remaining l ni k = j :: remaining (S l) ni k) as Hrem.
      { unfold remaining. by erewrite drop_S by done. }
      rewrite Hrem in Hf |- *. simpl in Hf.
      destruct (increment_spec l ni k) as [(l' & ni' & k' & -> & Hni' & Hk' & Hr' & Hl' & He)|[-> He]]; try done; cbn [mbind option_bind].
      - rewrite He in Hf |- *. rewrite (IH l' ni' k') by (done || lia). done.
      - rewrite He. destruct fuel; simpl; by rewrite Nat.eqb_refl.
    Qed.
  End Iter.

  (** The blocks searched around block [b], and what they hold. *)
  Definition neighbor_blocks (b : list Z) : list (list Z) := map (zip_with Z.add b) (offsets d).
  Definition around_contents (g : grid) (b : list Z) : list nat :=
    concat (map (cont g) (neighbor_blocks b)).

  Lemma neighbor_blocks_length b : length (neighbor_blocks b) = LAST_NEIGHBOR d.
  Proof. unfold neighbor_blocks. rewrite map_length. apply length_offsets. Qed.
  Lemma neighbor_blocks_dim b k : length b = dimn d -> k ∈ neighbor_blocks b -> length k = dimn d.
  Proof.
    intros Hb Hk. apply elem_of_list_fmap in Hk as (o & -> & Ho).
    rewrite zip_with_length, (length_offset o) by done. lia.
  Qed.
  Lemma begin_index_lt b : (begin_index d b < LAST_NEIGHBOR d)%nat.
  Proof. unfold begin_index. destruct d; simpl; repeat destruct (_ =? _)%Z; vm_compute; lia. Qed.

  (** The starting block is in range, the skipped ones are not. *)
  Lemma begin_block (g : grid) b :
    length b = dimn d -> length (g_shape d g) = dimn d -> in_range (g_shape d g) b = true ->
    exists k, neighbor_blocks b !! begin_index d b = Some k /\ in_range (g_shape d g) k = true /\
      tail_from g (neighbor_blocks b) (begin_index d b) = tail_from g (neighbor_blocks b) 0.
  Proof.
    intros Hb Hs Hr.
    assert (forall ni, (forall i k, (i < ni)%nat -> neighbor_blocks b !! i = Some k -> in_range (g_shape d g) k = false) ->
       (ni <= LAST_NEIGHBOR d)%nat -> tail_from g (neighbor_blocks b) ni = tail_from g (neighbor_blocks b) 0) as Hskip.
    { induction ni as [|ni IH]; intros Hi Hle; [done|].
      rewrite <- IH; [|intros; apply (Hi i); [lia|done]|lia].
      destruct (lookup_lt_is_Some_2 (neighbor_blocks b) ni) as [k Hk]; [rewrite neighbor_blocks_length; lia|].
      rewrite (tail_from_S g _ ni k Hk). unfold cont. by rewrite (Hi ni k) by (lia || done). }
    pose proof (begin_index_lt b) as Hlt.
    destruct (lookup_lt_is_Some_2 (neighbor_blocks b) (begin_index d b)) as [k0 Hk0]; [by rewrite neighbor_blocks_length|].
    exists k0. split; [done|].
    cut (in_range (g_shape d g) k0 = true /\
         forall i k, (i < begin_index d b)%nat -> neighbor_blocks b !! i = Some k -> in_range (g_shape d g) k = false).
    { intros [H1 H2]. split; [done|]. apply Hskip; [done|lia]. }
    unfold neighbor_blocks in *. clear Hskip Hlt. revert k0 Hk0. generalize (g_shape d g) as shape, Hs, Hr. clear Hs Hr g. intros shape Hs Hr k0 Hk0.
    destruct d; simpl in Hb, Hs.
    - destruct b as [|b0 [|b1 []]]; try done. destruct shape as [|n0 [|n1 []]]; try done.
      unfold in_range in Hr. cbn in Hr.
      unfold begin_index in *. cbn [nth] in *.
      destruct (Z.eqb_spec b0 0) as [->|H0], (Z.eqb_spec b1 0) as [->|H1];
        (split; [cbn in Hk0; injection Hk0 as <-; unfold in_range; cbn [zip zip_with forallb fst snd]; lia|]);
        intros i k Hi; cbn in Hi;
        repeat (destruct i as [|i]; [cbn; intros Hk; injection Hk as <-; unfold in_range; cbn [zip zip_with forallb fst snd]; lia|]);
        exfalso; lia.
    - destruct b as [|b0 [|b1 [|b2 []]]]; try done. destruct shape as [|n0 [|n1 [|n2 []]]]; try done.
      unfold in_range in Hr. cbn in Hr.
      unfold begin_index in *. cbn [nth] in *.
      destruct (Z.eqb_spec b0 0) as [->|H0], (Z.eqb_spec b1 0) as [->|H1], (Z.eqb_spec b2 0) as [->|H2];
        (split; [cbn in Hk0; injection Hk0 as <-; unfold in_range; cbn [zip zip_with forallb fst snd]; lia|]);
        intros i k Hi; cbn in Hi;
        repeat (destruct i as [|i]; [cbn; intros Hk; injection Hk as <-; unfold in_range; cbn [zip zip_with forallb fst snd]; lia|]);
        exfalso; lia.
  Qed.

  Lemma around_contents_le (g : grid) b :
    grid_wf g -> counts_ok g -> length b = dimn d -> (length (around_contents g b) <= iter_fuel d g)%nat.
  Proof.
    intros Hg Hc Hb. unfold around_contents, iter_fuel.
    rewrite <- (neighbor_blocks_length b).
    assert (forall k, k ∈ neighbor_blocks b -> length k = dimn d) as Hdim by (intros; by eapply neighbor_blocks_dim).
    induction (neighbor_blocks b) as [|k l IH]; simpl; [lia|].
    rewrite app_length.
    specialize (IH (fun k' H => Hdim k' (elem_of_list_further _ _ _ H))).
    assert (length (cont g k) <= g_cap d g)%nat; [|lia].
    unfold cont. destruct (in_range _ k) eqn:Hr; [|simpl; lia].
    destruct (gw_lookup g k) as [c Hk]; [done|apply Hdim; left|done|].
    rewrite (contents_length g k c) by done. by eapply Hc.
  Qed.

  Lemma around_spec (g : grid) x b :
    grid_wf g -> counts_ok g -> block_of d g x = Some b -> in_range (g_shape d g) b = true ->
    around d g x = Some (around_contents g b).
  Proof.
    intros Hg Hc Hb Hr. pose proof (block_length _ _ _ Hb) as Hbl.
    unfold around, cbegin. rewrite Hb. cbn [mbind option_bind it_index].
    fold (neighbor_blocks b).
    pose proof (neighbor_blocks_length b) as Hnl.
    assert (forall k, k ∈ neighbor_blocks b -> length k = dimn d) as Hdim by (intros; by eapply neighbor_blocks_dim).
    pose proof (begin_index_lt b) as Hbi.
    destruct (begin_block g b) as (k & Hk & Hkr & Ht); [done|apply Hg|done|].
    rewrite Nat.mod_small by (rewrite max_neighbor_eq; lia).
    rewrite Hk. cbn [mbind option_bind].
    destruct (gw_lookup g k) as [c Hkc]; [done|apply Hdim; by eapply elem_of_list_lookup_2|done|].
    unfold particle_count. rewrite Hkc. cbn [mbind option_bind fmap option_fmap option_map].
    pose proof (contents_length g k c Hg Hc Hkc) as Hlen.
    pose proof (around_contents_le g b Hg Hc Hbl) as Hfuel.
    assert (around_contents g b = contents g k ++ tail_from g (neighbor_blocks b) (S (begin_index d b))) as Hac.
    { unfold around_contents. change (concat _) with (tail_from g (neighbor_blocks b) 0). rewrite <- Ht.
      rewrite (tail_from_S g _ _ k Hk). unfold cont. by rewrite Hkr. }
    destruct (Nat.eqb_spec (c_cnt c) 0) as [Hz|Hnz].
    - destruct (increment_spec g Hg Hc (neighbor_blocks b) Hnl Hdim 0 (begin_index d b) k) as [(l' & ni' & k' & Hi & Hni' & Hk' & Hr' & Hl' & He)|[Hi He]]; try done;
        cbn [Nat.mul Nat.add] in Hi; rewrite Hi; cbn [mbind option_bind].
      + rewrite Hac. assert (contents g k = []) as H0 by (apply nil_length_inv; lia).
        unfold remaining in He. rewrite H0 in He |- *. simpl in He. simpl. rewrite He.
        apply collect_spec; try done. unfold remaining. rewrite <- He.
        rewrite Hac, H0 in Hfuel. done.
      + rewrite Hac. assert (contents g k = []) as H0 by (apply nil_length_inv; lia).
        unfold remaining in He. rewrite H0 in He |- *. simpl in He. simpl. rewrite He.
        destruct (iter_fuel d g); simpl; by rewrite Nat.eqb_refl.
    - cbn [mbind option_bind].
      rewrite Hac. rewrite Hac in Hfuel.
      change (contents g k ++ _) with (remaining g (neighbor_blocks b) 0 (begin_index d b) k) in Hfuel |- *.
      apply (collect_spec g Hg Hc (neighbor_blocks b) Hnl Hdim _ 0); try done. lia.
  Qed.
End Grid.

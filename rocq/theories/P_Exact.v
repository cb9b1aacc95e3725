(** Who is in a neighbour list after a search. *)
From Verif Require Export P_Life.

Section Exact.
  Context {N : num} {cfg : config} {wm : wallmotion N (cDim cfg)}.
  Notation d := (cDim cfg).
  Notation V := (vec N d).
  Notation part := (particle N d).
  Notation computer := (computer cfg wm).
  Implicit Types (s : computer) (p : part).

  (** Blocks are adjacent (or equal). *)
  Definition adjacent (b b' : list Z) : Prop := Forall2 (fun x y => Z.abs (x - y) <= 1)%Z b b'.
  Lemma adjacent_sym b b' : adjacent b b' -> adjacent b' b.
  Proof. induction 1; constructor; [lia|done]. Qed.

  Lemma elem_of_neighbor_blocks b b' : length b = dimn d ->
    b' ∈ neighbor_blocks (d := d) b <-> adjacent b b'.
  Proof.
    intros Hb. unfold neighbor_blocks. rewrite elem_of_list_fmap. split.
    - intros (o & -> & Ho). apply elem_of_offsets in Ho as [Hlen Ho].
      apply Forall2_same_length_lookup_2; [rewrite zip_with_length; lia|].
      intros k x y Hx Hy. rewrite lookup_zip_with, Hx in Hy. simpl in Hy.
      destruct (o !! k) as [z|] eqn:E; [|done]. simpl in Hy. injection Hy as <-.
      rewrite Forall_lookup in Ho. specialize (Ho k z E). simpl in Ho. lia.
    - intros H. exists (zip_with (fun x y => y - x)%Z b b').
      pose proof (Forall2_length _ _ _ H) as Hl. split.
      + apply list_eq. intros k. rewrite !lookup_zip_with.
        destruct (b !! k) as [x|] eqn:E; destruct (b' !! k) as [y|] eqn:E'; simpl; try done.
        * f_equal. lia.
        * apply lookup_ge_None in E. apply lookup_lt_Some in E'. lia.
      + apply elem_of_offsets. split; [rewrite zip_with_length; lia|].
        apply Forall_lookup. intros k z Hz. rewrite lookup_zip_with in Hz.
        destruct (b !! k) as [x|] eqn:E; [|done]. simpl in Hz. destruct (b' !! k) as [y|] eqn:E'; [|done]. simpl in Hz.
        injection Hz as <-. pose proof (Forall2_lookup_lr _ _ _ _ _ _ H E E') as Hxy. simpl in Hxy. lia.
  Qed.

  Lemma zip_add_inj (b o o' : list Z) : length o = length b -> length o' = length b ->
    zip_with Z.add b o = zip_with Z.add b o' -> o = o'.
  Proof.
    revert o o'; induction b as [|x b IH]; intros [|y o] [|y' o']; simpl; try done; try lia.
    intros H1 H2 [= H3 H4]. f_equal; [lia|]. apply IH; lia || done.
  Qed.
  Lemma NoDup_neighbor_blocks b : length b = dimn d -> NoDup (neighbor_blocks (d := d) b).
  Proof.
    intros Hb. unfold neighbor_blocks. apply NoDup_fmap_2_strong; [|apply NoDup_offsets].
    intros o o' Ho Ho' H. apply length_offset in Ho, Ho'. eapply zip_add_inj; [| |exact H]; lia.
  Qed.

  Lemma home_unique (g : grid N d) ps j k k' : home g ps j k = true -> home g ps j k' = true -> k = k'.
  Proof. rewrite !home_Some. intros (p & Hp & _ & Hb & _) (p' & Hp' & _ & Hb' & _). congruence. Qed.

  Lemma NoDup_concat_map {A B} (f : A -> list B) (l : list A) :
    NoDup l -> (forall a, a ∈ l -> NoDup (f a)) ->
    (forall a a' x, a ∈ l -> a' ∈ l -> x ∈ f a -> x ∈ f a' -> a = a') -> NoDup (concat (map f l)).
  Proof.
    induction l as [|a l IH]; intros Hnd Hf Hd; simpl; [constructor|].
    apply NoDup_cons in Hnd as [Ha Hnd]. apply NoDup_app. split; [apply Hf; by left|]. split.
    - intros x Hx Hc. apply elem_of_list_In, in_concat in Hc as (l' & Hl' & Hx').
      apply elem_of_list_In in Hl', Hx'. apply elem_of_list_fmap in Hl' as (a' & -> & Ha').
      assert (a = a') as -> by (eapply Hd; [by left|by right|done|done]). done.
    - apply IH; [done|intros; apply Hf; by right|]. intros a1 a2 x H1 H2. apply Hd; by right.
  Qed.

  Section S.
    Context (s s' : computer) (Hs : searched s s').
    Lemma found_NoDup i p : NoDup (found s' i p).
    Proof.
      unfold found. destruct (block_of d (cGrid s') (pX p)) as [b|] eqn:Hb; [|constructor].
      unfold bfilter. apply NoDup_filter. unfold around_contents. apply block_length in Hb.
      assert (forall k x, x ∈ cont (cGrid s') k -> home (cGrid s) (cParts s) x k = true) as Hc.
      { intros k x Hx. unfold cont in Hx. destruct (in_range _ k); [|by apply elem_of_nil in Hx].
        rewrite (se_contents _ _ Hs) in Hx. by apply elem_of_bfilter in Hx as [Hx _]. }
      apply NoDup_concat_map; [by apply NoDup_neighbor_blocks| |].
      - intros k _. unfold cont. destruct (in_range _ k); [|constructor]. rewrite (se_contents _ _ Hs).
        apply NoDup_filter, NoDup_seq.
      - intros k k' x _ _ Hx Hx'. eapply home_unique; by apply Hc.
    Qed.

    Lemma found_elem i p j q b :
      cParts s' !! i = Some p -> is_disabled (pT p) = false ->
      cParts s' !! j = Some q -> is_disabled (pT q) = false ->
      block_of d (cGrid s) (pX p) = Some b ->
      j ∈ found s' i p <-> near_test s' i p j = true /\ exists b', block_of d (cGrid s) (pX q) = Some b' /\ adjacent b b'.
    Proof.
      intros Hp Hdp Hq Hdq Hb. unfold found. rewrite (same_geom_block _ _ _ (se_geom _ _ Hs)), Hb.
      rewrite elem_of_bfilter. apply and_iff_compat_l. pose proof (block_length _ _ _ Hb) as Hlb.
      destruct (home_of_enabled s s' j q (se_parts _ _ Hs) Hq Hdq) as (Hq0 & b' & Hb' & Hr').
      unfold around_contents. rewrite elem_of_list_In, in_concat. split.
      - intros (l & Hl & Hj). apply elem_of_list_In in Hl, Hj. apply elem_of_list_fmap in Hl as (k & -> & Hk).
        unfold cont in Hj. destruct (in_range _ k) eqn:Hr; [|by apply elem_of_nil in Hj].
        rewrite (se_contents _ _ Hs) in Hj. apply elem_of_bfilter in Hj as [Hh _].
        apply home_Some in Hh as (q' & Hq' & _ & Hk' & _). assert (q' = q) as -> by congruence.
        exists k. split; [done|]. by apply elem_of_neighbor_blocks.
      - intros (b'' & Hb'' & Hadj). assert (b'' = b') as -> by congruence.
        exists (cont (cGrid s') b'). split; apply elem_of_list_In.
        + apply elem_of_list_fmap. exists b'. split; [done|]. by apply elem_of_neighbor_blocks.
        + unfold cont. destruct (se_geom _ _ Hs) as (_ & _ & -> & _). rewrite Hr', (se_contents _ _ Hs).
          apply elem_of_bfilter. split; [|apply elem_of_seq; split; [lia|]; by eapply lookup_lt_Some].
          apply home_Some. eauto.
    Qed.

    Lemma found_list i p : cParts s' !! i = Some p -> is_disabled (pT p) = false -> neighbor_list s' i = Some (found s' i p).
    Proof. intros Hp Hd. destruct (se_rows _ _ Hs i p Hp Hd) as (row & _ & _ & Hrow). by eapply row_read. Qed.
    Lemma found_enabled i p j : j ∈ found s' i p -> j <> i /\ exists q, cParts s' !! j = Some q /\ is_disabled (pT q) = false.
    Proof.
      unfold found. destruct (block_of _ _ _); [|by intros ?%elem_of_nil]. intros [Ht _]%elem_of_bfilter.
      unfold near_test in Ht. apply andb_true_iff in Ht as [Hne Ht]. apply negb_true_iff, Nat.eqb_neq in Hne.
      split; [done|]. destruct (cParts s' !! j) as [q|]; [|done]. apply andb_true_iff in Ht as [Ht _].
      apply negb_true_iff in Ht. eauto.
    Qed.
  End S.
End Exact.

(** The assembly of the pressure equation, in any arithmetic. *)
From Coq Require Import ZifyBool Sorting.Sorted.
From Verif Require Export P_Neigh P_Exact S_Ppe.
Local Close Scope R_scope.

Section Rows.
  Context {N : num}.
  Notation row := (mrow (N := N)).
  Definition row_sets (r : row) (es : row) : row := foldl (fun r e => row_set e.1 e.2 r) r es.

  Lemma row_at_set j (v : N) (r : row) k : row_at (row_set j v r) k = if (k =? j)%nat then v else row_at r k.
  Proof.
    induction r as [|[c w] r IH]; simpl.
    - destruct (Nat.eqb_spec k j), (Nat.eqb_spec j k); try done; lia.
    - destruct (Nat.ltb_spec j c) as [H1|H1].
      + simpl. destruct (Nat.eqb_spec k j), (Nat.eqb_spec j k); try done; lia.
      + destruct (Nat.eqb_spec j c) as [->|H2]; simpl.
        * destruct (Nat.eqb_spec k c), (Nat.eqb_spec c k); try done; lia.
        * rewrite IH. destruct (Nat.eqb_spec k j), (Nat.eqb_spec c k); try done; lia.
  Qed.
  Lemma row_at_sets (F : nat -> N) es r k : (forall e, e ∈ es -> e.2 = F e.1) ->
    row_at (row_sets r es) k = if decide (k ∈ map fst es) then F k else row_at r k.
  Proof.
    revert r. induction es as [|e es IH]; intros r HF; simpl.
    - destruct (decide (k ∈ [])) as [H|]; [by apply elem_of_nil in H|done].
    - unfold row_sets in *. simpl. rewrite IH by (intros; apply HF; by right). rewrite row_at_set.
      destruct (decide (k ∈ map fst es)) as [H1|H1], (decide (k ∈ e.1 :: map fst es)) as [H2|H2]; try done.
      + destruct H2. by right.
      + destruct (Nat.eqb_spec k e.1) as [->|Hne]; [apply HF; by left|]. apply elem_of_cons in H2 as [?|?]; done.
      + destruct (Nat.eqb_spec k e.1) as [->|Hne]; [|done]. destruct H2. by left.
  Qed.
  Lemma row_set_elem j (v : N) (r : row) e : e ∈ row_set j v r -> e = (j, v) \/ e ∈ r.
  Proof.
    induction r as [|[c w] r IH]; simpl; [intros ?%elem_of_list_singleton; by left|].
    destruct (j <? c)%nat; [intros [?|?]%elem_of_cons; auto|].
    destruct (j =? c)%nat; [intros [?|?]%elem_of_cons; auto; right; by right|].
    intros [?|H]%elem_of_cons; [right; subst; by left|]. apply IH in H as [?|?]; [by left|right; by right].
  Qed.
  Lemma row_set_sorted j (v : N) (r : row) : StronglySorted lt (map fst r) -> StronglySorted lt (map fst (row_set j v r)).
  Proof.
    induction r as [|[c w] r IH]; simpl; intros Hs; [repeat constructor|]. inversion Hs as [|? ? Hs' Hf]; subst.
    destruct (Nat.ltb_spec j c) as [H1|H1]; simpl.
    - constructor; [done|]. constructor; [done|]. eapply Forall_impl; [exact Hf|]. intros; lia.
    - destruct (Nat.eqb_spec j c) as [->|H2]; simpl; [done|]. constructor; [by apply IH|].
      apply Forall_forall. intros k Hk. apply elem_of_list_In, in_map_iff in Hk as (e & <- & He). apply elem_of_list_In in He.
      apply row_set_elem in He as [->|He]; simpl; [lia|]. rewrite Forall_forall in Hf. apply Hf. apply elem_of_list_In, in_map_iff.
      exists e. split; [done|]. by apply elem_of_list_In.
  Qed.
  Lemma row_sets_sorted es (r : row) : StronglySorted lt (map fst r) -> StronglySorted lt (map fst (row_sets r es)).
  Proof. revert r. induction es as [|e es IH]; intros r H; [done|]. unfold row_sets in *. simpl. by apply IH, row_set_sorted. Qed.
  Lemma row_sets_elem es (r : row) e : e ∈ row_sets r es -> e ∈ es \/ e ∈ r.
  Proof.
    revert r. induction es as [|a es IH]; intros r H; [by right|]. unfold row_sets in *. simpl in H. apply IH in H as [H|H]; [left; by right|].
    apply row_set_elem in H as [->|H]; [|by right]. left. destruct a. by left.
  Qed.
  Lemma sorted_NoDup (l : list nat) : StronglySorted lt l -> NoDup l.
  Proof.
    induction 1 as [|a l Hs IH Hf]; constructor; [|done]. intros H. rewrite Forall_forall in Hf. specialize (Hf a H). lia.
  Qed.
End Rows.

Section Ppe.
  Context {N : num} {cfg : config} {wm : wallmotion N (cDim cfg)}.
  Notation d := (cDim cfg).
  Notation V := (vec N d).
  Notation part := (particle N d).
  Notation computer := (computer cfg wm).
  Implicit Types (s : computer) (p q : part) (env : environment N cfg).

  (** [q] appears as a column in the row of a neighbour. *)
  Definition column env q : bool := negb (is_dummy (pT q)) && (cSPP cfg || negb (is_surface (pN q) (eN0 env) (eSurf env))).
  (** [j] passes the distance test of the sum of [i]. *)
  Definition in_radius s p j : bool :=
    match cParts s !! j with
    | Some q => let dx := pX q -^ pX p in vdot dx dx <?. eRe (cEnv s) ×. eRe (cEnv s)
    | None => false
    end.

  Lemma ppe_acc s i p js a :
    neighbor_list s i = Some js -> cParts s !! i = Some p ->
    acc s i ppe_zero ppe_plus (ppe_func (cEnv s) (pX p)) = Some a ->
    forall e, e ∈ a.1 <-> exists j q, j ∈ js /\ j <> i /\ cParts s !! j = Some q /\ in_radius s p j = true /\
      column (cEnv s) q = true /\ e = (j, ppe_coef (cEnv s) (dist (pX p) (pX q))).
  Proof.
    intros Hjs Hp Ha e. unfold acc in Ha. rewrite Hjs in Ha. cbn [mbind option_bind] in Ha. rewrite Hp in Ha. cbn [mbind option_bind] in Ha.
    destruct (foldM _ _ js) as [st|] eqn:E; [|done]. cbn [mbind option_bind] in Ha.
    assert (a.1 = st.1.1) as ->.
    { destruct (cSPP cfg) eqn:HS; [|by injection Ha as <-]. unfold acc_spp in Ha. destruct (cNws s !! i); [|done]. cbn [mbind option_bind] in Ha.
      destruct (_ <?. _); [|by injection Ha as <-]. destruct (_ <?. _); [|by injection Ha as <-]. injection Ha as <-.
      unfold ppe_func. rewrite HS. simpl. by rewrite app_nil_r. }
    clear Ha Hjs.
    assert (forall js st0 st, foldM (acc_step s i (pX p) ppe_plus (ppe_func (cEnv s) (pX p))) st0 js = Some st ->
      e ∈ st.1.1 <-> e ∈ st0.1.1 \/ exists j q, j ∈ js /\ j <> i /\ cParts s !! j = Some q /\ in_radius s p j = true /\
        column (cEnv s) q = true /\ e = (j, ppe_coef (cEnv s) (dist (pX p) (pX q)))) as H.
    { clear js st E. induction js as [|j js IH]; intros st0 st E; simpl in E.
      - injection E as <-. split; [by left|]. intros [?|(j & q & H & _)]; [done|]. by apply elem_of_nil in H.
      - destruct (acc_step s i (pX p) ppe_plus _ st0 j) as [st1|] eqn:E1; [|done]. rewrite (IH _ _ E). clear IH E.
        assert (e ∈ st1.1.1 <-> e ∈ st0.1.1 \/ exists q, j <> i /\ cParts s !! j = Some q /\ in_radius s p j = true /\
          column (cEnv s) q = true /\ e = (j, ppe_coef (cEnv s) (dist (pX p) (pX q)))) as ->.
        { unfold acc_step in E1. destruct (Nat.eqb_spec j i) as [->|Hji].
          { injection E1 as <-. split; [by left|]. intros [?|(q & ? & _)]; done. }
          unfold in_radius. destruct (cParts s !! j) as [q|] eqn:Hq; [|done]. cbn [mbind option_bind] in E1. cbv zeta in *.
          destruct (_ <?. _).
          - injection E1 as <-. cbn [fst ppe_plus]. rewrite elem_of_app. apply or_iff_compat_l.
            unfold ppe_func, column. rewrite Nat2Z.id. destruct (is_dummy (pT q)) eqn:HD; cbn [fst].
            + split; [by intros ?%elem_of_nil|]. intros (q' & _ & [= <-] & _ & Hc & _). by rewrite HD in Hc.
            + assert ((if cSPP cfg then (0 <=? Z.of_nat j)%Z else negb (is_surface (pN q) (eN0 (cEnv s)) (eSurf (cEnv s))))
                = (cSPP cfg || negb (is_surface (pN q) (eN0 (cEnv s)) (eSurf (cEnv s))))) as ->.
              { destruct (cSPP cfg); [|done]. simpl. lia. }
              destruct (cSPP cfg || _) eqn:Hk; cbn [fst].
              * rewrite elem_of_list_singleton. split; [intros ->; exists q; by rewrite HD, Hk|]. by intros (q' & _ & [= <-] & _ & _ & ->).
              * split; [by intros ?%elem_of_nil|]. intros (q' & _ & [= <-] & _ & Hc & _). by rewrite HD, Hk in Hc.
          - injection E1 as <-. split; [by left|]. intros [?|(q' & _ & [= <-] & Hc & _)]; done. }
        split.
        + intros [[H|(q & H)]|(j' & q & Hin & H)]; [by left|right; exists j, q; split; [by left|done]|right; exists j', q; split; [by right|done]].
        + intros [H|(j' & q & [->|Hin]%elem_of_cons & H)]; [by left; left|left; right; by exists q|right; by exists j', q]. }
    rewrite (H js _ _ E). simpl. split; [intros [?%elem_of_nil|?]; done|by right].
  Qed.

  Lemma is_surface_column env q : ppe_excluded env q = negb (column env q && negb (is_disabled (pT q))).
  Proof.
    unfold ppe_excluded, column, is_active. destruct (is_dummy (pT q)), (is_disabled (pT q)), (cSPP cfg), (is_surface _ _ _); done.
  Qed.

  (** Row of an excluded particle, and of the others. *)
  Lemma elem_excluded s t i p j : set_ppe s = Some t -> cParts s !! i = Some p -> ppe_excluded (cEnv s) p = true ->
    elem (cA t) i j = if (j =? i)%nat then nofZ 1 else nofZ 0.
  Proof.
    intros H Hp Hx. destruct (set_ppe_at s t i p H Hp) as (_ & es & He & HA). unfold row_entries in He. rewrite Hx in He. injection He as <-.
    unfold elem. rewrite HA. simpl. destruct (Nat.eqb_spec j i), (Nat.eqb_spec i j); try done; lia.
  Qed.
  Lemma elem_other s t i p js j : set_ppe s = Some t -> cParts s !! i = Some p -> ppe_excluded (cEnv s) p = false ->
    neighbor_list s i = Some js -> j <> i ->
    elem (cA t) i j =
      if bool_decide (j ∈ js) && in_radius s p j then
        match cParts s !! j with
        | Some q => if column (cEnv s) q then ppe_coef (cEnv s) (dist (pX p) (pX q)) else nofZ 0
        | None => nofZ 0
        end
      else nofZ 0.
  Proof.
    intros H Hp Hx Hjs Hji. destruct (set_ppe_at s t i p H Hp) as (_ & es & He & HA). unfold row_entries in He. rewrite Hx in He.
    destruct (acc s i _ _ _) as [a|] eqn:Ea; [|done]. cbn [mbind option_bind] in He. injection He as <-.
    pose proof (ppe_acc s i p js a Hjs Hp Ea) as Hel. unfold elem. rewrite HA.
    change (foldl _ [] _) with (row_sets [] (a.1 ++ [(i, a.2)])).
    assert (row_sets [] (a.1 ++ [(i, a.2)]) = row_set i a.2 (row_sets [] a.1)) as ->.
    { unfold row_sets. by rewrite foldl_app. }
    rewrite row_at_set. destruct (Nat.eqb_spec j i); [done|].
    rewrite (row_at_sets (fun j => match cParts s !! j with Some q => ppe_coef (cEnv s) (dist (pX p) (pX q)) | None => nofZ 0 end)).
    2:{ intros e (k & q & _ & _ & Hq & _ & _ & ->)%Hel. cbn [fst snd]. by rewrite Hq. }
    destruct (decide (j ∈ map fst a.1)) as [Hin|Hin].
    - apply elem_of_list_In, in_map_iff in Hin as (e & <- & Hin). apply elem_of_list_In in Hin.
      apply Hel in Hin as (k & q & Hk & _ & Hq & Hr & Hc & ->). cbn [fst] in *. rewrite bool_decide_true, Hr, Hq, Hc by done. done.
    - simpl. destruct (bool_decide (j ∈ js)) eqn:Hj; [|done]. apply bool_decide_eq_true in Hj. destruct (in_radius s p j) eqn:Hr; [|done]. simpl.
      destruct (cParts s !! j) as [q|] eqn:Hq; [|done]. destruct (column (cEnv s) q) eqn:Hc; [|done]. exfalso. apply Hin.
      apply elem_of_list_In, in_map_iff. eexists. split; [|apply elem_of_list_In, Hel; by exists j, q]. done.
  Qed.
  Lemma elem_diag s t i p a : set_ppe s = Some t -> cParts s !! i = Some p -> ppe_excluded (cEnv s) p = false ->
    acc s i ppe_zero ppe_plus (ppe_func (cEnv s) (pX p)) = Some a -> elem (cA t) i i = a.2.
  Proof.
    intros H Hp Hx Ha. destruct (set_ppe_at s t i p H Hp) as (_ & es & He & HA). unfold row_entries in He. rewrite Hx, Ha in He.
    injection He as <-. unfold elem. rewrite HA, foldl_app. simpl. rewrite row_at_set. by rewrite Nat.eqb_refl.
  Qed.

  (** The matrix is a proper sparse matrix. *)
  Lemma set_ppe_length s t : set_ppe s = Some t -> length (cXv s) = length (cA s) -> length (cBv s) = length (cA s) ->
    length (cA t) = psize s /\ length (cXv t) = psize s /\ length (cBv t) = psize s.
  Proof.
    rewrite set_ppe_unfold. intros H Hx Hb. destruct (run_loop (rhs_loop cfg wm) _ _) as [s1|] eqn:E; [|done]. cbn [mbind option_bind] in H.
    pose proof (rhs_lengths _ _ _ E) as L1. pose proof (matrix_rest _ _ _ H) as HR.
    assert (length (cA t) = length (cA s1)) as L2.
    { refine (run_loop_inv (matrix_loop cfg wm) (fun s' => length (cA s') = length (cA s1)) _ _ _ _ _ H); [|done].
      intros s0 i v _ H0 _. simpl. by rewrite insert_length. }
    assert (length (cA (resized s)) = psize s /\ length (cXv (resized s)) = psize s /\ length (cBv (resized s)) = psize s) as L0.
    { unfold resized. destruct (Nat.eqb_spec (psize s) (length (cBv s))); simpl; rewrite ?replicate_length; [|done]. split; [congruence|]. split; congruence. }
    rewrite HR. simpl. destruct L0 as (A1 & A2 & A3). split; [|split]; intuition congruence.
  Qed.
  Lemma set_ppe_sparse s t : set_ppe s = Some t -> length (cXv s) = length (cA s) -> length (cBv s) = length (cA s) ->
    (forall i p, cParts s !! i = Some p -> ppe_excluded (cEnv s) p = false -> is_Some (neighbor_list s i)) ->
    sparse (psize s) (cA t).
  Proof.
    intros H Hx Hb Hn. destruct (set_ppe_length s t H Hx Hb) as (L & _ & _). split; [done|].
    intros row Hrow. apply elem_of_list_lookup in Hrow as [i Hi].
    destruct (lookup_lt_is_Some_2 (cParts s) i) as [p Hp]; [change (i < psize s)%nat; rewrite <- L; by eapply lookup_lt_Some|].
    destruct (set_ppe_at s t i p H Hp) as (_ & es & He & HA). pose proof (eq_trans (eq_sym Hi) HA) as HR. injection HR as ->.
    change (foldl _ [] es) with (row_sets [] es). split; [apply sorted_NoDup, row_sets_sorted; constructor|].
    intros e [Hel|Hel%elem_of_nil]%row_sets_elem; [|done]. assert (i < psize s)%nat as Hlt by (by eapply lookup_lt_Some).
    unfold row_entries in He. destruct (ppe_excluded _ _) eqn:Hex; [injection He as <-; apply elem_of_list_singleton in Hel; by subst|].
    destruct (acc s i _ _ _) as [a|] eqn:Ea; [|done]. injection He as <-. destruct (Hn i p Hp Hex) as [js Hjs].
    apply elem_of_app in Hel as [Hel|Hel%elem_of_list_singleton]; [|by subst].
    apply (ppe_acc s i p js a Hjs Hp Ea) in Hel as (j & q & _ & _ & Hq & _ & _ & ->). by eapply lookup_lt_Some.
  Qed.

  (** ** Symmetry *)
  Lemma matrix_symmetric s t i j :
    (forall x y : V, dist x y = dist y x) -> (forall x y : V, vdot (x -^ y) (x -^ y) = vdot (y -^ x) (y -^ x)) ->
    set_ppe s = Some t -> length (cXv s) = length (cA s) -> length (cBv s) = length (cA s) ->
    (forall i p, cParts s !! i = Some p -> enabled p -> exists l, neighbor_list s i = Some l /\
       forall j, j ∈ l -> exists q, cParts s !! j = Some q /\ enabled q) ->
    (forall i p j q l l', cParts s !! i = Some p -> enabled p -> cParts s !! j = Some q -> enabled q ->
       neighbor_list s i = Some l -> neighbor_list s j = Some l' -> j ∈ l -> i ∈ l') ->
    elem (cA t) i j = elem (cA t) j i.
  Proof.
    intros Hsym Hdot H Hx Hb Hl Hll. destruct (set_ppe_length s t H Hx Hb) as (L & _ & _).
    destruct (decide (i = j)) as [->|Hij]; [done|].
    assert (forall i p, cParts s !! i = Some p -> ppe_excluded (cEnv s) p = false -> enabled p) as Hinc.
    { intros k p Hp Hex HD. unfold ppe_excluded in Hex. rewrite HD in Hex. done. }
    assert (forall i j, i <> j -> cParts s !! i = None -> elem (cA t) i j = nofZ 0 /\ elem (cA t) j i = nofZ 0) as Hnone.
    { clear i j Hij. intros i j Hij Hi. unfold elem at 1. apply lookup_ge_None in Hi.
      rewrite (lookup_ge_None_2 (cA t) i) by (rewrite L; exact Hi). split; [done|].
      destruct (cParts s !! j) as [q|] eqn:Hq.
      - destruct (ppe_excluded (cEnv s) q) eqn:Ex.
        + rewrite (elem_excluded s t j q i) by done. destruct (Nat.eqb_spec i j); done.
        + destruct (Hl j q Hq) as (l & Hl' & _); [by eapply Hinc|]. rewrite (elem_other s t j q l i) by done.
          rewrite (lookup_ge_None_2 (cParts s) i) by done. by destruct (_ && _).
      - apply lookup_ge_None in Hq. unfold elem. rewrite (lookup_ge_None_2 (cA t) j) by (rewrite L; exact Hq). done. }
    destruct (cParts s !! i) as [p|] eqn:Hp; [|by destruct (Hnone i j) as [-> ->]].
    destruct (cParts s !! j) as [q|] eqn:Hq; [|destruct (Hnone j i (not_eq_sym Hij) Hq) as [-> ->]; done].
    assert (forall i p j q, i <> j -> cParts s !! i = Some p -> cParts s !! j = Some q -> ppe_excluded (cEnv s) p = true ->
      elem (cA t) i j = nofZ 0 /\ elem (cA t) j i = nofZ 0) as Hexc.
    { clear i j p q Hp Hq Hij. intros i p j q Hij Hp Hq Ex. rewrite (elem_excluded s t i p j) by done.
      destruct (Nat.eqb_spec j i); [done|]. split; [done|]. destruct (ppe_excluded (cEnv s) q) eqn:Ex'.
      - rewrite (elem_excluded s t j q i) by done. by destruct (Nat.eqb_spec i j).
      - destruct (Hl j q Hq) as (l & Hl' & Hen); [by eapply Hinc|]. rewrite (elem_other s t j q l i) by done.
        destruct (bool_decide (i ∈ l)) eqn:Hi; [|done]. apply bool_decide_eq_true in Hi. destruct (in_radius _ _ _); [|done]. simpl.
        rewrite Hp. destruct (column (cEnv s) p) eqn:Hc; [|done]. exfalso. rewrite is_surface_column, Hc in Ex.
        destruct (Hen i Hi) as (p' & Hp' & He). rewrite Hp in Hp'. injection Hp' as <-. unfold enabled in He.
        destruct (pT p); done. }
    destruct (ppe_excluded (cEnv s) p) eqn:Ex1; [destruct (Hexc i p j q) as [-> ->]; done|].
    destruct (ppe_excluded (cEnv s) q) eqn:Ex2; [destruct (Hexc j q i p) as [-> ->]; done|].
    destruct (Hl i p Hp) as (l & Hl1 & _); [by eapply Hinc|]. destruct (Hl j q Hq) as (l' & Hl2 & _); [by eapply Hinc|].
    rewrite (elem_other s t i p l j), (elem_other s t j q l' i) by done. rewrite Hp, Hq.
    assert (bool_decide (j ∈ l) = bool_decide (i ∈ l')) as ->.
    { apply bool_decide_ext. split; intros Hmem; [eapply (Hll i p j q)|eapply (Hll j q i p)]; eauto. }
    assert (in_radius s p j = in_radius s q i) as ->.
    { unfold in_radius. rewrite Hp, Hq. cbv zeta. by rewrite Hdot. }
    rewrite Hsym. rewrite is_surface_column in Ex1, Ex2. apply negb_false_iff, andb_true_iff in Ex1 as [-> _], Ex2 as [-> _]. done.
  Qed.
End Ppe.

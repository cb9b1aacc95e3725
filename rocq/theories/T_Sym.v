(** Property theorems: rotations, reflections, shifts and renumberings (C63). *)
From Verif Require Import P_Neigh P_Point P_Force P_Ppe P_Step T_Search T_Density T_Force T_Ppe T_Solve T_Grad T_Outcome T_Scheme S_Outcome P_Sym S_Sym.
Open Scope R_scope.

Lemma foldl_perm {A} (plus : A -> A -> A) (l l' : list A) z :
  (forall a x y, plus (plus a x) y = plus (plus a y) x) -> l ≡ₚ l' -> foldl plus z l = foldl plus z l'.
Proof.
  intros H HP. revert z. induction HP as [|x l l' HP IH|x y l|l1 l2 l3 H1 IH1 H2 IH2]; intros z; simpl; [done|apply IH|by rewrite H|by rewrite IH1].
Qed.
Lemma filter_map_eq {A B} (P : A -> Prop) (P' : B -> Prop) `{Da : forall a, Decision (P a)} `{Db : forall b, Decision (P' b)} (h : A -> B) l :
  (forall a, a ∈ l -> P' (h a) <-> P a) -> filter P' (map h l) = map h (filter P l).
Proof.
  induction l as [|a l IH]; intros HP; [done|]. cbn [map]. rewrite !filter_cons.
  assert (P' (h a) <-> P a) as Ha by (apply HP; left). rewrite IH by (intros; apply HP; by right).
  destruct (decide (P a)), (decide (P' (h a))); try tauto; done.
Qed.
Lemma filter_perm {A} (P : A -> Prop) `{forall a, Decision (P a)} (l l' : list A) : l ≡ₚ l' -> filter P l ≡ₚ filter P l'.
Proof. intros HP. by rewrite HP. Qed.

Section Form.
  Context {cfg : config} {wm : wallmotion Rnum (cDim cfg)}.
  Notation d := (cDim cfg).
  Notation V := (vec Rnum d).
  Notation part := (particle Rnum d).
  Notation computer := (computer cfg wm).
  Implicit Types (s : computer) (p q : part).

  Definition good_list s (i : nat) (l : list nat) : Prop :=
    forall j, j ∈ l -> j <> i /\ exists q, cParts s !! j = Some q /\ enabled q.
  Definition within s (i : nat) (l : list nat) : list nat := filter (close (eRe (cEnv s)) s i) l.
  Definition centre_of s p (m : list nat) : V :=
    vsum (map (fun j => at_part s j vzero (fun q => (wt (edist (pX p) (pX q)) (eRe (cEnv s)) : Rnum) *^ (pX q -^ pX p))) m) /^ eN0 (cEnv s).
  Definition virt s p (n : R) (m : list nat) : option part :=
    if cSPP cfg then
      if Rlt_dec n (eN0 (cEnv s)) then
        if Rlt_dec (/ 2 ^ 52) (len (centre_of s p m)) then
          Some (mkParticle (pX p -^ (eRe (cEnv s) / (eN0 (cEnv s) - n + 1) / len (centre_of s p m) : Rnum) *^ centre_of s p m) (pU p) 0 0 Newton)
        else None
      else None
    else None.
  (** A sum as the program forms it, over the members of the stored list that are within the radius now. *)
  Lemma acc_form {A} s i p l (n : R) (zero : A) plus g :
    0 <= eRe (cEnv s) -> cParts s !! i = Some p -> neighbor_list s i = Some l -> good_list s i l -> cNws s !! i = Some (n : Rnum) ->
    acc s i zero plus g =
      Some (let a := foldl plus zero (map (fun j => at_part s j zero (g (Z.of_nat j))) (within s i l)) in
            match virt s p n (within s i l) with Some v => plus a (g (-1)%Z v) | None => a end).
  Proof.
    intros Hre Hp Hl Hin Hn. unfold acc. rewrite Hl. cbn [mbind option_bind]. rewrite Hp. cbn [mbind option_bind].
    rewrite (acc_fold s i p plus g zero l (zero, vzero) Hre Hp Hin). cbn [mbind option_bind fst snd].
    fold (within s i l). set (a := foldl plus zero _). set (c := foldl vadd vzero _).
    assert (c /^ (eN0 (cEnv s)) = centre_of s p (within s i l)) as Hcent.
    { unfold c, centre_of. by rewrite foldl_vadd, vadd_0_l. }
    unfold virt. destruct (cSPP cfg); [|done].
    unfold acc_spp. rewrite Hn. cbn [mbind option_bind fst snd]. rewrite Hcent. unfold nltb at 1. cbn [Rnum]. destruct (Rlt_dec n (eN0 (cEnv s))); [|done].
    assert (@nsqrt Rnum (vdot (centre_of s p (within s i l)) (centre_of s p (within s i l))) = len (centre_of s p (within s i l))) as Hlen.
    { unfold len. by rewrite vdot_inner. }
    rewrite Hlen. unfold nltb. cbn [Rnum].
    assert (@neps Rnum = / 2 ^ 52) as Heps.
    { unfold neps. cbn [ndiv Rnum nofZ]. rewrite pow_IZR. unfold Rdiv. rewrite Rmult_1_l. done. }
    rewrite Heps. destruct (Rlt_dec (/ 2 ^ 52) _); [|done]. done.
  Qed.
End Form.

Section Sym.
  Context {cfg : config} {wm wm' : wallmotion Rnum (cDim cfg)}.
  Notation d := (cDim cfg).
  Notation V := (vec Rnum d).
  Notation part := (particle Rnum d).
  Context (Q : nat -> nat -> R) (HQ : orthogonal (dimn d) Q) (b : V) (f : nat -> nat).
  Notation computer := (M_Computer.computer cfg wm).
  Notation computer' := (M_Computer.computer cfg wm').
  Implicit Types (p q : part) (s : computer) (t : computer').
  Notation rot := (rotate (cfg := cfg) Q).
  Notation T := (carry (cfg := cfg) Q b).
  Notation cp := (carry_part (cfg := cfg) Q b).

  (** Corresponding states in the course of a step. *)
  Record fit s t : Prop := {
    fi_frame : same_frame Q b f (cParts s) (cParts t);
    fi_world : same_world Q b (cEnv s) (cEnv t);
    fi_re : 0 <= eRe (cEnv s);
    fi_lists : forall i p, cParts s !! i = Some p -> enabled p ->
      exists l l', neighbor_list s i = Some l /\ neighbor_list t (f i) = Some l' /\ l' ≡ₚ map f l /\ good_list s i l;
    fi_nws : forall i, (i < psize s)%nat -> exists n : R, cNws s !! i = Some (n : Rnum) /\ cNws t !! f i = Some (n : Rnum);
  }.
  Lemma fit_at s t i p : fit s t -> cParts s !! i = Some p -> cParts t !! f i = Some (cp p).
  Proof. intros H. apply (proj2 (proj2 (fi_frame s t H))). Qed.
  Lemma fit_lt s t i p : fit s t -> cParts s !! i = Some p -> (i < psize s)%nat.
  Proof. intros _ Hp. by eapply lookup_lt_Some. Qed.
  Lemma fit_inj s t i j : fit s t -> (i < psize s)%nat -> (j < psize s)%nat -> f i = f j -> i = j.
  Proof. intros H. apply (proj1 (proj2 (fi_frame s t H))). Qed.
  Lemma fit_onto s t j q : fit s t -> cParts t !! j = Some q -> exists i p, j = f i /\ cParts s !! i = Some p /\ q = cp p.
  Proof.
    intros H Hq. destruct (fi_frame s t H) as (HL & HR & HF).
    destruct (renumbering_onto (length (cParts s)) f j HR) as (i & Hi & ->); [rewrite <- HL; by eapply lookup_lt_Some|].
    destruct (lookup_lt_is_Some_2 _ _ Hi) as [p Hp]. exists i, p. split; [done|]. split; [done|]. rewrite (HF i p Hp) in Hq. by injection Hq.
  Qed.
  Lemma fit_close s t r i j : fit s t -> (i < psize s)%nat -> (j < psize s)%nat -> close r t (f i) (f j) <-> close r s i j.
  Proof.
    intros H Hi Hj. destruct (lookup_lt_is_Some_2 (cParts s) i Hi) as [p Hp]. destruct (lookup_lt_is_Some_2 (cParts s) j Hj) as [q Hq].
    unfold close. rewrite (fit_at s t i p H Hp), (fit_at s t j q H Hq). split.
    - intros (Hne & p1 & q1 & [= <-] & [= <-] & He & Hd). split; [congruence|]. exists p, q. cbn [pX carry_part pT] in *.
      rewrite edist_carry in Hd by done. done.
    - intros (Hne & p1 & q1 & E1 & E2 & He & Hd). rewrite Hp in E1. rewrite Hq in E2. injection E1 as <-. injection E2 as <-. split.
      + intros E. apply Hne. by apply (fit_inj s t).
      + exists (cp p), (cp q). cbn [pX carry_part]. by rewrite edist_carry.
  Qed.
  Lemma fit_good s t i p l l' : fit s t -> cParts s !! i = Some p -> good_list s i l -> l' ≡ₚ map f l -> good_list t (f i) l'.
  Proof.
    intros H Hp Hg HP j' Hj'. rewrite HP in Hj'. apply elem_of_list_fmap in Hj' as (j & -> & Hj). destruct (Hg j Hj) as (Hne & q & Hq & He).
    split.
    - intros E. apply Hne. eapply (fit_inj s t); [done|by eapply fit_lt..|done].
    - exists (cp q). split; [by apply (fit_at s t)|done].
  Qed.
  Lemma fit_within s t i p l l' : fit s t -> cParts s !! i = Some p -> good_list s i l -> l' ≡ₚ map f l ->
    within t (f i) l' ≡ₚ map f (within s i l).
  Proof.
    intros H Hp Hg HP. unfold within. rewrite (filter_perm _ _ _ HP). rewrite (sw_re _ _ _ _ (fi_world s t H)).
    rewrite (filter_map_eq (close (eRe (cEnv s)) s i) (close (eRe (cEnv s)) t (f i)) f); [done|]. intros j Hj. destruct (Hg j Hj) as (_ & q & Hq & _).
    apply fit_close; [done|by eapply fit_lt..].
  Qed.
  Lemma rot_vsum (l : list V) : rot (vsum l) = vsum (map rot l).
  Proof.
    apply coord_ext. intros a Ha. rewrite coord_rot, coord_vsum by done.
    rewrite (sum_n_ext _ _ (fun k => rsum (map (fun v => Q a k * coord v k) l))).
    - unfold sum_n. rewrite rsum_map_swap, map_map. apply rsum_map_ext. intros v _. rewrite coord_rot by done. done.
    - intros k Hk. rewrite coord_vsum by done. by rewrite rsum_map_scal.
  Qed.
  Lemma fit_part {A} s t j (z z' : A) (g g' : part -> A) (h : A -> A) : fit s t -> (exists q, cParts s !! j = Some q) ->
    (forall q, cParts s !! j = Some q -> g' (cp q) = h (g q)) -> at_part t (f j) z' g' = h (at_part s j z g).
  Proof. intros H [q Hq] Hg. unfold at_part. rewrite (fit_at s t j q H Hq), Hq. by apply Hg. Qed.
  Lemma centre_sym s t i p m m' : fit s t -> m' ≡ₚ map f m -> (forall j, j ∈ m -> exists q, cParts s !! j = Some q) ->
    cParts s !! i = Some p -> centre_of t (cp p) m' = rot (centre_of s p m).
  Proof.
    intros H HP Hm Hp. unfold centre_of. rewrite (sw_n0 _ _ _ _ (fi_world s t H)), rot_div. f_equal.
    rewrite (vsum_perm _ _ (Permutation_map _ HP)), rot_vsum, !map_map. f_equal. apply map_ext_in. intros j Hj%elem_of_list_In.
    apply (fit_part s t j vzero vzero (fun q => (wt (edist (pX p) (pX q)) (eRe (cEnv s)) : Rnum) *^ (pX q -^ pX p)) (fun q => (wt (edist (pX (cp p)) (pX q)) (eRe (cEnv t)) : Rnum) *^ (pX q -^ pX (cp p))) rot); [done|by apply Hm|].
    intros q _. cbn [pX carry_part]. rewrite edist_carry by done. rewrite carry_sub, rot_scal. by rewrite (sw_re _ _ _ _ (fi_world s t H)).
  Qed.
  Lemma virt_sym s t i p (n : R) m m' : fit s t -> m' ≡ₚ map f m -> (forall j, j ∈ m -> exists q, cParts s !! j = Some q) ->
    cParts s !! i = Some p -> virt t (cp p) n m' = cp <$> virt s p n m.
  Proof.
    intros H HP Hm Hp. unfold virt. rewrite (centre_sym s t i p m m') by done. rewrite len_rot by done.
    rewrite (sw_n0 _ _ _ _ (fi_world s t H)), (sw_re _ _ _ _ (fi_world s t H)).
    destruct (cSPP cfg); [|done]. destruct (Rlt_dec _ _); [|done]. destruct (Rlt_dec _ _); [|done]. cbn. f_equal.
    unfold carry_part. cbn [pX pU pP pN pT]. f_equal. rewrite carry_minus, rot_scal. done.
  Qed.

  (** Corresponding sums. *)
  Lemma acc_sym {A} s t i p (h : A -> A) (zero : A) plus g g' :
    fit s t -> cParts s !! i = Some p -> enabled p ->
    h zero = zero -> (forall x y, h (plus x y) = plus (h x) (h y)) -> (forall a x y, plus (plus a x) y = plus (plus a y) x) ->
    (forall j q, cParts s !! j = Some q -> j <> i -> enabled q -> g' (Z.of_nat (f j)) (cp q) = h (g (Z.of_nat j) q)) ->
    (cSPP cfg = true -> forall v, pT v = Newton -> g' (-1)%Z (cp v) = h (g (-1)%Z v)) ->
    exists a, acc s i zero plus g = Some a /\ acc t (f i) zero plus g' = Some (h a).
  Proof.
    intros H Hp He H0 Hh Hc Hg Hv. destruct (fi_lists s t H i p Hp He) as (l & l' & Hl & Hl' & HP & Hgood).
    destruct (fi_nws s t H i (fit_lt s t i p H Hp)) as (n & Hn & Hn').
    pose proof (acc_form s i p l n zero plus g (fi_re s t H) Hp Hl Hgood Hn) as E.
    assert (0 <= eRe (cEnv t)) as HRe by (rewrite (sw_re _ _ _ _ (fi_world s t H)); apply (fi_re s t H)).
    pose proof (acc_form t (f i) (cp p) l' n zero plus g' HRe (fit_at s t i p H Hp) Hl' (fit_good s t i p l l' H Hp Hgood HP) Hn') as E'.
    pose proof (fit_within s t i p l l' H Hp Hgood HP) as HW.
    assert (forall j, j ∈ within s i l -> j <> i /\ exists q, cParts s !! j = Some q /\ enabled q) as Hm.
    { intros j Hj. apply elem_of_list_filter in Hj as [_ Hj]. by apply Hgood. }
    rewrite (virt_sym s t i p n _ _ H HW) in E'; [|intros j Hj; destruct (Hm j Hj) as (_ & q & ? & _); by exists q|done].
    eexists. split; [exact E|]. rewrite E'. cbv zeta. f_equal.
    rewrite (foldl_perm plus _ _ zero Hc (Permutation_map _ HW)), map_map.
    assert (foldl plus zero (map (fun j => at_part t (f j) zero (g' (Z.of_nat (f j)))) (within s i l)) =
            h (foldl plus zero (map (fun j => at_part s j zero (g (Z.of_nat j))) (within s i l)))) as EF.
    { assert (forall (m : list nat) z, (forall j, j ∈ m -> j <> i /\ exists q, cParts s !! j = Some q /\ enabled q) ->
        foldl plus (h z) (map (fun j => at_part t (f j) zero (g' (Z.of_nat (f j)))) m) = h (foldl plus z (map (fun j => at_part s j zero (g (Z.of_nat j))) m))) as HH.
      { induction m as [|j m IH]; intros z Hm'; [done|]. cbn [map foldl]. destruct (Hm' j ltac:(by left)) as (Hne & q & Hq & Heq).
        rewrite (fit_part s t j zero zero (g (Z.of_nat j)) (g' (Z.of_nat (f j))) h H); [|eauto|intros q0 Hq0; apply Hg; [done|done|congruence]].
        rewrite <- Hh. apply IH. intros j' Hj'. apply Hm'. by right. }
      specialize (HH (within s i l) zero Hm). rewrite H0 in HH. exact HH. }
    rewrite EF. destruct (virt s p n (within s i l)) as [v|] eqn:EV; [|done]. cbn [fmap option_fmap option_map].
    unfold virt in EV. destruct (cSPP cfg) eqn:HS; [|done]. destruct (Rlt_dec _ _); [|done]. destruct (Rlt_dec _ _); [|done]. injection EV as <-.
    rewrite Hv by done. by rewrite Hh.
  Qed.
  Lemma acc_sym_R s t i p g g' :
    fit s t -> cParts s !! i = Some p -> enabled p ->
    (forall j q, cParts s !! j = Some q -> j <> i -> enabled q -> g' (Z.of_nat (f j)) (cp q) = g (Z.of_nat j) q) ->
    (cSPP cfg = true -> forall v, pT v = Newton -> g' (-1)%Z (cp v) = g (-1)%Z v) ->
    exists a, acc s i (@nofZ Rnum 0) (@nadd Rnum) g = Some a /\ acc t (f i) (@nofZ Rnum 0) (@nadd Rnum) g' = Some a.
  Proof.
    intros H Hp He Hg Hv. apply (acc_sym s t i p (fun x => x)); try done. intros a x y. cbn [nadd Rnum]. change (a + x + y = a + y + x). ring.
  Qed.
  Lemma acc_sym_V s t i p g g' :
    fit s t -> cParts s !! i = Some p -> enabled p ->
    (forall j q, cParts s !! j = Some q -> j <> i -> enabled q -> g' (Z.of_nat (f j)) (cp q) = rot (g (Z.of_nat j) q)) ->
    (cSPP cfg = true -> forall v, pT v = Newton -> g' (-1)%Z (cp v) = rot (g (-1)%Z v)) ->
    exists a, acc s i vzero vadd g = Some a /\ acc t (f i) vzero vadd g' = Some (rot a).
  Proof.
    intros H Hp He Hg Hv. apply (acc_sym s t i p rot); try done; [apply rot_zero|intros; apply rot_add|].
    intros a x y. by rewrite <- !vadd_assoc, (vadd_comm x).
  Qed.
  Lemma acc_sym_M s t i p g g' :
    fit s t -> cParts s !! i = Some p -> enabled p ->
    (forall j q, cParts s !! j = Some q -> j <> i -> enabled q -> g' (Z.of_nat (f j)) (cp q) = mrot (cfg := cfg) Q (g (Z.of_nat j) q)) ->
    (cSPP cfg = true -> forall v, pT v = Newton -> g' (-1)%Z (cp v) = mrot (cfg := cfg) Q (g (-1)%Z v)) ->
    exists a, acc s i mzero madd g = Some a /\ acc t (f i) mzero madd g' = Some (mrot (cfg := cfg) Q a).
  Proof.
    intros H Hp He Hg Hv. apply (acc_sym s t i p (mrot (cfg := cfg) Q)); try done; [apply mrot_zero|intros; apply mrot_add|].
    intros a x y. apply mat_ext. intros k l Hk Hl. unfold madd. rewrite !mget_mmk by done. cbn [nadd Rnum].
    change (mget a k l + mget x k l + mget y k l = mget a k l + mget y k l + mget x k l)%R. ring.
  Qed.

  (** ** The phases *)
  Lemma fit_keep s t s' t' : fit s t -> phase_rel s s' -> phase_rel t t' ->
    (forall i p, cParts s !! i = Some p -> exists p', cParts s' !! i = Some p' /\ cParts t' !! f i = Some (cp p')) ->
    (forall i, (i < psize s)%nat -> exists n : R, cNws s' !! i = Some (n : Rnum) /\ cNws t' !! f i = Some (n : Rnum)) ->
    fit s' t'.
  Proof.
    intros H P P' HX HN. destruct (fi_frame s t H) as (HL & HR & HF).
    pose proof (pr_size _ _ P) as S1. pose proof (pr_size _ _ P') as S2. split.
    - split; [unfold psize in *; congruence|]. split; [unfold psize in *; by rewrite S1|].
      intros i p' Hp'. destruct (phase_type _ _ _ _ P Hp') as (p & Hp & _). destruct (HX i p Hp) as (p1 & Hp1 & Ht1). congruence.
    - rewrite (pr_env _ _ P), (pr_env _ _ P'). apply H.
    - rewrite (pr_env _ _ P). apply H.
    - intros i p' Hp' He. destruct (phase_type _ _ _ _ P Hp') as (p & Hp & Ht). destruct (fi_lists s t H i p Hp) as (l & l' & Hl & Hl' & HP & Hg).
      { unfold enabled in *. congruence. }
      exists l, l'. split; [by rewrite (neighbor_list_ext s' s) by (by rewrite (pr_nb _ _ P))|].
      split; [by rewrite (neighbor_list_ext t' t) by (by rewrite (pr_nb _ _ P'))|]. split; [done|].
      intros j Hj. destruct (Hg j Hj) as (Hne & q & Hq & Heq). split; [done|]. destruct (HX j q Hq) as (q' & Hq' & _). exists q'. split; [done|].
      destruct (phase_type _ _ _ _ P Hq') as (q0 & Hq0 & Ht0). unfold enabled in *. congruence.
    - intros i Hi. rewrite S1 in Hi. by apply HN.
  Qed.
  Lemma fit_nws_same s t s' t' : fit s t -> cNws s' = cNws s -> cNws t' = cNws t ->
    forall i, (i < psize s)%nat -> exists n : R, cNws s' !! i = Some (n : Rnum) /\ cNws t' !! f i = Some (n : Rnum).
  Proof. intros H -> ->. apply H. Qed.
  Lemma active_enabled p : is_active (pT p) = true -> enabled p.
  Proof. unfold is_active, enabled. destruct (pT p); done. Qed.
  Lemma newton_enabled p : is_newton (pT p) = true -> enabled p.
  Proof. unfold enabled. destruct (pT p); done. Qed.

  Lemma fit_set_nws s t i p (n : R) : fit s t -> cParts s !! i = Some p ->
    fit (with_nws s (<[i := (n : Rnum)]> (cNws s))) (with_nws t (<[f i := (n : Rnum)]> (cNws t))).
  Proof.
    intros H Hp. pose proof (fit_lt s t i p H Hp) as Hi. split; try apply H. intros j Hj. change (j < psize s)%nat in Hj.
    destruct (fi_nws s t H j Hj) as (m & H1 & H2). cbn [cNws with_nws]. destruct (decide (i = j)) as [->|Hne].
    - exists n. split; apply list_lookup_insert; by eapply lookup_lt_Some.
    - exists m. split; rewrite list_lookup_insert_ne; try done. intros E. apply Hne. by apply (fit_inj s t).
  Qed.

  Lemma dens_sym s t s' t' : fit s t -> compute_densities s = Some s' -> compute_densities t = Some t' -> fit s' t'.
  Proof.
    intros H H1 H2. pose proof (fi_world s t H) as W.
    assert (forall i p, cParts s !! i = Some p -> exists p' (n : R), cParts s' !! i = Some p' /\ cParts t' !! f i = Some (cp p') /\
      cNws s' !! i = Some (n : Rnum) /\ cNws t' !! f i = Some (n : Rnum)) as HX.
    { intros i p Hp. pose proof (dens_at s s' i p H1 Hp) as A1. pose proof (dens_at t t' (f i) (cp p) H2 (fit_at s t i p H Hp)) as A2.
      cbn [pT carry_part] in A2. destruct (is_active (pT p)) eqn:Ha.
      - destruct A1 as (n & A1 & B1 & C1). destruct A2 as (n' & A2 & B2 & C2). rewrite (sw_n0 _ _ _ _ W), (sw_re _ _ _ _ W) in A2. rewrite (sw_n0 _ _ _ _ W) in B2.
        destruct (acc_sym_R _ _ i p (dens_func cfg (pX p) (eRe (cEnv s))) (dens_func cfg (pX (cp p)) (eRe (cEnv s))) (fit_set_nws s t i p (eN0 (cEnv s)) H Hp) Hp (active_enabled p Ha)) as (a & E1 & E2).
        { intros j q _ _ _. unfold dens_func. cbn [pX carry_part]. rewrite dist_carry by done.
          assert (Z.of_nat (f j) <? 0 = false)%Z as -> by lia. assert (Z.of_nat j <? 0 = false)%Z as -> by lia. done. }
        { intros HS v _. unfold dens_func. rewrite HS. done. }
        rewrite A1 in E1. injection E1 as ->. pose proof (eq_trans (eq_sym A2) E2) as E. injection E as ->.
        eexists _, a. split; [exact B1|]. split; [exact B2|]. done.
      - destruct A1 as [B1 C1]. destruct A2 as [B2 C2]. rewrite (sw_n0 _ _ _ _ W) in C2. eauto 10. }
    apply (fit_keep s t); [done|by apply dens_pr..| |].
    - intros i p Hp. destruct (HX i p Hp) as (p' & n & ? & ? & _). eauto.
    - intros i Hi. destruct (lookup_lt_is_Some_2 (cParts s) i Hi) as [p Hp]. destruct (HX i p Hp) as (p' & n & _ & _ & ? & ?). eauto.
  Qed.

  Lemma speed_sym s t i p : fit s t -> cParts s !! i = Some p -> enabled p -> exists v, density_speed s i = Some v /\ density_speed t (f i) = Some v.
  Proof.
    intros H Hp He. pose proof (fi_world s t H) as W. unfold density_speed. rewrite Hp, (fit_at s t i p H Hp). cbn [mbind option_bind].
    rewrite (sw_n0 _ _ _ _ W), (sw_re _ _ _ _ W), (sw_dt _ _ _ _ W). destruct (cHS cfg); [|by eexists].
    destruct (acc_sym_R s t i p (speed_func cfg (pX p) (pU p)) (speed_func cfg (pX (cp p)) (pU (cp p))) H Hp He) as (a & -> & ->).
    { intros j q _ _ _. unfold speed_func. cbn [pX pU carry_part]. rewrite carry_sub, <- rot_sub. by rewrite vdot_rot, vnorm_rot. }
    { intros _ q _. unfold speed_func. cbn [pX pU carry_part]. rewrite carry_sub, <- rot_sub. by rewrite vdot_rot, vnorm_rot. }
    cbn [mbind option_bind]. destruct (cSPP cfg); [|by eexists].
    destruct (fi_nws s t H i (fit_lt s t i p H Hp)) as (n & -> & ->). cbn [mbind option_bind]. destruct (_ <?. _); by eexists.
  Qed.

  Definition ecs_fit s t : Prop := forall i p, cParts s !! i = Some p -> is_active (pT p) = true ->
    exists e : R, cEcs s !! i = Some (e : Rnum) /\ cEcs t !! f i = Some (e : Rnum).
  Lemma ecs_sym s t s' t' : fit s t -> compute_ecs s = Some s' -> compute_ecs t = Some t' -> fit s' t' /\ ecs_fit s' t'.
  Proof.
    intros H H1 H2. pose proof (fi_world s t H) as W. pose proof (ecs_rest s s' H1) as R1. pose proof (ecs_rest t t' H2) as R2. split.
    - apply (fit_keep s t); [done|by apply ecs_pr..| |].
      + intros i p Hp. exists p. rewrite R1, R2. split; [done|by apply (fit_at s t)].
      + rewrite R1, R2. apply (fit_nws_same s t); done.
    - intros i p Hp Ha. rewrite R1 in Hp. cbn in Hp. pose proof (ecs_at s s' i p H1 Hp) as A1. pose proof (ecs_at t t' (f i) (cp p) H2 (fit_at s t i p H Hp)) as A2.
      cbn [pT carry_part] in A2. rewrite Ha in A1, A2. destruct A1 as (v1 & S1 & E1). destruct A2 as (v2 & S2 & E2).
      destruct (speed_sym s t i p H Hp (active_enabled p Ha)) as (v & K1 & K2). rewrite S1 in K1. injection K1 as ->. rewrite S2 in K2. injection K2 as ->.
      cbn [pN carry_part] in E2. rewrite (sw_n0 _ _ _ _ W) in E2. eauto.
  Qed.

  Lemma vis_sym s t i p : fit s t -> cParts s !! i = Some p -> enabled p ->
    exists a, acc s i vzero vadd (vis_func (cEnv s) (pX p) (pU p)) = Some a /\
      acc t (f i) vzero vadd (vis_func (cEnv t) (pX (cp p)) (pU (cp p))) = Some (rot a).
  Proof.
    intros H Hp He. pose proof (fi_world s t H) as W.
    assert (forall j j' q, vis_func (cEnv t) (pX (cp p)) (pU (cp p)) j' (cp q) = rot (vis_func (cEnv s) (pX p) (pU p) j q)) as HH.
    { intros j j' q. unfold vis_func. cbn [pT pX pU carry_part]. destruct (is_dummy _); [by rewrite rot_zero|].
      rewrite dist_carry by done. rewrite (sw_nu _ _ _ _ W), (sw_re _ _ _ _ W), (sw_n0 _ _ _ _ W), (sw_lambda _ _ _ _ W), <- rot_sub.
      cbv zeta. destruct (cHL cfg); by rewrite rot_scal. }
    apply (acc_sym_V s t i p); try done; intros; apply HH.
  Qed.
  Lemma explicit_sym s t s' t' : fit s t -> compute_explicit s = Some s' -> compute_explicit t = Some t' ->
    (forall i, (i < psize s)%nat ->
      wPos wm' (wPre wm' (cWall t) (eT (cEnv t)) (eDt (cEnv t))) (f i) (eT (cEnv t)) (eDt (cEnv t)) =
      T (wPos wm (wPre wm (cWall s) (eT (cEnv s)) (eDt (cEnv s))) i (eT (cEnv s)) (eDt (cEnv s)))) ->
    fit s' t'.
  Proof.
    intros H H1 H2 HW. pose proof (fi_world s t H) as W. pose proof (explicit_rest s s' H1) as R1. pose proof (explicit_rest t t' H2) as R2.
    apply (fit_keep s t); [done|by apply explicit_pr..| |].
    - intros i p Hp. pose proof (explicit_at s s' i p H1 Hp) as A1. pose proof (explicit_at t t' (f i) (cp p) H2 (fit_at s t i p H Hp)) as A2.
      cbv zeta in A1, A2. cbn [pT carry_part] in A2. destruct (is_newton (pT p)) eqn:Hn.
      + destruct A1 as (a & A1 & B1). destruct A2 as (a' & A2 & B2). destruct (vis_sym s t i p H Hp (newton_enabled p Hn)) as (v & E1 & E2).
        rewrite A1 in E1. injection E1 as ->. rewrite A2 in E2. injection E2 as ->.
        eexists. split; [exact B1|]. etransitivity; [exact B2|]. f_equal. rewrite (sw_dt _ _ _ _ W).
        unfold set_U, set_X, carry_part. cbn [pX pU pP pN pT]. 
        rewrite !(gravity_R (wm := wm)), (sw_g _ _ _ _ W), <- rot_add, <- rot_scalr, <- rot_add, <- rot_scalr, <- carry_add. done.
      + eexists. split; [exact A1|]. etransitivity; [exact A2|]. f_equal. rewrite HW by (by apply (fit_lt s t i p)). rewrite (sw_dt _ _ _ _ W).
        unfold set_U, set_X, carry_part. cbn [pX pU pP pN pT]. by rewrite carry_sub, <- rot_div.
    - rewrite R1, R2. apply (fit_nws_same s t); done.
  Qed.

  Definition orig_fit s t : Prop := forall i p, cParts s !! i = Some p -> is_active (pT p) = true ->
    exists x, cOrigX s !! i = Some x /\ cOrigX t !! f i = Some (T x).
  Lemma savex_sym s t s' t' : fit s t -> save_x s = Some s' -> save_x t = Some t' -> fit s' t' /\ orig_fit s' t'.
  Proof.
    intros H H1 H2. pose proof (savex_rest s s' H1) as R1. pose proof (savex_rest t t' H2) as R2. split.
    - apply (fit_keep s t); [done|by apply savex_pr..| |].
      + intros i p Hp. exists p. rewrite R1, R2. split; [done|by apply (fit_at s t)].
      + rewrite R1, R2. apply (fit_nws_same s t); done.
    - intros i p Hp Ha. rewrite R1 in Hp. cbn in Hp. exists (pX p). split; [by apply (savex_at s s' i p)|].
      apply (savex_at t t' (f i) (cp p) H2); [by apply (fit_at s t)|done].
  Qed.

  (** ** Pressure equation *)
  Lemma excluded_sym s t p : fit s t -> ppe_excluded (cEnv t) (cp p) = ppe_excluded (cEnv s) p.
  Proof. intros H. pose proof (fi_world s t H) as W. unfold ppe_excluded. cbn [pT pN carry_part]. by rewrite (sw_n0 _ _ _ _ W), (sw_surf _ _ _ _ W). Qed.
  Lemma acc_second {wm0 : wallmotion Rnum (cDim cfg)} (u : M_Computer.computer cfg wm0) i p l (n : R) (F : Z -> part -> mrow (N := Rnum) * Rnum) a :
    0 <= eRe (cEnv u) -> cParts u !! i = Some p -> neighbor_list u i = Some l -> good_list u i l -> cNws u !! i = Some (n : Rnum) ->
    acc u i ppe_zero ppe_plus F = Some a -> acc u i (@nofZ Rnum 0) (@nadd Rnum) (fun j q => (F j q).2) = Some a.2.
  Proof.
    intros Hre Hp Hl Hg Hn Ha. rewrite (acc_form u i p l n) by done. rewrite (acc_form u i p l n) in Ha by done. injection Ha as <-. f_equal. cbv zeta.
    assert (forall m (z : mrow (N := Rnum) * Rnum), foldl (@nadd Rnum) z.2 (map (fun j => at_part u j (nofZ 0) (fun q => (F (Z.of_nat j) q).2)) m) =
      (foldl ppe_plus z (map (fun j => at_part u j ppe_zero (F (Z.of_nat j))) m)).2) as HH.
    { induction m as [|j m IH]; intros z; [done|]. cbn [map foldl]. rewrite <- IH. f_equal. unfold ppe_plus. cbn [snd]. f_equal. unfold at_part. by destruct (cParts u !! j). }
    specialize (HH (within u i l) ppe_zero). cbn [snd ppe_zero] in HH. rewrite HH. by destruct (virt u p n (within u i l)).
  Qed.
  Lemma coef_sym s t p q j j' : fit s t -> (j <? 0)%Z = (j' <? 0)%Z ->
    (ppe_func (cEnv t) (pX (cp p)) j' (cp q)).2 = (ppe_func (cEnv s) (pX p) j q).2.
  Proof.
    intros H _. pose proof (fi_world s t H) as W. unfold ppe_func. cbn [pT pX pN carry_part]. destruct (is_dummy _); [done|]. cbn [snd].
    rewrite dist_carry by done. unfold ppe_coef. by rewrite (sw_n0 _ _ _ _ W), (sw_re _ _ _ _ W), (sw_lambda _ _ _ _ W).
  Qed.
  Lemma diag_sym s t s' t' i p : fit s t -> set_ppe s = Some s' -> set_ppe t = Some t' ->
    cParts s !! i = Some p -> ppe_excluded (cEnv s) p = false -> elem (cA t') (f i) (f i) = elem (cA s') i i.
  Proof.
    intros H H1 H2 Hp Hx. pose proof (fit_at s t i p H Hp) as Hp'.
    assert (ppe_excluded (cEnv t) (cp p) = false) as Hx' by (by rewrite (excluded_sym s t)).
    assert (enabled p) as He. { apply active_enabled. unfold ppe_excluded in Hx. by destruct (is_active (pT p)). }
    destruct (set_ppe_at s s' i p H1 Hp) as (_ & es & E1 & _). destruct (set_ppe_at t t' (f i) (cp p) H2 Hp') as (_ & es' & E2 & _).
    unfold row_entries in E1, E2. rewrite Hx in E1. rewrite Hx' in E2.
    destruct (acc s i _ _ _) as [a|] eqn:A1; [|done]. destruct (acc t (f i) _ _ _) as [a'|] eqn:A2; [|done].
    rewrite (elem_diag s s' i p a) by done. rewrite (elem_diag t t' (f i) (cp p) a') by done.
    destruct (fi_lists s t H i p Hp He) as (l & l' & Hl & Hl' & HP & Hg). destruct (fi_nws s t H i (fit_lt s t i p H Hp)) as (n & Hn & Hn').
    apply (acc_second s i p l n) in A1; [|apply H|done..].
    apply (acc_second t (f i) (cp p) l' n) in A2; [|rewrite (sw_re _ _ _ _ (fi_world s t H)); apply H|done|done|by eapply fit_good|done].
    destruct (acc_sym_R s t i p (fun j q => (ppe_func (cEnv s) (pX p) j q).2) (fun j q => (ppe_func (cEnv t) (pX (cp p)) j q).2) H Hp He) as (v & K1 & K2).
    { intros j q _ _ _. apply coef_sym; [done|]. destruct (Z.ltb_spec (Z.of_nat j) 0), (Z.ltb_spec (Z.of_nat (f j)) 0); try lia; done. }
    { intros _ v _. by apply coef_sym. }
    rewrite A1 in K1. injection K1 as K1. pose proof (eq_trans (eq_sym A2) K2) as K3. injection K3 as K3. exact (eq_trans K3 (eq_sym K1)).
  Qed.
  Lemma elem_sym s t s' t' : fit s t -> set_ppe s = Some s' -> set_ppe t = Some t' ->
    forall i j, (i < psize s)%nat -> (j < psize s)%nat -> elem (cA t') (f i) (f j) = elem (cA s') i j.
  Proof.
    intros H H1 H2 i j Hi Hj. destruct (lookup_lt_is_Some_2 (cParts s) i Hi) as [p Hp]. destruct (lookup_lt_is_Some_2 (cParts s) j Hj) as [q Hq].
    pose proof (fit_at s t i p H Hp) as Hp'. pose proof (fit_at s t j q H Hq) as Hq'. pose proof (fi_world s t H) as W.
    destruct (ppe_excluded (cEnv s) p) eqn:Hx.
    - rewrite (elem_excluded s s' i p) by done. rewrite (elem_excluded t t' (f i) (cp p)) by (try done; by rewrite (excluded_sym s t)).
      destruct (Nat.eqb_spec j i) as [->|Hne]; [by rewrite Nat.eqb_refl|]. destruct (Nat.eqb_spec (f j) (f i)) as [E|]; [|done].
      destruct Hne. by apply (fit_inj s t).
    - destruct (decide (j = i)) as [->|Hne]; [by apply (diag_sym s t s' t' i p)|].
      assert (enabled p) as He. { apply active_enabled. unfold ppe_excluded in Hx. by destruct (is_active (pT p)). }
      destruct (fi_lists s t H i p Hp He) as (l & l' & Hl & Hl' & HP & Hg).
      rewrite (elem_other s s' i p l) by done.
      assert (f j <> f i) as Hne' by (intros E; apply Hne; by apply (fit_inj s t)). assert (ppe_excluded (cEnv t) (cp p) = false) as Hx' by (by rewrite (excluded_sym s t)).
      rewrite (elem_other t t' (f i) (cp p) l') by done.
      rewrite Hq, Hq'.
      assert (bool_decide (f j ∈ l') = bool_decide (j ∈ l)) as ->.
      { apply bool_decide_ext. rewrite HP, elem_of_list_fmap. split; [|eauto]. intros (k & E & Hk).
        destruct (Hg k Hk) as (_ & qk & Hqk & _). apply (fit_inj s t) in E; [by subst|done|done|by eapply (fit_lt s t)]. }
      assert (in_radius t (cp p) (f j) = in_radius s p j) as ->.
      { unfold in_radius. rewrite Hq, Hq'. cbn [pX carry_part]. rewrite carry_sub, vdot_rot by done. by rewrite (sw_re _ _ _ _ W). }
      assert (column (cEnv t) (cp q) = column (cEnv s) q) as ->.
      { unfold column. cbn [pT pN carry_part]. by rewrite (sw_n0 _ _ _ _ W), (sw_surf _ _ _ _ W). }
      cbn [pX carry_part]. rewrite dist_carry by done. unfold ppe_coef. by rewrite (sw_n0 _ _ _ _ W), (sw_re _ _ _ _ W), (sw_lambda _ _ _ _ W).
  Qed.
  Lemma rhs_sym s t i p : fit s t -> (cECS cfg = true -> ecs_fit s t) -> cParts s !! i = Some p -> rhs_value t (f i) (cp p) = rhs_value s i p.
  Proof.
    intros H HE Hp. pose proof (fi_world s t H) as W. unfold rhs_value. rewrite (excluded_sym s t) by done. destruct (ppe_excluded (cEnv s) p) eqn:Hx; [done|].
    assert (is_active (pT p) = true) as Ha. { unfold ppe_excluded in Hx. by destruct (is_active (pT p)). }
    destruct (speed_sym s t i p H Hp (active_enabled p Ha)) as (v & -> & ->). cbn [mbind option_bind].
    rewrite (sw_rho _ _ _ _ W), (sw_n0 _ _ _ _ W), (sw_dt _ _ _ _ W). destruct (cECS cfg); [|done].
    destruct (HE eq_refl i p Hp Ha) as (e & -> & ->). done.
  Qed.
  Definition lists_ok {wm0 : wallmotion Rnum (cDim cfg)} (u : M_Computer.computer cfg wm0) : Prop := length (cXv u) = length (cA u) /\ length (cBv u) = length (cA u).
  Lemma solve_sym s t s' t' : fit s t -> (cECS cfg = true -> ecs_fit s t) -> cEps t = cEps s -> lists_ok s -> lists_ok t ->
    set_ppe s = Some s' -> set_ppe t = Some t' ->
    (cg_solve (N := Rnum) (cA t') (cXv t') (cBv t') (cEps t')).2 = (cg_solve (N := Rnum) (cA s') (cXv s') (cBv s') (cEps s')).2 /\
    forall i, (i < psize s)%nat -> exists x : R,
      (cg_solve (N := Rnum) (cA s') (cXv s') (cBv s') (cEps s')).1 !! i = Some (x : Rnum) /\ (cg_solve (N := Rnum) (cA t') (cXv t') (cBv t') (cEps t')).1 !! f i = Some (x : Rnum).
  Proof.
    intros H HE Heps [L1 L2] [L1' L2'] H1 H2. destruct (fi_frame s t H) as (HL & HR & HF).
    assert (psize t = psize s) as HS by done. change (length (cParts s)) with (psize s) in HR.
    destruct (set_ppe_length s s' H1 L1 L2) as (A1 & A2 & A3). destruct (set_ppe_length t t' H2 L1' L2') as (B1 & B2 & B3). rewrite HS in B1, B2, B3.
    assert (sparse (psize s) (cA s')) as SA.
    { apply (set_ppe_sparse s s' H1 L1 L2). intros i p Hp Hx. assert (enabled p) as He. { apply active_enabled. unfold ppe_excluded in Hx. by destruct (is_active (pT p)). }
      destruct (fi_lists s t H i p Hp He) as (l & l' & Hl & _). by exists l. }
    assert (sparse (psize s) (cA t')) as SB.
    { rewrite <- HS. apply (set_ppe_sparse t t' H2 L1' L2'). intros i' p' Hp' Hx. destruct (fit_onto s t i' p' H Hp') as (i & p & -> & Hp & ->).
      assert (enabled p) as He. { apply active_enabled. unfold ppe_excluded in Hx. cbn [pT carry_part] in Hx. by destruct (is_active (pT p)). }
      destruct (fi_lists s t H i p Hp He) as (l & l' & _ & Hl' & _). by exists l'. }
    assert (forall i, (i < psize s)%nat -> exists v : R * R, cBv s' !! i = Some (v.1 : Rnum) /\ cXv s' !! i = Some (v.2 : Rnum) /\ cBv t' !! f i = Some (v.1 : Rnum) /\ cXv t' !! f i = Some (v.2 : Rnum)) as HV.
    { intros i Hi. destruct (lookup_lt_is_Some_2 (cParts s) i Hi) as [p Hp]. destruct (set_ppe_at s s' i p H1 Hp) as ((v & V1 & V2 & V3) & _).
      destruct (set_ppe_at t t' (f i) (cp p) H2 (HF i p Hp)) as ((v' & V1' & V2' & V3') & _). rewrite (rhs_sym s t) in V1' by done. rewrite V1 in V1'. injection V1' as <-. exists v. done. }
    assert (pvec (psize s) f (cXv s') (cXv t')) as PX.
    { split; [done|]. split; [done|]. intros i Hi. destruct (HV i Hi) as (v & _ & V & _ & V'). rewrite (el_lookup _ _ _ V). by apply el_lookup. }
    assert (pvec (psize s) f (cBv s') (cBv t')) as PB.
    { split; [done|]. split; [done|]. intros i Hi. destruct (HV i Hi) as (v & V & _ & V' & _). rewrite (el_lookup _ _ _ V). by apply el_lookup. }
    assert (cEps t' = cEps s') as EE. { rewrite (pr_eps _ _ (set_ppe_pr _ _ H1)), (pr_eps _ _ (set_ppe_pr _ _ H2)). done. }
    destruct (pvec_solve (psize s) f HR (cA s') (cA t') SA SB (elem_sym s t s' t' H H1 H2) _ _ _ _ (cEps s') PX PB) as (C1 & C2 & C3 & C4).
    rewrite EE. split; [exact C1|]. intros i Hi. exists (el (rsolve (cA s') (cXv s') (cBv s') (cEps s')).1 i). split.
    - destruct (lookup_lt_is_Some_2 (rsolve (cA s') (cXv s') (cBv s') (cEps s')).1 i) as [x Hx]; [unfold rsolve in *; rewrite C2; done|]. rewrite (el_lookup _ _ _ Hx). exact Hx.
    - destruct (lookup_lt_is_Some_2 (rsolve (cA t') (cXv t') (cBv t') (cEps s')).1 (f i)) as [x Hx]; [unfold rsolve in *; rewrite C3; by apply HR|]. rewrite <- C4 by done. rewrite (el_lookup _ _ _ Hx). exact Hx.
  Qed.

  (** ** Pressure gradient *)
  Lemma acc_keeps {A} s t i p (P : A -> Prop) (zero : A) plus g a :
    fit s t -> cParts s !! i = Some p -> enabled p -> P zero -> (forall x j q, P x -> P (plus x (g j q))) -> acc s i zero plus g = Some a -> P a.
  Proof.
    intros H Hp He P0 PS Ha. destruct (fi_lists s t H i p Hp He) as (l & l' & Hl & _ & _ & Hg). destruct (fi_nws s t H i (fit_lt s t i p H Hp)) as (n & Hn & _).
    rewrite (acc_form s i p l n) in Ha by (try done; apply H). injection Ha as <-.
    assert (P (foldl plus zero (map (λ j : nat, at_part s j zero (g (Z.of_nat j))) (within s i l)))) as HP.
    { assert (forall m z, (forall j, j ∈ m -> exists q, cParts s !! j = Some q) -> P z -> P (foldl plus z (map (λ j : nat, at_part s j zero (g (Z.of_nat j))) m))) as HH.
      { induction m as [|j m IH]; intros z Hm Pz; [done|]. cbn [map foldl]. apply IH; [intros; apply Hm; by right|].
        destruct (Hm j ltac:(by left)) as [q Hq]. unfold at_part. rewrite Hq. by apply PS. }
      apply HH; [|done]. intros j Hj. apply elem_of_list_filter in Hj as [_ Hj]. destruct (Hg j Hj) as (_ & q & ? & _). eauto. }
    cbv zeta. destruct (virt s p n (within s i l)); [by apply PS|done].
  Qed.
  Lemma grad_value_sym s t i p : fit s t -> cParts s !! i = Some p -> is_newton (pT p) = true ->
    exists a, grad_value s i p = Some a /\ grad_value t (f i) (cp p) = Some (rot a).
  Proof.
    intros H Hp Hn. pose proof (fi_world s t H) as W. pose proof (newton_enabled p Hn) as He. unfold grad_value. cbv zeta.
    rewrite (sw_re _ _ _ _ W), (sw_dt _ _ _ _ W), (sw_rho _ _ _ _ W), (sw_n0 _ _ _ _ W). cbn [pX pP pN carry_part].
    destruct (cGC cfg).
    - destruct (acc_sym_M s t i p (gc_matrix_func (pX p) (eRe (cEnv s))) (gc_matrix_func (pX (cp p)) (eRe (cEnv s))) H Hp He) as (m & M1 & M2).
      { intros j q _ _ _. unfold gc_matrix_func. cbn [pX carry_part]. rewrite carry_sub, vdot_rot, dist_carry by done. by rewrite mrot_outer. }
      { intros _ q _. unfold gc_matrix_func. cbn [pX carry_part]. rewrite carry_sub, vdot_rot, dist_carry by done. by rewrite mrot_outer. }
      cbn [pX carry_part] in M2. rewrite M1, M2. cbn [mbind option_bind].
      assert (forall a c, (a < dimn d)%nat -> (c < dimn d)%nat -> mget m a c = mget m c a) as Hsym.
      { refine (acc_keeps s t i p (fun m : mat Rnum d => forall a c, (a < dimn d)%nat -> (c < dimn d)%nat -> mget m a c = mget m c a) mzero madd (gc_matrix_func (pX p) (eRe (cEnv s))) m H Hp He _ _ M1).
        - intros a c Ha Hc. unfold mzero. by rewrite !mget_mmk.
        - intros x j q Hx a c Ha Hc. unfold madd. rewrite !mget_mmk by done. rewrite (Hx a c) by done. unfold gc_matrix_func. unfold mscal. rewrite !mget_mmk by done. unfold mouter. rewrite !mget_mmk by done.
          cbn [nadd nmul Rnum]. f_equal. f_equal. apply Rmult_comm. }
      rewrite (mrot_invert Q m) by done.
      set (C := minvert m _).
      destruct (acc_sym_V s t i p (gc_func cfg (pP p) (pX p) (eRe (cEnv s)) C) (gc_func cfg (pP (cp p)) (pX (cp p)) (eRe (cEnv s)) (mrot (cfg := cfg) Q C)) H Hp He) as (a & A1 & A2).
      { intros j q _ _ _. unfold gc_func. cbn [pX pP pT carry_part]. destruct (is_dummy _); [by rewrite rot_zero|]. rewrite carry_sub, vdot_rot, dist_carry, mprod_rot by done. by rewrite rot_scal. }
      { intros _ q _. unfold gc_func. cbn [pX pP pT carry_part]. destruct (is_dummy _); [by rewrite rot_zero|]. rewrite carry_sub, vdot_rot, dist_carry, mprod_rot by done. by rewrite rot_scal. }
      cbn [pX pP carry_part] in A2. rewrite A1, A2. cbn [mbind option_bind]. eexists. split; [done|]. by rewrite rot_scal.
    - destruct (acc_sym_V s t i p (grad_func (pP p) (pX p) (eRe (cEnv s))) (grad_func (pP (cp p)) (pX (cp p)) (eRe (cEnv s))) H Hp He) as (a & A1 & A2).
      { intros j q _ _ _. unfold grad_func. cbn [pX pP pT carry_part]. destruct (is_dummy _); [by rewrite rot_zero|]. rewrite carry_sub, vdot_rot by done. by rewrite rot_scal. }
      { intros _ q _. unfold grad_func. cbn [pX pP pT carry_part]. destruct (is_dummy _); [by rewrite rot_zero|]. rewrite carry_sub, vdot_rot by done. by rewrite rot_scal. }
      cbn [pX pP carry_part] in A2. rewrite A1, A2. cbn [mbind option_bind]. eexists. split; [done|]. by rewrite rot_scal.
  Qed.
  Lemma kicked_sym (dt : R) (a : V) p : kicked (N := Rnum) (dt : Rnum) (rot a) (cp p) = cp (kicked (N := Rnum) (dt : Rnum) a p).
  Proof.
    unfold kicked, set_X, set_U, carry_part. cbn [pX pU pP pN pT]. by rewrite <- rot_add, <- rot_scalr, <- carry_add.
  Qed.
  Lemma gradient_sym s t s' t' : fit s t -> modify_by_gradient s = Some s' -> modify_by_gradient t = Some t' -> fit s' t'.
  Proof.
    intros H H1 H2. pose proof (fi_world s t H) as W. pose proof (gradient_rest s s' H1) as R1. pose proof (gradient_rest t t' H2) as R2.
    apply (fit_keep s t); [done|by apply gradient_pr..| |].
    - intros i p Hp. pose proof (gradient_at s s' i p H1 Hp) as A1. pose proof (gradient_at t t' (f i) (cp p) H2 (fit_at s t i p H Hp)) as A2.
      cbn [pT carry_part] in A2. destruct (is_newton (pT p)) eqn:Hn; [|by exists p].
      destruct A1 as (a & A1 & B1). destruct A2 as (a' & A2 & B2). destruct (grad_value_sym s t i p H Hp Hn) as (c & C1 & C2).
      rewrite A1 in C1. injection C1 as ->. rewrite A2 in C2. injection C2 as ->. eexists. split; [exact B1|]. rewrite B2. f_equal. rewrite (sw_dt _ _ _ _ W). apply kicked_sym.
    - rewrite R1, R2. apply (fit_nws_same s t); done.
  Qed.
  Lemma cp_setP (x : Rnum) p : set_P x (cp p) = cp (set_P x p).
  Proof. done. Qed.
  Lemma explicitp_sym s t s' t' : fit s t -> run_loop (explicit_loop cfg wm) (psize s) s = Some s' -> run_loop (explicit_loop cfg wm') (psize t) t = Some t' -> fit s' t'.
  Proof.
    intros H H1 H2. pose proof (fi_world s t H) as W. pose proof (explicitp_rest _ s s' H1) as R1. pose proof (explicitp_rest _ t t' H2) as R2.
    apply (fit_keep s t); [done|by eapply explicitp_pr..| |].
    - intros i p Hp. pose proof (explicitp_at s s' i p H1 Hp) as A1. pose proof (explicitp_at t t' (f i) (cp p) H2 (fit_at s t i p H Hp)) as A2.
      eexists. split; [exact A1|]. rewrite A2, cp_setP. f_equal. f_equal. f_equal. unfold explicit_pressure. cbn [pN carry_part]. by rewrite (sw_rho _ _ _ _ W), (sw_n0 _ _ _ _ W), (sw_c _ _ _ _ W).
    - rewrite R1, R2. apply (fit_nws_same s t); done.
  Qed.
  Definition xv_fit s t : Prop := forall i, (i < psize s)%nat -> exists x : R, cXv s !! i = Some (x : Rnum) /\ cXv t !! f i = Some (x : Rnum).
  Lemma assign_sym s t s' t' : fit s t -> xv_fit s t -> run_loop (assign_loop cfg wm) (psize s) s = Some s' -> run_loop (assign_loop cfg wm') (psize t) t = Some t' -> fit s' t'.
  Proof.
    intros H HX H1 H2. pose proof (fi_world s t H) as W. pose proof (assign_rest _ s s' H1) as R1. pose proof (assign_rest _ t t' H2) as R2.
    apply (fit_keep s t); [done|by eapply assign_pr..| |].
    - intros i p Hp. pose proof (assign_at s s' i p H1 Hp) as A1. pose proof (assign_at t t' (f i) (cp p) H2 (fit_at s t i p H Hp)) as A2.
      cbn [pT carry_part] in A2. destruct (is_active (pT p)); [|by exists p]. destruct A1 as (x & X1 & A1). destruct A2 as (x' & X2 & A2).
      destruct (HX i (fit_lt s t i p H Hp)) as (y & Y1 & Y2). rewrite X1 in Y1. injection Y1 as ->. rewrite X2 in Y2. injection Y2 as ->.
      eexists. split; [exact A1|]. rewrite A2, cp_setP. f_equal. f_equal. f_equal. unfold clamp. cbn [pN carry_part]. by rewrite (sw_n0 _ _ _ _ W), (sw_surf _ _ _ _ W).
    - rewrite R1, R2. apply (fit_nws_same s t); done.
  Qed.
  Lemma fit_ppe s t s' t' : fit s t -> set_ppe s = Some s' -> set_ppe t = Some t' -> fit s' t'.
  Proof.
    intros H H1 H2. pose proof (set_ppe_rest s s' H1) as R1. pose proof (set_ppe_rest t t' H2) as R2.
    apply (fit_keep s t); [done|by apply set_ppe_pr..| |].
    - intros i p Hp. exists p. rewrite R1, R2. split; [done|by apply (fit_at s t)].
    - rewrite R1, R2. apply (fit_nws_same s t); done.
  Qed.
  Lemma fit_with_ppe s t A x c A' x' c' : fit s t -> fit (with_ppe s A x c) (with_ppe t A' x' c').
  Proof. intros H. split; apply H. Qed.
  (** The implicit phase: both solve, or both report that they cannot. *)
  Lemma implicit_sym s t : fit s t -> (cECS cfg = true -> ecs_fit s t) -> cEps t = cEps s -> lists_ok s -> lists_ok t ->
    match compute_implicit s, compute_implicit t with
    | Done s', Done t' | Throw CgNotConverged s', Throw CgNotConverged t' => fit s' t'
    | Undef, _ | _, Undef => True
    | _, _ => False
    end.
  Proof.
    intros H HE Heps L L'. unfold compute_implicit. destruct (cExplicit cfg).
    - destruct (run_loop (explicit_loop cfg wm) _ s) as [s1|] eqn:E1; [|done]. 
      destruct (run_loop (explicit_loop cfg wm') _ t) as [t1|] eqn:E2; cbn [of_opt obind].
      + pose proof (explicitp_sym s t s1 t1 H E1 E2) as H1. destruct (modify_by_gradient s1) as [s2|] eqn:E3; [|done].
        destruct (modify_by_gradient t1) as [t2|] eqn:E4; [|done]. by apply (gradient_sym s1 t1).
      + by destruct (modify_by_gradient s1).
    - destruct (set_ppe s) as [s1|] eqn:E1; [|done]. destruct (set_ppe t) as [t1|] eqn:E2.
      2:{ cbn [of_opt obind]. destruct (_ >>o _ >>o _) as [| []|]; done. }
      cbn [of_opt obind]. destruct (solve_sym s t s1 t1 H HE Heps L L' E1 E2) as [C1 C2].
      pose proof (fit_ppe s t s1 t1 H E1 E2) as H1. unfold solve_ppe. rewrite C1.
      destruct (cg_solve (cA s1) (cXv s1) (cBv s1) (cEps s1)).2; cbn [obind]; [|by apply fit_with_ppe].
      match goal with |- context [run_loop (assign_loop cfg wm) _ ?u] => set (s2 := u) end.
      match goal with |- context [run_loop (assign_loop cfg wm') _ ?u] => set (t2 := u) end.
      assert (fit s2 t2) as H2 by (by apply fit_with_ppe).
      assert (xv_fit s2 t2) as HX. { intros i Hi. cbn [cXv with_ppe]. apply C2. change (i < psize s1)%nat in Hi. by rewrite <- (pr_size _ _ (set_ppe_pr _ _ E1)). }
      destruct (run_loop (assign_loop cfg wm) _ s2) as [s3|] eqn:E3; [|done]. 
      destruct (run_loop (assign_loop cfg wm') _ t2) as [t3|] eqn:E4; cbn [of_opt obind].
      + pose proof (assign_sym s2 t2 s3 t3 H2 HX E3 E4) as H3. destruct (modify_by_gradient s3) as [s4|] eqn:E5; [|done].
        destruct (modify_by_gradient t3) as [t4|] eqn:E6; [|done]. by apply (gradient_sym s3 t3).
      + by destruct (modify_by_gradient s3).
  Qed.

  (** ** Stabilisation *)
  Lemma ds_term_sym (d2 : R) (x y : V) : ds_term (N := Rnum) (d2 : Rnum) (rot x) (rot y) = rot (ds_term (N := Rnum) (d2 : Rnum) x y).
  Proof.
    unfold ds_term. cbv zeta. rewrite vnorm_rot by done. rewrite <- rot_div, vdot_rot by done. rewrite <- !rot_scal, <- !rot_sub, !vdot_rot by done. done.
  Qed.
  Lemma ds_value_sym s t i p : fit s t -> orig_fit s t -> cParts s !! i = Some p -> is_newton (pT p) = true ->
    forall a a', ds_value s i p = Some a -> ds_value t (f i) (cp p) = Some a' -> a' = rot a.
  Proof.
    intros H HO Hp Hn a a' H1 H2. pose proof (fi_world s t H) as W. pose proof (newton_enabled p Hn) as He. unfold ds_value in H1, H2. cbv zeta in H1, H2.
    rewrite (sw_l0 _ _ _ _ W), (sw_maxdx _ _ _ _ W), (sw_dt _ _ _ _ W), (sw_n0 _ _ _ _ W) in H2. cbn [pX carry_part] in H2.
    destruct (HO i p Hp ltac:(by destruct (pT p))) as (x0 & X1 & X2). rewrite X1 in H1. rewrite X2 in H2. cbn [mbind option_bind] in H1, H2.
    set (dd := (eL0 (cEnv s) -. eMaxDx (cEnv s)) ×. (eL0 (cEnv s) -. eMaxDx (cEnv s))) in *.
    destruct (acc_sym s t i p (fmap rot) (Some vzero) (ds_plus cfg) (ds_func s x0 (pX p) dd) (ds_func t (T x0) (T (pX p)) dd) H Hp He) as (c & C1 & C2).
    - cbn. by rewrite rot_zero.
    - intros [x|] [y|]; cbn; [by rewrite rot_add|done..].
    - intros [u|] [x|] [y|]; cbn; try done. f_equal. by rewrite <- !vadd_assoc, (vadd_comm x).
    - intros j q Hq Hne Heq. unfold ds_func. cbn [pT pX carry_part]. 
      assert (0 <=? Z.of_nat (f j) = true)%Z as -> by lia. assert (0 <=? Z.of_nat j = true)%Z as -> by lia. 
      destruct (is_dummy (pT q)) eqn:HD; cbn [negb andb]; [cbn; by rewrite rot_zero|]. destruct (negb (cSPP cfg) || true); [|cbn; by rewrite rot_zero].
      rewrite carry_sub, vdot_rot by done. rewrite !Nat2Z.id. destruct (_ <?. _); [|cbn; by rewrite rot_zero].
      destruct (HO j q Hq) as (y0 & Y1 & Y2). { unfold enabled in Heq. by destruct (pT q). }
      rewrite Y1, Y2. cbn [mbind option_bind fmap option_fmap option_map]. by rewrite carry_sub, ds_term_sym.
    - intros HS v Hv. unfold ds_func. rewrite HS. cbn [pT carry_part negb orb]. rewrite Hv. cbn. by rewrite rot_zero.
    - rewrite C1 in H1. rewrite C2 in H2. destruct c as [c|]; cbn in H1, H2; [|done]. injection H1 as <-. injection H2 as <-. by rewrite rot_scal.
  Qed.
  Lemma stabilize_sym s t s' t' : fit s t -> orig_fit s t -> stabilize s = Some s' -> stabilize t = Some t' -> fit s' t'.
  Proof.
    intros H HO H1 H2. pose proof (fi_world s t H) as W. pose proof (stabilize_rest s s' H1) as R1. pose proof (stabilize_rest t t' H2) as R2.
    apply (fit_keep s t); [done|by apply stabilize_pr..| |].
    - intros i p Hp. pose proof (stabilize_at s s' i p H1 Hp) as A1. pose proof (stabilize_at t t' (f i) (cp p) H2 (fit_at s t i p H Hp)) as A2.
      cbn [pT carry_part] in A2. destruct (is_newton (pT p)) eqn:Hn; [|by exists p].
      destruct A1 as (a & A1 & B1). destruct A2 as (a' & A2 & B2). pose proof (ds_value_sym s t i p H HO Hp Hn a a' A1 A2) as ->.
      eexists. split; [exact B1|]. rewrite B2. f_equal. rewrite (sw_dt _ _ _ _ W). apply kicked_sym.
    - rewrite R1, R2. apply (fit_nws_same s t); done.
  Qed.

  (** ** The search *)
  Lemma frame_close s t r i j : same_frame Q b f (cParts s) (cParts t) -> (i < psize s)%nat -> (j < psize s)%nat -> close r t (f i) (f j) <-> close r s i j.
  Proof.
    intros (HL & HR & HF) Hi Hj. destruct (lookup_lt_is_Some_2 (cParts s) i Hi) as [p Hp]. destruct (lookup_lt_is_Some_2 (cParts s) j Hj) as [q Hq].
    unfold close. rewrite (HF i p Hp), (HF j q Hq). split.
    - intros (Hne & p1 & q1 & [= <-] & [= <-] & He & Hd). split; [congruence|]. exists p, q. cbn [pX carry_part pT] in *.
      rewrite edist_carry in Hd by done. done.
    - intros (Hne & p1 & q1 & E1 & E2 & He & Hd). rewrite Hp in E1. rewrite Hq in E2. injection E1 as <-. injection E2 as <-. split.
      + intros E. apply Hne. by apply HR.
      + exists (cp p), (cp q). cbn [pX carry_part]. by rewrite edist_carry.
  Qed.
  Lemma leave_sym g g' p : (enabled (leave g p) <-> enabled (leave g' (cp p))) -> leave g' (cp p) = cp (leave g p).
  Proof.
    unfold leave. cbn [pT carry_part pX]. destruct (is_disabled (pT p)) eqn:HD; [done|]. apply is_disabled_false in HD.
    destruct (in_grid g (pX p)), (in_grid g' (T (pX p))); intros HE; try done; exfalso; unfold enabled in HE; cbn [pT carry_part disable] in HE; tauto.
  Qed.
  Lemma search_sym (rel : wS wm -> wS wm' -> Prop) (env0 env0' : environment Rnum cfg) (dt : R) s t s1 t1 :
    square_ground env0 -> square_ground env0' -> 0 < eNL env0 -> 0 <= eRe env0 -> reachable env0 s -> reachable env0' t ->
    corresponding Q b f rel s t ->
    search_neighbor (start_step (dt : Rnum) s) = Done s1 -> search_neighbor (start_step (dt : Rnum) t) = Done t1 ->
    (forall i p q, cParts s1 !! i = Some p -> cParts t1 !! f i = Some q -> (enabled p <-> enabled q)) ->
    fit (with_nws s1 (replicate (psize s1) (0 : Rnum))) (with_nws t1 (replicate (psize t1) (0 : Rnum))) /\
    cEnv s1 = set_next_t (set_dt (dt : Rnum) (cEnv s)) /\ cEps t1 = cEps s1 /\ cWall s1 = cWall s /\ cWall t1 = cWall t.
  Proof.
    intros Hsq Hsq' HNL Hre Hr Hr' [HF HW HE HWl] E1 E2 HD.
    pose proof (search_searched env0 dt s s1 Hsq Hr E1) as S1. pose proof (search_searched env0' dt t t1 Hsq' Hr' E2) as S2.
    assert (eNL env0' = eNL env0) as ENL.
    { destruct (reachable_geom env0 s Hsq Hr) as (_ & _ & C1). destruct (reachable_geom env0' t Hsq' Hr') as (_ & _ & C2).
      apply same_constants_fields in C1 as (_ & _ & _ & _ & _ & C1 & _). apply same_constants_fields in C2 as (_ & _ & _ & _ & _ & C2 & _).
      rewrite <- C1, <- C2. apply HW. }
    assert (cEnv s1 = set_next_t (set_dt (dt : Rnum) (cEnv s))) as Ev1 by (by rewrite (se_rest _ _ S1)).
    assert (cEnv t1 = set_next_t (set_dt (dt : Rnum) (cEnv t))) as Ev2 by (by rewrite (se_rest _ _ S2)).
    destruct HF as (HL & HR & HF). change (length (cParts s)) with (psize s) in HR.
    assert (psize s1 = psize s) as N1. { unfold psize. rewrite (se_parts _ _ S1), fmap_length. done. }
    assert (psize t1 = psize s) as N2. { unfold psize. rewrite (se_parts _ _ S2), fmap_length. done. }
    assert (forall i p, cParts s1 !! i = Some p -> cParts t1 !! f i = Some (cp p)) as HF1.
    { intros i p1 Hp1. assert (cParts s1 !! i = Some p1) as Hp1' by done. rewrite (se_parts _ _ S1), list_lookup_fmap in Hp1.
      change (cParts (start_step (dt : Rnum) s)) with (cParts s) in Hp1. destruct (cParts s !! i) as [p|] eqn:Hp; [|done]. injection Hp1 as <-.
      assert (cParts t1 !! f i = Some (leave (cGrid t) (cp p))) as Hq1.
      { rewrite (se_parts _ _ S2), list_lookup_fmap. change (cParts (start_step (dt : Rnum) t)) with (cParts t). by rewrite (HF i p Hp). }
      rewrite Hq1. f_equal. apply leave_sym. by apply (HD i). }
    assert (same_frame Q b f (cParts s1) (cParts t1)) as SF.
    { split; [change (psize t1 = psize s1); congruence|]. split; [change (length (cParts s1)) with (psize s1); by rewrite N1|done]. }
    split; [|split; [done|]; split; [rewrite (se_rest _ _ S1), (se_rest _ _ S2); done|]; split; [by rewrite (se_rest _ _ S1)|by rewrite (se_rest _ _ S2)]].
    split.
    - exact SF.
    - cbn [cEnv with_nws]. rewrite Ev1, Ev2. split; try apply HW; [|done]. cbn. by rewrite (sw_t _ _ _ _ HW).
    - cbn [cEnv with_nws]. rewrite Ev1. cbn. destruct (reachable_geom env0 s Hsq Hr) as (_ & _ & C1).
      apply same_constants_fields in C1 as (_ & _ & _ & _ & C1 & _). rewrite C1. done.
    - intros i p Hp He. change (cParts s1 !! i = Some p) in Hp.
      destruct (C01_search_exact env0 dt s s1 i p Hsq HNL Hr E1 Hp He) as (l & Hl & Hnd & Hj).
      assert (0 < eNL env0') as HNL' by (by rewrite ENL).
      destruct (C01_search_exact env0' dt t t1 (f i) (cp p) Hsq' HNL' Hr' E2 (HF1 i p Hp) He) as (l' & Hl' & Hnd' & Hj').
      exists l, l'. split; [done|]. split; [done|].
      assert (i < psize s)%nat as Hi by (rewrite <- N1; by eapply lookup_lt_Some).
      assert (forall j, j ∈ l -> (j < psize s)%nat) as Hlt. { intros j Hjl. apply Hj in Hjl as (_ & _ & q & _ & Hq & _). rewrite <- N1. by eapply lookup_lt_Some. }
      split.
      + apply NoDup_Permutation; [done| |].
        * apply (NoDup_fmap_2_strong f l); [|done]. intros x y Hx Hy. apply HR; by apply Hlt.
        * intros j'. rewrite Hj', ENL, elem_of_list_fmap. split.
          -- intros Hc. assert (exists j, j' = f j /\ (j < psize s)%nat) as (j & -> & Hjn).
             { destruct Hc as (_ & _ & q & _ & Hq & _). destruct (renumbering_onto (psize s) f j' HR) as (j & ? & ?); [rewrite <- N2; by eapply lookup_lt_Some|]. eauto. }
             exists j. split; [done|]. apply Hj. apply (frame_close s1 t1 (eNL env0) i j SF); [by rewrite N1|by rewrite N1|done].
          -- intros (j & -> & Hjl). apply (frame_close s1 t1 (eNL env0) i j SF); [by rewrite N1|rewrite N1; by apply Hlt|by apply Hj].
      + intros j Hjl. apply Hj in Hjl as (Hne & _ & q & _ & Hq & He' & _). split; [done|]. by exists q.
    - intros i Hi. change (i < psize s1)%nat in Hi. exists 0. cbn [cNws with_nws]. split; apply lookup_replicate; split; try done.
      rewrite N2. apply HR. by rewrite <- N1.
  Qed.
  Lemma dens_sym0 s t s' t' (L L' : list Rnum) : length L = length (cNws s) -> length L' = length (cNws t) -> psize s = length L -> 
    fit (with_nws s L) (with_nws t L') -> compute_densities s = Some s' -> compute_densities t = Some t' -> fit s' t'.
  Proof.
    intros HL HL' HLs H H1 H2. pose proof (fi_world _ _ H) as W. cbn [cEnv with_nws] in W.
    assert (forall i p, cParts s !! i = Some p -> cParts t !! f i = Some (cp p)) as HF by (intros i p; apply (fit_at _ _ i p H)).
    assert (forall i p, cParts s !! i = Some p -> exists p' (n : R), cParts s' !! i = Some p' /\ cParts t' !! f i = Some (cp p') /\
      cNws s' !! i = Some (n : Rnum) /\ cNws t' !! f i = Some (n : Rnum)) as HX.
    { intros i p Hp. pose proof (dens_at s s' i p H1 Hp) as A1. pose proof (dens_at t t' (f i) (cp p) H2 (HF i p Hp)) as A2.
      cbn [pT carry_part] in A2. destruct (is_active (pT p)) eqn:Ha.
      - destruct A1 as (n & A1 & B1 & C1). destruct A2 as (n' & A2 & B2 & C2). rewrite (sw_n0 _ _ _ _ W), (sw_re _ _ _ _ W) in A2. rewrite (sw_n0 _ _ _ _ W) in B2.
        destruct (acc_sym_R _ _ i p (dens_func cfg (pX p) (eRe (cEnv s))) (dens_func cfg (pX (cp p)) (eRe (cEnv s))) (fit_set_nws _ _ i p (eN0 (cEnv s)) H Hp) Hp (active_enabled p Ha)) as (a & E1 & E2).
        { intros j q _ _ _. unfold dens_func. cbn [pX carry_part]. rewrite dist_carry by done.
          assert (Z.of_nat (f j) <? 0 = false)%Z as -> by lia. assert (Z.of_nat j <? 0 = false)%Z as -> by lia. done. }
        { intros HS v _. unfold dens_func. rewrite HS. done. }
        destruct (fi_nws _ _ H i (lookup_lt_Some _ _ _ Hp)) as (m & N1 & N2). cbn [cNws with_nws] in N1, N2.
        rewrite (acc_same _ (with_nws s (<[i:=eN0 (cEnv s)]> (cNws s)))) in E1; [|done..|cbn [cNws with_nws]; rewrite !list_lookup_insert; [done|apply lookup_lt_Some in N1; lia|by apply lookup_lt_Some in N1]|done].
        rewrite (acc_same _ (with_nws t (<[f i:=eN0 (cEnv s)]> (cNws t)))) in E2; [|done..|cbn [cNws with_nws]; rewrite !list_lookup_insert; [done|apply lookup_lt_Some in N2; lia|by apply lookup_lt_Some in N2]|done].
        rewrite A1 in E1. injection E1 as ->. pose proof (eq_trans (eq_sym A2) E2) as E. injection E as ->.
        eexists _, a. split; [exact B1|]. split; [exact B2|]. done.
      - destruct A1 as [B1 C1]. destruct A2 as [B2 C2]. rewrite (sw_n0 _ _ _ _ W) in C2. eauto 10. }
    apply (fit_keep (with_nws s L) (with_nws t L')); [done| | | |].
    - eapply phase_rel_trans; [|by apply dens_pr]. by split.
    - eapply phase_rel_trans; [|by apply dens_pr]. by split.
    - intros i p Hp. destruct (HX i p Hp) as (p' & n & ? & ? & _). eauto.
    - intros i Hi. destruct (lookup_lt_is_Some_2 (cParts s) i Hi) as [p Hp]. destruct (HX i p Hp) as (p' & n & _ & _ & ? & ?). eauto.
  Qed.

  (** ** The whole step *)
  Context (rel : wS wm -> wS wm' -> Prop).
  Lemma implicit_wall {wm0 : wallmotion Rnum (cDim cfg)} (u v : M_Computer.computer cfg wm0) : final (compute_implicit u) = Some v -> cWall v = cWall u.
  Proof.
    intros H. destruct (compute_implicit u) as [v'|e v'|] eqn:E; [| |done]; injection H as ->.
    - destruct (cExplicit cfg) eqn:Hx.
      + destruct (implicit_Done_explicit u v E Hx) as (s1 & H1 & H2). rewrite (gradient_rest _ _ H2). cbn. by rewrite (explicitp_rest _ _ _ H1).
      + destruct (implicit_Done u v E Hx) as (s1 & s2 & s3 & [H1 H2 H3 H4 H5]). rewrite (gradient_rest _ _ H5). cbn. rewrite (assign_rest _ _ _ H4). cbn. rewrite H2. cbn. by rewrite (set_ppe_rest _ _ H1).
    - destruct (implicit_Throw _ _ _ E) as (_ & _ & t' & H1 & H2). unfold solve_ppe in H2. destruct (_.2); [done|]. injection H2 as <-. cbn. by rewrite (set_ppe_rest _ _ H1).
  Qed.
  Lemma ended_search {wm0 : wallmotion Rnum (cDim cfg)} (env0 : environment Rnum cfg) (dt : R) (u v : M_Computer.computer cfg wm0) :
    square_ground env0 -> reachable env0 u -> ended (forward_dt (dt : Rnum) u) v -> exists u1, search_neighbor (start_step (dt : Rnum) u) = Done u1 /\ phase_rel u1 v.
  Proof.
    intros Hsq Hr HE. assert (final (forward_dt (dt : Rnum) u) = Some v) as HF by (by destruct HE as [-> | ->]).
    apply forward_final in HF as [[e He]|HF]; [|done]. exfalso.
    destruct (inv_ok _ _ Hsq (reachable_inv env0 u Hsq Hr)) as [Hwf Hok].
    pose proof (search_spec (start_step (dt : Rnum) u) (wf_start (dt : Rnum) u Hwf) Hok) as HS. rewrite He in HS. destruct HS as (-> & _).
    unfold forward_dt, ended in HE. fold (start_step (dt : Rnum) u) in HE. rewrite He in HE. by destruct HE.
  Qed.
  (** What the parts of a step before the pressure have in common. *)
  Lemma prefix_sym (env0 env0' : environment Rnum cfg) (dt : R) s t s1 s2 s3 s4 s5 s6 t1 t2 t3 t4 t5 t6 :
    walls_correspond Q b f (psize s) wm wm' rel ->
    square_ground env0 -> square_ground env0' -> 0 < eNL env0 -> 0 <= eRe env0 -> reachable env0 s -> reachable env0' t ->
    corresponding Q b f rel s t ->
    step_prefix (dt : Rnum) s s1 s2 s3 s4 s5 s6 -> step_prefix (dt : Rnum) t t1 t2 t3 t4 t5 t6 ->
    (forall i p q, cParts s1 !! i = Some p -> cParts t1 !! f i = Some q -> (enabled p <-> enabled q)) ->
    fit s6 t6 /\ (cECS cfg = true -> ecs_fit s6 t6) /\ (cDS cfg = true -> orig_fit s6 t6) /\ cEps t6 = cEps s6 /\ lists_ok s6 /\ lists_ok t6 /\ rel (cWall s6) (cWall t6).
  Proof.
    intros HW Hsq Hsq' HNL Hre Hr Hr' HC [A1 A2 A3 A4 A5 A6] [B1 B2 B3 B4 B5 B6] HD.
    destruct (search_sym rel env0 env0' dt s t s1 t1 Hsq Hsq' HNL Hre Hr Hr' HC A1 B1 HD) as (F1 & Ev1 & Ep & W1 & W1').
    pose proof (search_searched env0 dt s s1 Hsq Hr A1) as S1. pose proof (search_searched env0' dt t t1 Hsq' Hr' B1) as S2.
    destruct (inv_ok _ _ Hsq (reachable_inv env0 s Hsq Hr)) as [Hwf _]. destruct (inv_ok _ _ Hsq' (reachable_inv env0' t Hsq' Hr')) as [Hwf' _].
    assert (P_Search.wf s1) as Hwf1 by (eapply wf_searched; [by apply wf_start|done]).
    assert (P_Search.wf t1) as Hwf1' by (eapply wf_searched; [by apply wf_start|done]).
    assert (fit s2 t2) as F2.
    { refine (dens_sym0 s1 t1 s2 t2 _ _ _ _ _ F1 A2 B2); rewrite replicate_length; symmetry; [by apply wf_nws..|done]. }
    pose proof (dens_rest _ _ A2) as R2. pose proof (dens_rest _ _ B2) as R2'.
    assert (fit s3 t3 /\ (cECS cfg = true -> ecs_fit s3 t3) /\ cEnv s3 = cEnv s2 /\ cEnv t3 = cEnv t2 /\ cWall s3 = cWall s2 /\ cWall t3 = cWall t2 /\
      psize s3 = psize s2 /\ cEps s3 = cEps s2 /\ cEps t3 = cEps t2 /\ phase_rel s2 s3 /\ phase_rel t2 t3) as (F3 & X3 & V3 & V3' & W3 & W3' & N3 & P3 & P3' & PR3 & PR3').
    { destruct (cECS cfg).
      - destruct (ecs_sym s2 t2 s3 t3 F2 A3 B3) as [F3 X3]. split; [done|]. split; [done|]. rewrite (ecs_rest _ _ A3), (ecs_rest _ _ B3).
        repeat (split; [done|]). split; [rewrite <- (ecs_rest _ _ A3)|rewrite <- (ecs_rest _ _ B3)]; by apply ecs_pr.
      - subst s3 t3. split; [done|]. split; [done|]. repeat (split; [done|]). split; apply phase_rel_refl. }
    assert (cEnv s3 = cEnv s1) as E31. { rewrite V3. by rewrite R2. }
    assert (psize s3 = psize s) as N31. { rewrite N3. rewrite (pr_size _ _ (dens_pr _ _ A2)). unfold psize. rewrite (se_parts _ _ S1), fmap_length. done. }
    assert (rel (cWall s3) (cWall t3)) as HR3.
    { rewrite W3, W3', R2, R2'. cbn. rewrite W1, W1'. apply HC. }
    pose proof (fi_world _ _ F3) as Wd3.
    destruct (HW (cWall s3) (cWall t3) (eT (cEnv s3)) (eDt (cEnv s3)) HR3) as [HR4 HP4].
    assert (fit s4 t4) as F4.
    { apply (explicit_sym s3 t3 s4 t4 F3 A4 B4). intros i Hi. rewrite (sw_t _ _ _ _ Wd3), (sw_dt _ _ _ _ Wd3). apply HP4. by rewrite <- N31. }
    pose proof (explicit_rest _ _ A4) as R4. pose proof (explicit_rest _ _ B4) as R4'.
    assert (rel (cWall s4) (cWall t4)) as HR4'. { rewrite R4, R4'. cbn. rewrite (sw_t _ _ _ _ Wd3), (sw_dt _ _ _ _ Wd3). exact HR4. }
    assert (cECS cfg = true -> ecs_fit s4 t4) as X4.
    { intros HE i p4 Hp4 Ha. rewrite R4, R4'. cbn [cEcs with_wall with_parts with_du].
      destruct (phase_type _ _ _ _ (explicit_pr _ _ A4) Hp4) as (p & Hp & Ht). apply (X3 HE i p Hp). by rewrite <- Ht. }
    pose proof (dens_sym s4 t4 s5 t5 F4 A5 B5) as F5. pose proof (dens_rest _ _ A5) as R5. pose proof (dens_rest _ _ B5) as R5'.
    assert (cECS cfg = true -> ecs_fit s5 t5) as X5.
    { intros HE i p5 Hp5 Ha. rewrite R5, R5'. cbn [cEcs with_nws with_parts].
      destruct (phase_type _ _ _ _ (dens_pr _ _ A5) Hp5) as (p & Hp & Ht). apply (X4 HE i p Hp). by rewrite <- Ht. }
    assert (fit s6 t6 /\ (cECS cfg = true -> ecs_fit s6 t6) /\ (cDS cfg = true -> orig_fit s6 t6) /\ cWall s6 = cWall s5 /\ cWall t6 = cWall t5 /\
      cEps s6 = cEps s5 /\ cEps t6 = cEps t5 /\ phase_rel s5 s6 /\ phase_rel t5 t6) as (F6 & X6 & O6 & W6 & W6' & P6 & P6' & PR6 & PR6').
    { destruct (cDS cfg).
      - destruct (savex_sym s5 t5 s6 t6 F5 A6 B6) as [F6 O6]. pose proof (savex_rest _ _ A6) as R6. pose proof (savex_rest _ _ B6) as R6'. split; [done|]. split.
        { intros HE i p Hp Ha. rewrite R6 in Hp. rewrite R6, R6'. cbn [cEcs with_origx]. by apply (X5 HE i p). }
        split; [done|]. split; [by rewrite R6|]. split; [by rewrite R6'|]. split; [by rewrite R6|]. split; [by rewrite R6'|]. split; by apply savex_pr.
      - subst s6 t6. split; [done|]. split; [done|]. split; [done|]. repeat (split; [done|]). split; apply phase_rel_refl. }
    assert (phase_rel s1 s6) as PR.
    { eapply phase_rel_trans; [by apply dens_pr|]. eapply phase_rel_trans; [exact PR3|]. eapply phase_rel_trans; [by apply explicit_pr|]. eapply phase_rel_trans; [by apply dens_pr|]. exact PR6. }
    assert (phase_rel t1 t6) as PR'.
    { eapply phase_rel_trans; [by apply dens_pr|]. eapply phase_rel_trans; [exact PR3'|]. eapply phase_rel_trans; [by apply explicit_pr|]. eapply phase_rel_trans; [by apply dens_pr|]. exact PR6'. }
    split; [done|]. split; [done|]. split; [done|]. split; [by rewrite (pr_eps _ _ PR), (pr_eps _ _ PR')|].
    assert (P_Search.wf s6) as Hwf6 by (by eapply wf_phase). assert (P_Search.wf t6) as Hwf6' by (by eapply wf_phase).
    split; [split; apply Hwf6|]. split; [split; apply Hwf6'|]. rewrite W6, W6', R5, R5'. exact HR4'.
  Qed.

  (** C63.  The step of ForwardTime(dt) does not depend on the frame of reference or on the numbering: it maps corresponding
      states to corresponding states (positions, velocities, pressures, densities, types; clock; state of the walls' motion) and
      either both solve the pressure equation or both report that it cannot be solved.  The domains (and their grids) may be
      different, as long as they make the same particles leave. *)
  Theorem C63_step (env0 env0' : environment Rnum cfg) (dt : R) s t s' t' :
    walls_correspond Q b f (psize s) wm wm' rel ->
    square_ground env0 -> square_ground env0' -> 0 < eNL env0 -> 0 <= eRe env0 -> reachable env0 s -> reachable env0' t ->
    corresponding Q b f rel s t ->
    ended (forward_dt (dt : Rnum) s) s' -> ended (forward_dt (dt : Rnum) t) t' ->
    (forall i p q, cParts s' !! i = Some p -> cParts t' !! f i = Some q -> (enabled p <-> enabled q)) ->
    corresponding Q b f rel s' t' /\ (forward_dt (dt : Rnum) s = Done s' <-> forward_dt (dt : Rnum) t = Done t').
  Proof.
    intros HW Hsq Hsq' HNL Hre Hr Hr' HC E1 E2 HD.
    destruct (ended_search env0 dt s s' Hsq Hr E1) as (s1 & A1 & PA). destruct (ended_search env0' dt t t' Hsq' Hr' E2) as (t1 & B1 & PB).
    assert (forall i p q, cParts s1 !! i = Some p -> cParts t1 !! f i = Some q -> (enabled p <-> enabled q)) as HD1.
    { intros i p q Hp Hq. destruct (lookup_lt_is_Some_2 (cParts s') i) as [p' Hp']. { change (i < psize s')%nat. rewrite (pr_size _ _ PA). by eapply lookup_lt_Some. }
      destruct (lookup_lt_is_Some_2 (cParts t') (f i)) as [q' Hq']. { change (f i < psize t')%nat. rewrite (pr_size _ _ PB). by eapply lookup_lt_Some. }
      destruct (phase_type _ _ _ _ PA Hp') as (p0 & Hp0 & Ht). destruct (phase_type _ _ _ _ PB Hq') as (q0 & Hq0 & Ht').
      specialize (HD i p' q' Hp' Hq'). unfold enabled in *. rewrite Ht, Ht' in HD. congruence. }
    destruct (after_search env0 (dt : Rnum) s s1 Hsq Hr A1) as (s2 & s3 & s4 & s5 & s6 & XA & IA).
    destruct (after_search env0' (dt : Rnum) t t1 Hsq' Hr' B1) as (t2 & t3 & t4 & t5 & t6 & XB & IB).
    destruct (prefix_sym env0 env0' dt s t s1 s2 s3 s4 s5 s6 t1 t2 t3 t4 t5 t6 HW Hsq Hsq' HNL Hre Hr Hr' HC XA XB HD1) as (F6 & X6 & O6 & Ep6 & L6 & L6' & R6).
    pose proof (implicit_sym s6 t6 F6 X6 Ep6 L6 L6') as HI.
    pose proof (implicit_wall s6) as WA. pose proof (implicit_wall t6) as WB. pose proof (implicit_pr s6) as PrA. pose proof (implicit_pr t6) as PrB.
    pose proof (T_Shift.implicit_origx s6) as OA. pose proof (T_Shift.implicit_origx t6) as OB.
    destruct (compute_implicit s6) as [s7|e s7|] eqn:I1; [| |done]; destruct (compute_implicit t6) as [t7|e' t7|] eqn:I2; try done.
    - specialize (WA s7 eq_refl). specialize (WB t7 eq_refl). specialize (PrA s7 eq_refl). specialize (PrB t7 eq_refl). specialize (OA s7 eq_refl). specialize (OB t7 eq_refl).
      destruct IA as [s8 IA]. destruct IB as [t8 IB].
      assert (s8 = s') as ->. { destruct E1 as [E1|E1]; rewrite IA in E1; [by injection E1|done]. }
      assert (t8 = t') as ->. { destruct E2 as [E2|E2]; rewrite IB in E2; [by injection E2|done]. }
      split; [|done].
      assert (forall (wm0 : wallmotion Rnum (cDim cfg)) (u u1 u2 u3 u4 u5 u6 u7 u8 : M_Computer.computer cfg wm0), step_prefix (dt : Rnum) u u1 u2 u3 u4 u5 u6 -> compute_implicit u6 = Done u7 ->
        forward_dt (dt : Rnum) u = Done u8 -> if cDS cfg then stabilize u7 = Some u8 else u8 = u7) as HS.
      { intros wm0 u u1 u2 u3 u4 u5 u6 u7 u8 [K1 K2 K3 K4 K5 K6] K7 HF. unfold forward_dt in HF. fold (start_step (dt : Rnum) u) in HF. rewrite K1 in HF. cbn [obind] in HF. rewrite K2 in HF. cbn [obind of_opt] in HF.
        assert ((if cECS cfg then of_opt (compute_ecs u2) else Done u2) = Done u3) as K3' by (destruct (cECS cfg); [by rewrite K3|by subst]). rewrite K3' in HF. cbn [obind] in HF.
        rewrite K4 in HF. cbn [obind of_opt] in HF. rewrite K5 in HF. cbn [obind of_opt] in HF.
        assert ((if cDS cfg then of_opt (save_x u5) else Done u5) = Done u6) as K6' by (destruct (cDS cfg); [by rewrite K6|by subst]). rewrite K6' in HF. cbn [obind] in HF.
        rewrite K7 in HF. cbn [obind] in HF. destruct (cDS cfg); [|by injection HF]. by destruct (stabilize u7); [injection HF as ->|]. }
      pose proof (HS wm s s1 s2 s3 s4 s5 s6 s7 s' XA I1 IA) as SA. pose proof (HS wm' t t1 t2 t3 t4 t5 t6 t7 t' XB I2 IB) as SB.
      assert (fit s' t' /\ cWall s' = cWall s7 /\ cWall t' = cWall t7 /\ cEps s' = cEps s7 /\ cEps t' = cEps t7) as (F8 & W8 & W8' & P8 & P8').
      { destruct (cDS cfg).
        - assert (orig_fit s7 t7) as O7.
          { intros i p Hp Ha. rewrite OA, OB. destruct (phase_type _ _ _ _ PrA Hp) as (p0 & Hp0 & Ht). apply (O6 eq_refl i p0 Hp0). by rewrite <- Ht. }
          split; [by apply (stabilize_sym s7 t7)|]. rewrite (stabilize_rest _ _ SA), (stabilize_rest _ _ SB). done.
        - by subst. }
      split; [apply F8|apply F8| |].
      + rewrite P8, P8', (pr_eps _ _ PrA), (pr_eps _ _ PrB). exact Ep6.
      + rewrite W8, W8', WA, WB. exact R6.
    - destruct e; done.
    - destruct IA as (-> & IA & _). destruct IB as (-> & IB & _).
      specialize (WA s7 eq_refl). specialize (WB t7 eq_refl). specialize (PrA s7 eq_refl). specialize (PrB t7 eq_refl).
      assert (s7 = s') as ->. { destruct E1 as [E1|E1]; rewrite IA in E1; [done|by injection E1]. }
      assert (t7 = t') as ->. { destruct E2 as [E2|E2]; rewrite IB in E2; [done|by injection E2]. }
      split; [|by rewrite IA, IB].
      split; [apply HI|apply HI| |].
      + rewrite (pr_eps _ _ PrA), (pr_eps _ _ PrB). exact Ep6.
      + rewrite WA, WB. exact R6.
  Qed.

  (** C63.  ... and so do series of steps ... *)
  Lemma ended_reachable {wm0 : wallmotion Rnum (cDim cfg)} (env0 : environment Rnum cfg) (dt : R) (u v : M_Computer.computer cfg wm0) :
    reachable env0 u -> ended (forward_dt (dt : Rnum) u) v -> reachable env0 v.
  Proof. intros Hr [H|H]; [by eapply (reach_done env0 (ForwardTimeBy cfg (dt : Rnum)))|by eapply (reach_throw env0 (ForwardTimeBy cfg (dt : Rnum)))]. Qed.
  Theorem C63_series (env0 env0' : environment Rnum cfg) (dts : list R) s t s' t' :
    walls_correspond Q b f (psize s) wm wm' rel ->
    square_ground env0 -> square_ground env0' -> 0 < eNL env0 -> 0 <= eRe env0 -> reachable env0 s -> reachable env0' t ->
    corresponding Q b f rel s t -> alongside f dts s t s' t' -> corresponding Q b f rel s' t'.
  Proof.
    intros HW Hsq Hsq' HNL Hre Hr Hr' HC HA. induction HA as [|dt dts s t s1 t1 s' t' E1 E2 HL HA IH]; [done|].
    destruct (C63_step env0 env0' dt s t s1 t1 HW Hsq Hsq' HNL Hre Hr Hr' HC E1 E2 HL) as [HC1 _].
    destruct (ended_search env0 dt s s1 Hsq Hr E1) as (s0 & A1 & PA). pose proof (search_searched env0 dt s s0 Hsq Hr A1) as S1.
    assert (psize s1 = psize s) as HN. { rewrite (pr_size _ _ PA). unfold psize. rewrite (se_parts _ _ S1), fmap_length. done. }
    apply IH; [by rewrite HN|by eapply ended_reachable..|done].
  Qed.

  (** ... also with the automatic time step, which is the same. *)
  Lemma max_speed_le {wm1 wm2 : wallmotion Rnum (cDim cfg)} (u : M_Computer.computer cfg wm1) (v : M_Computer.computer cfg wm2) p ps q qs :
    cParts u = p :: ps -> cParts v = q :: qs -> (forall i a, cParts u !! i = Some a -> exists j c, cParts v !! j = Some c /\ inner (pU c) (pU c) = inner (pU a) (pU a)) ->
    len (pU (foldl max_u_step p ps)) <= len (pU (foldl max_u_step q qs)).
  Proof.
    intros Hu Hv H. destruct (max_u_spec ps p) as [M1 _]. destruct (max_u_spec qs q) as [_ M2]. unfold len. apply sqrt_le_1_alt.
    assert (foldl max_u_step p ps ∈ cParts u) as Hin by (rewrite Hu; by apply elem_of_cons). apply elem_of_list_lookup in Hin as [i Hi].
    destruct (H i _ Hi) as (j & c & Hc & <-). apply M2. apply elem_of_list_lookup_2 in Hc. rewrite Hv in Hc. by apply elem_of_cons in Hc.
  Qed.
  Theorem C63_dt s t : corresponding Q b f rel s t -> determine_dt t = determine_dt s.
  Proof.
    intros [(HL & HR & HF) HW _ _]. unfold determine_dt. rewrite (sw_maxdt _ _ _ _ HW), (sw_maxdx _ _ _ _ HW).
    destruct (cParts s) as [|p ps] eqn:ES; destruct (cParts t) as [|q qs] eqn:ET; try done.
    assert (len (pU (foldl max_u_step p ps)) = len (pU (foldl max_u_step q qs))) as EQ.
    { apply Rle_antisym.
      - apply (max_speed_le s t p ps q qs ES ET). intros i a Ha. rewrite ES in Ha. exists (f i), (cp a). rewrite ET. split; [by apply HF|]. cbn [pU carry_part]. by apply inner_rot.
      - apply (max_speed_le t s q qs p ps ET ES). intros j c Hc. rewrite ET in Hc. destruct (renumbering_onto _ f j HR) as (i & Hi & ->).
        { rewrite <- HL. by eapply lookup_lt_Some. }
        destruct (lookup_lt_is_Some_2 _ _ Hi) as [a Ha]. exists i, a. rewrite ES. split; [done|]. rewrite (HF i a Ha) in Hc. injection Hc as <-. cbn [pU carry_part]. symmetry. by apply inner_rot. }
    cbv zeta. rewrite !vnorm_len. by rewrite EQ.
  Qed.
  Theorem C63_automatic (env0 env0' : environment Rnum cfg) s t s' t' :
    walls_correspond Q b f (psize s) wm wm' rel ->
    square_ground env0 -> square_ground env0' -> 0 < eNL env0 -> 0 <= eRe env0 -> reachable env0 s -> reachable env0' t ->
    corresponding Q b f rel s t -> ended (forward s) s' -> ended (forward t) t' -> same_losses f s' t' ->
    corresponding Q b f rel s' t' /\ (forward s = Done s' <-> forward t = Done t').
  Proof.
    intros HW Hsq Hsq' HNL Hre Hr Hr' HC E1 E2 HD. pose proof (C63_dt s t HC) as EQ. unfold forward in *. rewrite EQ in *.
    destruct (determine_dt s) as [dt|]; [|by destruct E1]. by apply (C63_step env0 env0' dt s t).
  Qed.
End Sym.

(** C63.  A flow with a symmetry (mirror, rotation, translation by a period, ...) keeps it: [f i] is the image of particle [i]. *)
Theorem C63_symmetry_kept {cfg : config} {wm : wallmotion Rnum (cDim cfg)} Q (b : vec Rnum (cDim cfg)) f rel
    (env0 : environment Rnum cfg) (dt : R) (s s' : computer cfg wm) :
  orthogonal (dimn (cDim cfg)) Q -> walls_correspond Q b f (psize s) wm wm rel -> rel (cWall s) (cWall s) ->
  (forall x, gravity_at (cEnv s) (carry Q b x) = rotate Q (gravity_at (cEnv s) x)) ->
  square_ground env0 -> 0 < eNL env0 -> 0 <= eRe env0 -> reachable env0 s ->
  same_frame Q b f (cParts s) (cParts s) -> ended (forward_dt (dt : Rnum) s) s' ->
  same_losses f s' s' -> same_frame Q b f (cParts s') (cParts s').
Proof.
  intros HQ HW HR HG Hsq HNL Hre Hr HF HE HD.
  apply (C63_step Q HQ b f rel env0 env0 dt s s s' s'); try done.
Qed.

(** ** Renumbering *)
Section Renumber.
  Context {cfg : config} {wm wm' : wallmotion Rnum (cDim cfg)}.
  Notation d := (cDim cfg).
  Notation V := (vec Rnum d).
  Lemma one_orthogonal n : orthogonal n one_if_same.
  Proof.
    intros a c Ha Hc. split.
    - rewrite (sum_n_ext _ _ (fun k => if (k =? a)%nat then one_if_same k c else 0)); [by rewrite sum_n_delta|].
      intros k _. unfold one_if_same. destruct (Nat.eqb_spec k a); ring.
    - rewrite (sum_n_ext _ _ (fun k => if (k =? a)%nat then one_if_same c k else 0)).
      + rewrite sum_n_delta by done. unfold one_if_same. by rewrite Nat.eqb_sym.
      + intros k _. unfold one_if_same. rewrite (Nat.eqb_sym a k). destruct (Nat.eqb_spec k a); ring.
  Qed.
  Lemma rotate_one (x : V) : rotate (cfg := cfg) one_if_same x = x.
  Proof.
    apply coord_ext. intros a Ha. rewrite coord_rot by done. rewrite (sum_n_ext _ _ (fun k => if (k =? a)%nat then coord x k else 0)); [by apply sum_n_delta|].
    intros k _. unfold one_if_same. rewrite (Nat.eqb_sym a k). destruct (Nat.eqb_spec k a); ring.
  Qed.
  Lemma carry_one (x : V) : carry (cfg := cfg) one_if_same vzero x = x.
  Proof. unfold carry. rewrite rotate_one. apply coord_ext. intros k Hk. rewrite coord_add, coord_zero by done. ring. Qed.
  Lemma carry_part_one (p : particle Rnum d) : carry_part (cfg := cfg) one_if_same vzero p = p.
  Proof. unfold carry_part. rewrite rotate_one, carry_one. by destruct p. Qed.

  (** C63.  The order in which the particles were added does not matter: two computers for the same environment whose particles
      are numbered differently end their steps with the same particles, under the same numbers as before.  Here nothing has to
      be assumed about the particles that leave. *)
  Theorem C63_numbering f rel (env0 : environment Rnum cfg) (dt : R) (s : computer cfg wm) (t : computer cfg wm') s' t' :
    walls_correspond one_if_same vzero f (psize s) wm wm' rel ->
    square_ground env0 -> 0 < eNL env0 -> 0 <= eRe env0 -> reachable env0 s -> reachable env0 t ->
    corresponding one_if_same vzero f rel s t ->
    ended (forward_dt (dt : Rnum) s) s' -> ended (forward_dt (dt : Rnum) t) t' ->
    corresponding one_if_same vzero f rel s' t' /\ (forward_dt (dt : Rnum) s = Done s' <-> forward_dt (dt : Rnum) t = Done t') /\
    forall i, (i < psize s)%nat -> cParts t' !! f i = cParts s' !! i.
  Proof.
    intros HW Hsq HNL Hre Hr Hr' HC E1 E2.
    destruct (ended_search env0 dt s s' Hsq Hr E1) as (s1 & A1 & PA). destruct (ended_search env0 dt t t' Hsq Hr' E2) as (t1 & B1 & PB).
    pose proof (search_searched env0 dt s s1 Hsq Hr A1) as S1. pose proof (search_searched env0 dt t t1 Hsq Hr' B1) as S2.
    destruct (co_frame _ _ _ _ _ _ HC) as (HL & HR & HF).
    assert (forall i p q, cParts s' !! i = Some p -> cParts t' !! f i = Some q -> (enabled p <-> enabled q)) as HD.
    { intros i p' q' Hp' Hq'. destruct (phase_type _ _ _ _ PA Hp') as (p1 & Hp1 & Ht). destruct (phase_type _ _ _ _ PB Hq') as (q1 & Hq1 & Ht').
      rewrite (se_parts _ _ S1), list_lookup_fmap in Hp1. change (cParts (start_step (dt : Rnum) s)) with (cParts s) in Hp1. destruct (cParts s !! i) as [p|] eqn:Hp; [|done]. injection Hp1 as <-.
      rewrite (se_parts _ _ S2), list_lookup_fmap in Hq1. change (cParts (start_step (dt : Rnum) t)) with (cParts t) in Hq1. rewrite (HF i p Hp), carry_part_one in Hq1. injection Hq1 as <-.
      assert (leave (cGrid t) p = leave (cGrid s) p) as EL.
      { destruct (inv_geom _ _ (reachable_inv env0 s Hsq Hr)) as (g1 & G1 & K1). destruct (inv_geom _ _ (reachable_inv env0 t Hsq Hr')) as (g2 & G2 & K2).
        rewrite G1 in G2. injection G2 as <-. unfold leave. by rewrite (same_geom_in_grid g1 (cGrid s)), (same_geom_in_grid g1 (cGrid t)). }
      unfold enabled. rewrite Ht, Ht'. change (cGrid (start_step (dt : Rnum) s)) with (cGrid s). change (cGrid (start_step (dt : Rnum) t)) with (cGrid t). by rewrite EL. }
    destruct (C63_step one_if_same (one_orthogonal _) vzero f rel env0 env0 dt s t s' t' HW Hsq Hsq HNL Hre Hr Hr' HC E1 E2 HD) as [C1 C2].
    split; [done|]. split; [done|]. intros i Hi. destruct (co_frame _ _ _ _ _ _ C1) as (_ & _ & HF').
    assert (psize s' = psize s) as HN. { rewrite (pr_size _ _ PA). unfold psize. rewrite (se_parts _ _ S1), fmap_length. done. }
    destruct (lookup_lt_is_Some_2 (cParts s') i) as [p Hp]; [change (i < psize s')%nat; by rewrite HN|]. rewrite (HF' i p Hp), Hp. by rewrite carry_part_one.
  Qed.

  (** C63.  ... and end the same way: completed, too many particles in a block, or no solution of the pressure equation. *)
  Lemma crowded_sym f rel (env0 : environment Rnum cfg) (s : computer cfg wm) (t : computer cfg wm') :
    corresponding one_if_same vzero f rel s t -> crowded env0 s <-> crowded env0 t.
  Proof.
    intros HC. destruct (co_frame _ _ _ _ _ _ HC) as (HL & HR & HF).
    assert (forall i p, cParts s !! i = Some p -> cParts t !! f i = Some p) as HF' by (intros i p Hp; rewrite (HF i p Hp); by rewrite carry_part_one).
    split; intros (b & js & H1 & H2 & H3 & H4 & H5).
    - exists b, (f <$> js). split; [done|]. split; [done|]. split; [|split].
      + apply NoDup_fmap_2_strong; [|done]. intros x y Hx Hy. destruct (H4 x Hx) as (px & Px & _). destruct (H4 y Hy) as (py & Py & _).
        apply HR; by eapply lookup_lt_Some.
      + intros j' Hj'. apply elem_of_list_fmap in Hj' as (j & -> & Hj). destruct (H4 j Hj) as (p & Hp & Hx). exists p. split; [by apply HF'|done].
      + by rewrite fmap_length.
    - set (js' := filter (fun j => f j ∈ js) (seq 0 (length (cParts s)))). exists b, js'. split; [done|]. split; [done|].
      assert (forall j, j ∈ js' <-> f j ∈ js /\ (j < length (cParts s))%nat) as Hin.
      { intros j. unfold js'. rewrite elem_of_list_filter, elem_of_seq. split; intros [? ?]; (split; [done|]); lia. }
      assert (NoDup js') as Hnd by (apply list.NoDup_filter, NoDup_seq).
      split; [done|]. split.
      + intros j Hj. apply Hin in Hj as [Hj Hlt]. destruct (lookup_lt_is_Some_2 _ _ Hlt) as [p Hp]. destruct (H4 _ Hj) as (q & Hq & Hx).
        rewrite (HF' j p Hp) in Hq. injection Hq as <-. eauto.
      + assert (f <$> js' ≡ₚ js) as HP.
        { apply NoDup_Permutation; [|done|].
          - apply NoDup_fmap_2_strong; [|done]. intros x y [_ Hx]%Hin [_ Hy]%Hin. by apply HR.
          - intros j'. rewrite elem_of_list_fmap. split; [by intros (j & -> & [? _]%Hin)|]. intros Hj'. destruct (H4 j' Hj') as (q & Hq & _).
            destruct (renumbering_onto _ f j' HR) as (j & Hj & ->); [rewrite <- HL; by eapply lookup_lt_Some|]. exists j. split; [done|]. by apply Hin. }
        destruct H5 as (c & Hc & Hlt). exists c. split; [done|]. rewrite <- (Permutation_length HP), fmap_length in Hlt. done.
  Qed.
  Theorem C63_numbering_outcome f rel (env0 : environment Rnum cfg) (dt : R) (s : computer cfg wm) (t : computer cfg wm') :
    walls_correspond one_if_same vzero f (psize s) wm wm' rel ->
    square_ground env0 -> 0 < eNL env0 -> 0 <= eRe env0 -> reachable env0 s -> reachable env0 t -> locatable env0 s ->
    corresponding one_if_same vzero f rel s t ->
    match forward_dt (dt : Rnum) s with
    | Done s' => exists t', forward_dt (dt : Rnum) t = Done t' /\ corresponding one_if_same vzero f rel s' t'
    | Throw TooManyParticles _ => exists t', forward_dt (dt : Rnum) t = Throw TooManyParticles t'
    | Throw CgNotConverged s' => exists t', forward_dt (dt : Rnum) t = Throw CgNotConverged t' /\ corresponding one_if_same vzero f rel s' t'
    | Undef => False
    end.
  Proof.
    intros HW Hsq HNL Hre Hr Hr' Hloc HC. destruct (co_frame _ _ _ _ _ _ HC) as (HL & HR & HF).
    assert (locatable env0 t) as Hloc'.
    { intros i' p' k Hp' He Hk. destruct (renumbering_onto _ f i' HR) as (i & Hi & ->); [rewrite <- HL; by eapply lookup_lt_Some|].
      destruct (lookup_lt_is_Some_2 _ _ Hi) as [p Hp]. rewrite (HF i p Hp), carry_part_one in Hp'. injection Hp' as <-. by apply (Hloc i p k). }
    pose proof (C56_overflow_iff env0 (dt : Rnum) s Hsq Hr Hloc) as O1. pose proof (C56_overflow_iff env0 (dt : Rnum) t Hsq Hr' Hloc') as O2.
    pose proof (C56_otherwise env0 (dt : Rnum) s Hsq Hr Hloc) as K1. pose proof (C56_otherwise env0 (dt : Rnum) t Hsq Hr' Hloc') as K2.
    pose proof (crowded_sym f rel env0 s t HC) as HCr.
    destruct (forward_dt (dt : Rnum) s) as [s'|[] s'|] eqn:E.
    - assert (~ crowded env0 s) as NC by (rewrite <- O1; by intros [? ?]).
      destruct K2 as [[t' Et]|[_ [t' Et]]]; [by rewrite <- HCr| |].
      + exists t'. split; [done|]. apply (C63_numbering f rel env0 dt s t); try done; by left.
      + exfalso. destruct (C63_numbering f rel env0 dt s t s' t') as (_ & HH & _); try done; [by left|by right|]. rewrite Et in HH. by destruct HH as [HH _]; specialize (HH E).
    - apply O2, HCr, O1. eauto.
    - assert (~ crowded env0 s) as NC by (rewrite <- O1; by intros [? ?]).
      destruct K2 as [[t' Et]|[_ [t' Et]]]; [by rewrite <- HCr| |].
      + exfalso. destruct (C63_numbering f rel env0 dt s t s' t') as (_ & HH & _); try done; [by right|by left|]. destruct HH as [_ HH]. specialize (HH Et). congruence.
      + exists t'. split; [done|]. apply (C63_numbering f rel env0 dt s t); try done; by right.
    - destruct (search_outcome env0 (dt : Rnum) s Hsq Hr Hloc) as [[H _]|[H _]]; [by apply O1 in H as [? ?]|]. destruct (K1 H) as [[? ?]|[_ [? ?]]]; done.
  Qed.
End Renumber.

(** Helpers for C63: rotations, renumberings, the solver. *)
From Verif Require Import P_AccR P_Cg P_Force S_Ppe T_Solve T_Grad.
From Verif Require Export S_Sym.
Open Scope R_scope.

(** ** Renumbering *)
Lemma renumbering_seq n f : renumbering n f -> map f (seq 0 n) ≡ₚ seq 0 n.
Proof.
  intros [H1 H2]. assert (NoDup (map f (seq 0 n))) as Hnd.
  { apply NoDup_alt. intros i j x Hi Hj. change (map f (seq 0 n)) with (f <$> seq 0 n) in Hi, Hj.
    apply list_lookup_fmap_Some in Hi as (a & Ha & ->). apply list_lookup_fmap_Some in Hj as (c & Hc & E).
    apply lookup_seq in Ha as [-> Ha]. apply lookup_seq in Hc as [-> Hc]. apply H2 in E; lia. }
  apply submseteq_Permutation_length_eq; [by rewrite map_length|]. apply NoDup_submseteq; [done|].
  intros x (i & -> & Hi)%elem_of_list_fmap. apply elem_of_seq in Hi. apply elem_of_seq. specialize (H1 i ltac:(lia)). lia.
Qed.
Lemma sum_renumber n f (g : nat -> R) : renumbering n f -> sum_n n (fun i => g (f i)) = sum_n n g.
Proof. intros H. unfold sum_n. rewrite <- (rsum_perm _ _ (Permutation_map g (renumbering_seq n f H))), map_map. done. Qed.
Lemma renumbering_onto n f j : renumbering n f -> (j < n)%nat -> exists i, (i < n)%nat /\ j = f i.
Proof.
  intros H Hj. assert (j ∈ map f (seq 0 n)) as Hin by (rewrite (renumbering_seq n f H); apply elem_of_seq; lia).
  apply elem_of_list_fmap in Hin as (i & -> & Hi). apply elem_of_seq in Hi. exists i. split; [lia|done].
Qed.

(** ** Rotations *)
Section Rot.
  Context {cfg : config} (Q : nat -> nat -> R).
  Notation d := (cDim cfg).
  Notation V := (vec Rnum d).
  Implicit Types x y : V.
  Notation rot := (rotate Q).

  Lemma coord_rot x a : (a < dimn d)%nat -> coord (rot x) a = sum_n (dimn d) (fun k => Q a k * coord x k).
  Proof. intros Ha. unfold rotate. by rewrite coord_tmk. Qed.
  Lemma rot_add x y : rot (x +^ y) = rot x +^ rot y.
  Proof.
    apply coord_ext. intros a Ha. rewrite coord_add, !coord_rot by done. rewrite <- sum_n_plus. apply sum_n_ext. intros k Hk.
    rewrite coord_add by done. lra.
  Qed.
  Lemma rot_sub x y : rot (x -^ y) = rot x -^ rot y.
  Proof.
    apply coord_ext. intros a Ha. rewrite coord_sub, !coord_rot by done. rewrite <- sum_n_sub. apply sum_n_ext. intros k Hk.
    rewrite coord_sub by done. lra.
  Qed.
  Lemma rot_scal (c : R) x : rot ((c : Rnum) *^ x) = (c : Rnum) *^ rot x.
  Proof.
    apply coord_ext. intros a Ha. rewrite coord_scal, !coord_rot by done. rewrite <- sum_n_scal. apply sum_n_ext. intros k Hk.
    rewrite coord_scal by done. ring.
  Qed.
  Lemma rot_scalr (c : R) x : rot (vscalr x (c : Rnum)) = vscalr (rot x) (c : Rnum).
  Proof.
    apply coord_ext. intros a Ha. rewrite coord_scalr, !coord_rot by done. rewrite Rmult_comm, <- sum_n_scal. apply sum_n_ext. intros k Hk.
    rewrite coord_scalr by done. ring.
  Qed.
  Lemma rot_div (c : R) x : rot (x /^ (c : Rnum)) = rot x /^ (c : Rnum).
  Proof.
    apply coord_ext. intros a Ha. rewrite coord_div, !coord_rot by done. unfold Rdiv. rewrite Rmult_comm, <- sum_n_scal. apply sum_n_ext. intros k Hk.
    rewrite coord_div by done. unfold Rdiv. ring.
  Qed.
  Lemma rot_zero : rot vzero = (vzero : V).
  Proof.
    apply coord_ext. intros a Ha. rewrite coord_rot, coord_zero by done. apply sum_n_zero. intros k Hk. rewrite coord_zero by done. ring.
  Qed.

  Context (HQ : orthogonal (dimn d) Q).
  Lemma inner_rot x y : inner (rot x) (rot y) = inner x y.
  Proof.
    unfold inner.
    rewrite (sum_n_ext _ _ (fun a => sum_n (dimn d) (fun k => sum_n (dimn d) (fun l => (coord x k * coord y l) * (Q a k * Q a l))))).
    2:{ intros a Ha. rewrite !coord_rot by done. rewrite Rmult_comm, <- sum_n_scal. apply sum_n_ext. intros k Hk.
        rewrite Rmult_comm, <- sum_n_scal. apply sum_n_ext. intros l Hl. ring. }
    rewrite sum_n_swap. apply sum_n_ext. intros k Hk. rewrite sum_n_swap.
    rewrite (sum_n_ext _ _ (fun l => if (l =? k)%nat then coord x k * coord y l else 0)).
    - by apply (sum_n_delta _ k (fun l => coord x k * coord y l)).
    - intros l Hl. rewrite sum_n_scal, (proj1 (HQ k l Hk Hl)). unfold one_if_same.
      destruct (Nat.eqb_spec k l), (Nat.eqb_spec l k); try lia; ring.
  Qed.
  Lemma len_rot x : len (rot x) = len x.
  Proof. unfold len. by rewrite inner_rot. Qed.

  Context (b : V).
  Notation T := (carry Q b).
  Lemma carry_sub x y : T x -^ T y = rot (x -^ y).
  Proof. rewrite rot_sub. unfold carry. apply coord_ext. intros k Hk. rewrite !coord_sub, !coord_add by done. ring. Qed.
  Lemma carry_add x y : T (x +^ y) = T x +^ rot y.
  Proof. unfold carry. rewrite rot_add. apply coord_ext. intros k Hk. rewrite !coord_add by done. ring. Qed.
  Lemma carry_minus x y : T (x -^ y) = T x -^ rot y.
  Proof. unfold carry. rewrite rot_sub. apply coord_ext. intros k Hk. rewrite ?coord_sub, ?coord_add, ?coord_sub by done. ring. Qed.
  Lemma edist_carry x y : edist (T x) (T y) = edist x y.
  Proof. rewrite !edist_len, carry_sub. apply len_rot. Qed.
  Lemma dist_carry x y : dist (T x) (T y) = dist x y.
  Proof. rewrite !dist_edist. apply edist_carry. Qed.
  Lemma vdot_rot x y : vdot (rot x) (rot y) = vdot x y.
  Proof. rewrite !vdot_inner. apply inner_rot. Qed.
  Lemma vnorm_rot x : vnorm (rot x) = vnorm x.
  Proof. rewrite !vnorm_len. apply len_rot. Qed.

  (** ** Matrices *)
  (** Q m Q^T *)
  Definition mrot (m : mat Rnum d) : mat Rnum d :=
    mmk (N := Rnum) (fun a c => sum_n (dimn d) (fun k => sum_n (dimn d) (fun l => Q a k * Q c l * mget m k l))).
  Lemma mget_mrot m a c : (a < dimn d)%nat -> (c < dimn d)%nat ->
    mget (mrot m) a c = sum_n (dimn d) (fun k => sum_n (dimn d) (fun l => Q a k * Q c l * mget m k l)).
  Proof. intros Ha Hc. unfold mrot. by rewrite mget_mmk. Qed.
  Lemma mat_ext (m m' : mat Rnum d) : (forall a c, (a < dimn d)%nat -> (c < dimn d)%nat -> mget m a c = mget m' a c) -> m = m'.
  Proof. intros H. apply tup_ext. intros a Ha. apply tup_ext. intros c Hc. by apply H. Qed.
  Lemma mrot_add m m' : mrot (madd m m') = madd (mrot m) (mrot m').
  Proof.
    apply mat_ext. intros a c Ha Hc. rewrite mget_mrot by done. unfold madd at 2. rewrite mget_mmk by done. cbn [nadd Rnum].
    rewrite !mget_mrot by done. rewrite <- sum_n_plus. apply sum_n_ext. intros k Hk. rewrite <- sum_n_plus. apply sum_n_ext. intros l Hl.
    unfold madd. rewrite mget_mmk by done. cbn [nadd Rnum]. ring.
  Qed.
  Lemma mrot_zero : mrot mzero = mzero.
  Proof.
    apply mat_ext. intros a c Ha Hc. rewrite mget_mrot by done. unfold mzero. rewrite mget_mmk by done. apply sum_n_zero. intros k Hk.
    apply sum_n_zero. intros l Hl. rewrite mget_mmk by done. cbn [nofZ Rnum]. ring.
  Qed.
  Lemma mrot_outer (w : R) x : mrot (mscal (w : Rnum) (mouter x x)) = mscal (w : Rnum) (mouter (rot x) (rot x)).
  Proof.
    apply mat_ext. intros a c Ha Hc. rewrite mget_mrot by done. unfold mscal at 2. rewrite mget_mmk by done. unfold mouter at 2. rewrite mget_mmk by done.
    cbn [nmul Rnum]. change (tget d (rot x) a) with (coord (rot x) a). change (tget d (rot x) c) with (coord (rot x) c). rewrite !coord_rot by done.
    rewrite (Rmult_comm (sum_n _ _)), <- sum_n_scal, <- sum_n_scal. apply sum_n_ext. intros k Hk.
    rewrite (Rmult_comm (sum_n _ _)), <- !sum_n_scal. apply sum_n_ext. intros l Hl.
    unfold mscal. rewrite mget_mmk by done. unfold mouter. rewrite mget_mmk by done. cbn [nmul Rnum].
    change (tget d x k) with (coord x k). change (tget d x l) with (coord x l). ring.
  Qed.
  Lemma sum_orth (g : nat -> R) c : (c < dimn d)%nat ->
    sum_n (dimn d) (fun l => sum_n (dimn d) (fun k => Q k l * Q k c) * g l) = g c.
  Proof.
    intros Hc. rewrite (sum_n_ext _ _ (fun l => if (l =? c)%nat then g l else 0)); [by apply sum_n_delta|].
    intros l Hl. rewrite (proj1 (HQ l c Hl Hc)). unfold one_if_same. destruct (_ =? _)%nat; ring.
  Qed.
  Lemma mprod_rot m x : mprod (mrot m) (rot x) = rot (mprod m x).
  Proof.
    apply coord_ext. intros a Ha. rewrite coord_mprod, coord_rot by done.
    transitivity (sum_n (dimn d) (fun c => sum_n (dimn d) (fun k => sum_n (dimn d) (fun l => sum_n (dimn d) (fun j => Q a k * mget m k l * (Q c l * Q c j) * coord x j))))).
    { apply sum_n_ext. intros c Hc. rewrite mget_mrot, coord_rot by done.
      rewrite Rmult_comm, <- sum_n_scal. apply sum_n_ext. intros k Hk. rewrite <- sum_n_scal. apply sum_n_ext. intros l Hl.
      rewrite Rmult_comm, <- sum_n_scal. apply sum_n_ext. intros j Hj. ring. }
    rewrite sum_n_swap. apply sum_n_ext. intros k Hk. rewrite sum_n_swap, coord_mprod by done. rewrite <- sum_n_scal. apply sum_n_ext. intros l Hl.
    rewrite sum_n_swap.
    rewrite (sum_n_ext _ _ (fun j => sum_n (dimn d) (fun c => Q c j * Q c l) * (Q a k * mget m k l * coord x j))).
    - rewrite (sum_orth (fun j => Q a k * mget m k l * coord x j)) by done. ring.
    - intros j Hj. rewrite (Rmult_comm (sum_n _ _)), <- sum_n_scal. apply sum_n_ext. intros c Hc. ring.
  Qed.
End Rot.

(** ** Inverses *)
Definition fdet (d : dim) (M : nat -> nat -> R) : R :=
  match d with
  | D2 => M 0%nat 0%nat * M 1%nat 1%nat - M 0%nat 1%nat * M 1%nat 0%nat
  | D3 => M 0%nat 0%nat * (M 1%nat 1%nat * M 2%nat 2%nat - M 1%nat 2%nat * M 2%nat 1%nat)
          - M 0%nat 1%nat * (M 1%nat 0%nat * M 2%nat 2%nat - M 1%nat 2%nat * M 2%nat 0%nat)
          + M 0%nat 2%nat * (M 1%nat 0%nat * M 2%nat 1%nat - M 1%nat 1%nat * M 2%nat 0%nat)
  end.
Lemma fdet_mul d (A B : nat -> nat -> R) : fdet d (fun a c => sum_n (dimn d) (fun k => A a k * B k c)) = fdet d A * fdet d B.
Proof. destruct d; unfold fdet, sum_n, rsum; simpl; ring. Qed.
Lemma fdet_transpose d A : fdet d (fun a c => A c a) = fdet d A.
Proof. destruct d; unfold fdet; ring. Qed.
Lemma fdet_ext d A B : (forall a c, (a < dimn d)%nat -> (c < dimn d)%nat -> A a c = B a c) -> fdet d A = fdet d B.
Proof. destruct d; cbn; intros H; unfold fdet; rewrite !H by lia; done. Qed.
Lemma fdet_one d : fdet d one_if_same = 1.
Proof. destruct d; unfold fdet, one_if_same; simpl; ring. Qed.
Lemma fdet_orth d Q : orthogonal (dimn d) Q -> fdet d Q * fdet d Q = 1.
Proof.
  intros H. rewrite <- (fdet_one d). rewrite (fdet_ext d one_if_same (fun a c => sum_n (dimn d) (fun k => Q a k * (fun a c => Q c a) k c))).
  - by rewrite fdet_mul, fdet_transpose.
  - intros a c Ha Hc. symmetry. apply (H a c Ha Hc).
Qed.
Lemma determinant_fdet {d} (m : mat Rnum d) : determinant m = fdet d (mget m).
Proof. by destruct d. Qed.

Section Inverse.
  Context {cfg : config} (Q : nat -> nat -> R).
  Notation d := (cDim cfg).
  Context (HQ : orthogonal (dimn d) Q).
  Notation mrot := (mrot (cfg := cfg) Q).
  Lemma mrot_mul m a c : (a < dimn d)%nat -> (c < dimn d)%nat ->
    mget (mrot m) a c = sum_n (dimn d) (fun k => Q a k * sum_n (dimn d) (fun l => mget m k l * Q c l)).
  Proof.
    intros Ha Hc. rewrite mget_mrot by done. apply sum_n_ext. intros k Hk. rewrite <- sum_n_scal. apply sum_n_ext. intros l Hl. ring.
  Qed.
  Lemma det_mrot m : determinant (mrot m) = determinant m.
  Proof.
    rewrite !determinant_fdet.
    rewrite (fdet_ext d _ (fun a c => sum_n (dimn d) (fun k => Q a k * (fun k c => sum_n (dimn d) (fun l => mget m k l * (fun l c => Q c l) l c)) k c))).
    - rewrite fdet_mul, fdet_mul, (fdet_transpose d Q). transitivity (fdet d Q * fdet d Q * fdet d (mget m)); [ring|]. rewrite fdet_orth by done. ring.
    - intros a c Ha Hc. by rewrite mrot_mul.
  Qed.
  (** (Q A Q^T)(Q B Q^T) = Q (A B) Q^T *)
  Lemma mmul_mrot A B a c : (a < dimn d)%nat -> (c < dimn d)%nat ->
    (forall k l, (k < dimn d)%nat -> (l < dimn d)%nat -> mmul A B k l = one_if_same k l) ->
    mmul (mrot A) (mrot B) a c = one_if_same a c.
  Proof.
    intros Ha Hc H. unfold mmul in *.
    assert (forall x, (x < dimn d)%nat -> mget (mrot A) a x = sum_n (dimn d) (fun k => sum_n (dimn d) (fun l => Q a k * Q x l * mget A k l))) as EA by (intros; by apply mget_mrot).
    transitivity (sum_n (dimn d) (fun x => sum_n (dimn d) (fun k => sum_n (dimn d) (fun l => sum_n (dimn d) (fun u => sum_n (dimn d) (fun v =>
      (Q x u * Q x l) * (Q a k * mget A k l * mget B u v * Q c v))))))).
    { apply sum_n_ext. intros x Hx. rewrite EA, (mget_mrot Q B) by done. rewrite Rmult_comm, <- sum_n_scal. apply sum_n_ext. intros k Hk.
      rewrite <- sum_n_scal. apply sum_n_ext. intros l Hl. rewrite Rmult_comm, <- sum_n_scal. apply sum_n_ext. intros u Hu.
      rewrite <- sum_n_scal. apply sum_n_ext. intros v Hv. ring. }
    rewrite sum_n_swap.
    transitivity (sum_n (dimn d) (fun k => sum_n (dimn d) (fun v => Q a k * Q c v * sum_n (dimn d) (fun l => mget A k l * mget B l v)))).
    2:{ transitivity (sum_n (dimn d) (fun k => Q a k * Q c k)); [|apply (HQ a c Ha Hc)]. apply sum_n_ext. intros k Hk.
        rewrite (sum_n_ext _ _ (fun v => if (v =? k)%nat then Q a k * Q c v else 0)); [by apply (sum_n_delta _ k (fun v => Q a k * Q c v))|].
        intros v Hv. rewrite H by done. unfold one_if_same. destruct (Nat.eqb_spec k v), (Nat.eqb_spec v k); try lia; ring. }
    apply sum_n_ext. intros k Hk. rewrite sum_n_swap.
    rewrite (sum_n_ext _ _ (fun l => sum_n (dimn d) (fun v => Q a k * mget A k l * mget B l v * Q c v))).
    - rewrite sum_n_swap. apply sum_n_ext. intros v Hv. rewrite <- sum_n_scal. apply sum_n_ext. intros l Hl. ring.
    - intros l Hl. rewrite sum_n_swap.
      rewrite (sum_n_ext _ _ (fun u => sum_n (dimn d) (fun x => Q x u * Q x l) * sum_n (dimn d) (fun v => Q a k * mget A k l * mget B u v * Q c v))).
      + apply (sum_orth Q HQ (fun u => sum_n (dimn d) (fun v => Q a k * mget A k l * mget B u v * Q c v))). done.
      + intros u Hu. rewrite (Rmult_comm (sum_n _ _)), <- sum_n_scal. apply sum_n_ext. intros x Hx. rewrite (Rmult_comm (sum_n _ _)), <- sum_n_scal. apply sum_n_ext. intros v Hv. done.
  Qed.
  Lemma inverse_unique (A B C : mat Rnum d) :
    (forall k l, (k < dimn d)%nat -> (l < dimn d)%nat -> mmul A B k l = one_if_same k l) ->
    (forall k l, (k < dimn d)%nat -> (l < dimn d)%nat -> mmul B C k l = one_if_same k l) -> A = C.
  Proof.
    intros H1 H2. apply mat_ext. intros a c Ha Hc. unfold mmul in *.
    transitivity (sum_n (dimn d) (fun k => mget A a k * sum_n (dimn d) (fun l => mget B k l * mget C l c))).
    { rewrite (sum_n_ext _ _ (fun k => if (k =? c)%nat then mget A a k else 0)); [by rewrite (sum_n_delta _ c (fun k => mget A a k))|].
      intros k Hk. rewrite H2 by done. unfold one_if_same. destruct (k =? c)%nat; ring. }
    transitivity (sum_n (dimn d) (fun l => sum_n (dimn d) (fun k => mget A a k * mget B k l) * mget C l c)).
    { rewrite (sum_n_ext _ _ (fun k => sum_n (dimn d) (fun l => mget A a k * mget B k l * mget C l c))).
      - rewrite sum_n_swap. apply sum_n_ext. intros l Hl. rewrite Rmult_comm, <- sum_n_scal. apply sum_n_ext. intros k Hk. ring.
      - intros k Hk. rewrite <- sum_n_scal. apply sum_n_ext. intros l Hl. ring. }
    rewrite (sum_n_ext _ _ (fun l => if (l =? a)%nat then mget C l c else 0)); [by rewrite (sum_n_delta _ a (fun l => mget C l c))|].
    intros l Hl. rewrite H1 by done. unfold one_if_same. destruct (Nat.eqb_spec a l), (Nat.eqb_spec l a); try lia; ring.
  Qed.
  Lemma mrot_symmetric m : (forall a c, (a < dimn d)%nat -> (c < dimn d)%nat -> mget m a c = mget m c a) ->
    forall a c, (a < dimn d)%nat -> (c < dimn d)%nat -> mget (mrot m) a c = mget (mrot m) c a.
  Proof.
    intros H a c Ha Hc. rewrite !mget_mrot by done. rewrite sum_n_swap. apply sum_n_ext. intros k Hk. apply sum_n_ext. intros l Hl. rewrite (H k l) by done. ring.
  Qed.
End Inverse.

Lemma invert_both (d : dim) (m : mat Rnum d) (val : R) :
  (forall a b, (a < dimn d)%nat -> (b < dimn d)%nat -> mget m a b = mget m b a) -> determinant m <> 0 ->
  forall i j, (i < dimn d)%nat -> (j < dimn d)%nat ->
  mmul (minvert m (val : Rnum)) m i j = one_if_same i j /\ mmul m (minvert m (val : Rnum)) i j = one_if_same i j.
Proof.
  destruct d; intros HS HD i j Hi Hj; simpl in *.
  - pose proof (C49_invert2 m val i j Hi Hj) as H. by destruct (Req_EM_T _ _).
  - by apply C49_invert3_symmetric.
Qed.
Lemma invert_singular (d : dim) (m : mat Rnum d) (val : R) : determinant m = 0 ->
  forall i j, (i < dimn d)%nat -> (j < dimn d)%nat -> mget (minvert m (val : Rnum)) i j = val * one_if_same i j.
Proof.
  destruct d; intros HD i j Hi Hj; simpl in *.
  - pose proof (C49_invert2 m val i j Hi Hj) as H. by destruct (Req_EM_T _ _).
  - pose proof (C49_invert3 m val i j Hi Hj) as H. by destruct (Req_EM_T _ _).
Qed.
Lemma mrot_invert {cfg : config} Q (m : mat Rnum (cDim cfg)) (val : R) : orthogonal (dimn (cDim cfg)) Q ->
  (forall a b, (a < dimn (cDim cfg))%nat -> (b < dimn (cDim cfg))%nat -> mget m a b = mget m b a) ->
  minvert (mrot (cfg := cfg) Q m) (val : Rnum) = mrot (cfg := cfg) Q (minvert m (val : Rnum)).
Proof.
  intros HQ HS. destruct (Req_EM_T (determinant m) 0) as [E|E].
  - apply mat_ext. intros a c Ha Hc. rewrite (invert_singular _ (mrot Q m)) by (try done; by rewrite det_mrot).
    rewrite mget_mrot by done. rewrite (sum_n_ext _ _ (fun k => val * (Q a k * Q c k))).
    + by rewrite sum_n_scal, (proj2 (HQ a c Ha Hc)).
    + intros k Hk. rewrite (sum_n_ext _ _ (fun l => if (l =? k)%nat then Q a k * Q c l * val else 0)).
      * rewrite (sum_n_delta _ k (fun l => Q a k * Q c l * val)) by done. ring.
      * intros l Hl. rewrite (invert_singular _ m val E) by done. unfold one_if_same. destruct (Nat.eqb_spec k l), (Nat.eqb_spec l k); try lia; ring.
  - symmetry. apply (inverse_unique _ (mrot Q m)).
    + intros k l Hk Hl. apply mmul_mrot; try done. intros. by apply invert_both.
    + intros k l Hk Hl. apply (invert_both _ (mrot Q m)); try done; [by apply mrot_symmetric|by rewrite det_mrot].
Qed.

(** ** The solver *)
Section Cg.
  Context (n : nat) (f : nat -> nat) (Hf : renumbering n f).
  Definition pvec (x y : list R) : Prop := length x = n /\ length y = n /\ forall i, (i < n)%nat -> el y (f i) = el x i.
  Lemma pvec_add (x y x' y' : list R) : pvec x y -> pvec x' y' -> pvec (radd x x') (radd y y').
  Proof.
    intros (H1 & H2 & H3) (H1' & H2' & H3'). split; [rewrite radd_length; congruence|]. split; [rewrite radd_length; congruence|].
    intros i Hi. rewrite !el_add by congruence. by rewrite H3, H3'.
  Qed.
  Lemma pvec_sub (x y x' y' : list R) : pvec x y -> pvec x' y' -> pvec (rsub x x') (rsub y y').
  Proof.
    intros (H1 & H2 & H3) (H1' & H2' & H3'). split; [rewrite rsub_length; congruence|]. split; [rewrite rsub_length; congruence|].
    intros i Hi. rewrite !el_sub by congruence. by rewrite H3, H3'.
  Qed.
  Lemma pvec_scal (c : R) (x y : list R) : pvec x y -> pvec (rscal c x) (rscal c y).
  Proof.
    intros (H1 & H2 & H3). split; [by rewrite rscal_length|]. split; [by rewrite rscal_length|].
    intros i Hi. rewrite !el_scal. by rewrite H3.
  Qed.
  Lemma pvec_dot (x y x' y' : list R) : pvec x y -> pvec x' y' -> rdot y y' = rdot x x'.
  Proof.
    intros (H1 & H2 & H3) (H1' & H2' & H3'). rewrite !(ldot_dotn _ _ n) by done. unfold dotn.
    rewrite <- (sum_renumber n f) by done. apply sum_n_ext. intros i Hi. by rewrite H3, H3'.
  Qed.
  Context (A B : list (mrow (N := Rnum))) (HA : sparse n A) (HB : sparse n B).
  Context (HAB : forall i j, (i < n)%nat -> (j < n)%nat -> elem B (f i) (f j) = elem A i j).
  Lemma pvec_prod (x y : list R) : pvec x y -> pvec (rprod A x) (rprod B y).
  Proof.
    intros (H1 & H2 & H3). split; [by apply rprod_length|]. split; [by apply rprod_length|].
    intros i Hi. rewrite !(el_rprod n) by done. unfold mat_vec. rewrite <- (sum_renumber n f) by done. apply sum_n_ext. intros j Hj.
    by rewrite HAB, H3.
  Qed.
  Lemma pvec_loop r0 fuel : forall (x y r r' p p' : list R) (rr : R), pvec x y -> pvec r r' -> pvec p p' ->
    (rloop B r0 fuel y r' p' rr).2 = (rloop A r0 fuel x r p rr).2 /\ pvec (rloop A r0 fuel x r p rr).1 (rloop B r0 fuel y r' p' rr).1.
  Proof.
    induction fuel as [|fuel IH]; intros x y r r' p p' rr Hx Hr Hp; [done|]. rewrite !rloop_S. cbv zeta.
    pose proof (pvec_prod p p' Hp) as HAp. rewrite (pvec_dot p p' (rprod A p) (rprod B p')) by done. set (alpha := rr / _).
    pose proof (pvec_sub _ _ _ _ Hr (pvec_scal alpha _ _ HAp)) as Hr'. rewrite (pvec_dot _ _ _ _ Hr' Hr').
    pose proof (pvec_add _ _ _ _ Hx (pvec_scal alpha _ _ Hp)) as Hx'. destruct (Rlt_dec _ _); [done|].
    apply IH; [done|done|]. apply pvec_add; [done|]. by apply pvec_scal.
  Qed.
  Lemma pvec_solve (x y c c' : list R) (eps : R) : pvec x y -> pvec c c' ->
    (rsolve B y c' eps).2 = (rsolve A x c eps).2 /\ pvec (rsolve A x c eps).1 (rsolve B y c' eps).1.
  Proof.
    intros Hx Hc. rewrite !(rsolve_eq n) by (try done; try apply Hx; try apply Hc).
    pose proof (pvec_sub _ _ _ _ Hc (pvec_prod _ _ Hx)) as Hr.
    assert (res2 n B c' y = res2 n A c x) as ->.
    { rewrite <- !residual_res2 by (try done; try apply Hx; try apply Hc). rewrite <- !ldot_dotn by apply Hr. by apply pvec_dot. }
    destruct (Req_EM_T _ _); [done|]. by apply pvec_loop.
  Qed.
End Cg.

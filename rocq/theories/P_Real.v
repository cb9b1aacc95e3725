(** Basic facts about the model read with real numbers. *)
From Verif Require Export S_Real.
From Coq Require Import ZifyBool.

(** ** Comparisons *)
Lemma Rltb_true (a b : R) : @nltb Rnum a b = true <-> a < b.
Proof. simpl. destruct (Rlt_dec a b); split; try done. Qed.
Lemma Rltb_false (a b : R) : @nltb Rnum a b = false <-> b <= a.
Proof. simpl. destruct (Rlt_dec a b); split; try done; lra. Qed.
Lemma Rleb_true (a b : R) : @nleb Rnum a b = true <-> a <= b.
Proof. simpl. destruct (Rle_dec a b); split; try done. Qed.
Lemma Reqb_true (a b : R) : @neqb Rnum a b = true <-> a = b.
Proof. simpl. destruct (Req_EM_T a b); split; try done. Qed.
Lemma Reqb_false (a b : R) : @neqb Rnum a b = false <-> a <> b.
Proof. simpl. destruct (Req_EM_T a b); split; try done. Qed.
Lemma nmin_R (a b : R) : nmin (N := Rnum) a b = Rmin a b.
Proof. unfold nmin. simpl. unfold Rmin. destruct (Rlt_dec b a), (Rle_dec a b); lra. Qed.
Lemma nmax_R (a b : R) : nmax (N := Rnum) a b = Rmax a b.
Proof. unfold nmax. simpl. unfold Rmax. destruct (Rlt_dec a b), (Rle_dec a b); lra. Qed.

(** ** Tuples *)
Lemma tget_tmk {A} d (f : nat -> A) k : (k < dimn d)%nat -> tget d (tmk d f) k = f k.
Proof. destruct d; simpl; intros H; destruct k as [|[|[|k]]]; try done; lia. Qed.
Lemma tup_ext {A} d (a b : tup d A) : (forall k, (k < dimn d)%nat -> tget d a k = tget d b k) -> a = b.
Proof.
  destruct d; simpl; intros H.
  - destruct a, b. pose proof (H 0%nat ltac:(lia)). pose proof (H 1%nat ltac:(lia)). simpl in *. congruence.
  - destruct a as [[] ?], b as [[] ?]. pose proof (H 0%nat ltac:(lia)). pose proof (H 1%nat ltac:(lia)). pose proof (H 2%nat ltac:(lia)).
    simpl in *. congruence.
Qed.
Lemma tmk_ext {A} d (f g : nat -> A) : (forall k, (k < dimn d)%nat -> f k = g k) -> tmk d f = tmk d g.
Proof. intros H. apply tup_ext. intros k Hk. rewrite !tget_tmk by done. by apply H. Qed.
Lemma tmk_tget {A} d (a : tup d A) : tmk d (tget d a) = a.
Proof. apply tup_ext. intros k Hk. by rewrite tget_tmk. Qed.

(** ** Finite sums *)
Lemma rsum_app l1 l2 : rsum (l1 ++ l2) = rsum l1 + rsum l2.
Proof. unfold rsum. induction l1 as [|a l IH]; simpl; [lra|]. rewrite IH. lra. Qed.
Lemma rsum_perm l1 l2 : l1 ≡ₚ l2 -> rsum l1 = rsum l2.
Proof. unfold rsum. induction 1; simpl; lra. Qed.
Lemma rsum_foldl a l : foldl Rplus a l = a + rsum l.
Proof. revert a; induction l as [|b l IH]; intros a; simpl; [unfold rsum; simpl; lra|]. rewrite IH. unfold rsum. simpl. lra. Qed.
Lemma rsum_map_plus {A} (f g : A -> R) l : rsum (map (fun a => f a + g a) l) = rsum (map f l) + rsum (map g l).
Proof. unfold rsum. induction l as [|a l IH]; simpl; [lra|]. rewrite IH. lra. Qed.
Lemma rsum_map_scal {A} c (f : A -> R) l : rsum (map (fun a => c * f a) l) = c * rsum (map f l).
Proof. unfold rsum. induction l as [|a l IH]; simpl; [lra|]. rewrite IH. lra. Qed.
Lemma rsum_map_opp {A} (f : A -> R) l : rsum (map (fun a => - f a) l) = - rsum (map f l).
Proof. unfold rsum. induction l as [|a l IH]; simpl; [lra|]. rewrite IH. lra. Qed.
Lemma rsum_map_ext {A} (f g : A -> R) l : (forall a, a ∈ l -> f a = g a) -> rsum (map f l) = rsum (map g l).
Proof.
  unfold rsum. induction l as [|a l IH]; intros H; simpl; [done|]. rewrite IH by (intros; apply H; by right).
  by rewrite H by left.
Qed.
Lemma rsum_map_zero {A} (f : A -> R) l : (forall a, a ∈ l -> f a = 0) -> rsum (map f l) = 0.
Proof.
  unfold rsum. induction l as [|a l IH]; intros H; simpl; [done|]. rewrite IH by (intros; apply H; by right).
  rewrite H by left. lra.
Qed.
Lemma rsum_map_nonneg {A} (f : A -> R) l : (forall a, a ∈ l -> 0 <= f a) -> 0 <= rsum (map f l).
Proof.
  unfold rsum. induction l as [|a l IH]; intros H; simpl; [lra|].
  assert (0 <= f a) by (apply H; by left).
  assert (0 <= foldr Rplus 0 (map f l)) by (apply IH; intros; apply H; by right). lra.
Qed.
Lemma rsum_map_le {A} (f g : A -> R) l : (forall a, a ∈ l -> f a <= g a) -> rsum (map f l) <= rsum (map g l).
Proof.
  unfold rsum. induction l as [|a l IH]; intros H; simpl; [lra|].
  assert (f a <= g a) by (apply H; by left).
  assert (foldr Rplus 0 (map f l) <= foldr Rplus 0 (map g l)) by (apply IH; intros; apply H; by right). lra.
Qed.
Lemma rsum_map_swap {A B} (f : A -> B -> R) l1 l2 :
  rsum (map (fun a => rsum (map (f a) l2)) l1) = rsum (map (fun b => rsum (map (fun a => f a b) l1)) l2).
Proof.
  induction l1 as [|a l1 IH]; simpl.
  - symmetry. apply rsum_map_zero. done.
  - unfold rsum at 1. simpl. fold (rsum (map (fun a => rsum (map (f a) l2)) l1)). rewrite IH.
    rewrite <- rsum_map_plus. f_equal.
Qed.
(** A sum of non-negative terms is at least each of them. *)
Lemma rsum_map_ge {A} (f : A -> R) l a : (forall a, a ∈ l -> 0 <= f a) -> a ∈ l -> f a <= rsum (map f l).
Proof.
  intros Hf Ha. apply elem_of_list_split in Ha as (l1 & l2 & ->). rewrite map_app, rsum_app. simpl.
  unfold rsum at 2. simpl. fold (rsum (map f l2)).
  assert (0 <= rsum (map f l1)) by (apply rsum_map_nonneg; intros; apply Hf; apply elem_of_app; by left).
  assert (0 <= rsum (map f l2)) by (apply rsum_map_nonneg; intros; apply Hf; apply elem_of_app; right; by right). lra.
Qed.
Lemma rsum_filter {A} (P : A -> Prop) `{forall a, Decision (P a)} (f : A -> R) l :
  rsum (map f (filter P l)) = rsum (map (fun a => if decide (P a) then f a else 0) l).
Proof.
  induction l as [|a l IH]; [done|]. rewrite filter_cons. simpl. destruct (decide (P a)); simpl; unfold rsum in *; simpl; rewrite IH; lra.
Qed.

Lemma sum_n_ext n f g : (forall i, (i < n)%nat -> f i = g i) -> sum_n n f = sum_n n g.
Proof. intros H. apply rsum_map_ext. intros i Hi. apply elem_of_seq in Hi. apply H. lia. Qed.
Lemma sum_n_plus n f g : sum_n n (fun i => f i + g i) = sum_n n f + sum_n n g.
Proof. apply rsum_map_plus. Qed.
Lemma sum_n_scal n c f : sum_n n (fun i => c * f i) = c * sum_n n f.
Proof. apply rsum_map_scal. Qed.
Lemma sum_n_opp n f : sum_n n (fun i => - f i) = - sum_n n f.
Proof. apply rsum_map_opp. Qed.
Lemma sum_n_zero n f : (forall i, (i < n)%nat -> f i = 0) -> sum_n n f = 0.
Proof. intros H. apply rsum_map_zero. intros i Hi. apply elem_of_seq in Hi. apply H. lia. Qed.
Lemma sum_n_nonneg n f : (forall i, (i < n)%nat -> 0 <= f i) -> 0 <= sum_n n f.
Proof. intros H. apply rsum_map_nonneg. intros i Hi. apply elem_of_seq in Hi. apply H. lia. Qed.
Lemma sum_n_le n f g : (forall i, (i < n)%nat -> f i <= g i) -> sum_n n f <= sum_n n g.
Proof. intros H. apply rsum_map_le. intros i Hi. apply elem_of_seq in Hi. apply H. lia. Qed.
Lemma sum_n_swap n m f : sum_n n (fun i => sum_n m (f i)) = sum_n m (fun j => sum_n n (fun i => f i j)).
Proof. apply rsum_map_swap. Qed.
Lemma sum_n_ge n f i : (forall i, (i < n)%nat -> 0 <= f i) -> (i < n)%nat -> f i <= sum_n n f.
Proof.
  intros H Hi. apply (rsum_map_ge f (seq 0 n) i).
  - intros j Hj. apply elem_of_seq in Hj. apply H. lia.
  - apply elem_of_seq. lia.
Qed.
Lemma sum_n_S n f : sum_n (S n) f = sum_n n f + f n.
Proof. unfold sum_n. rewrite seq_S, map_app, rsum_app. change (rsum (map f [(0 + n)%nat])) with (f n + 0). lra. Qed.
Lemma sum_n_sub n f g : sum_n n (fun i => f i - g i) = sum_n n f - sum_n n g.
Proof. unfold Rminus. rewrite (sum_n_plus n f (fun i => - g i)), sum_n_opp. done. Qed.
Lemma sum_n_delta n i f : (i < n)%nat -> sum_n n (fun j => if (j =? i)%nat then f j else 0) = f i.
Proof.
  induction n as [|n IH]; intros Hi; [lia|]. rewrite sum_n_S. destruct (Nat.eqb_spec n i) as [->|Hne].
  - rewrite sum_n_zero; [lra|]. intros j Hj. destruct (Nat.eqb_spec j i); [lia|done].
  - rewrite IH by lia. lra.
Qed.
(** Antisymmetric double sums vanish. *)
Lemma sum_n_antisym n f : (forall i j, (i < n)%nat -> (j < n)%nat -> f i j = - f j i) -> sum_n n (fun i => sum_n n (f i)) = 0.
Proof.
  intros H. assert (sum_n n (fun i => sum_n n (f i)) = - sum_n n (fun i => sum_n n (f i))) as E; [|lra].
  rewrite sum_n_swap at 1. rewrite <- sum_n_opp. apply sum_n_ext. intros i Hi. rewrite <- sum_n_opp.
  apply sum_n_ext. intros j Hj. by apply H.
Qed.

(** ** Vectors *)
Section Vec.
  Context {d : dim}.
  Notation V := (vec Rnum d).
  Implicit Types a b c x y z : V.

  Lemma coord_tmk f k : (k < dimn d)%nat -> coord (tmk d f : V) k = f k.
  Proof. apply tget_tmk. Qed.
  Lemma coord_add a b k : (k < dimn d)%nat -> coord (a +^ b) k = coord a k + coord b k.
  Proof. apply (tget_tmk (A := R)). Qed.
  Lemma coord_sub a b k : (k < dimn d)%nat -> coord (a -^ b) k = coord a k - coord b k.
  Proof. apply (tget_tmk (A := R)). Qed.
  Lemma coord_scal (c : R) a k : (k < dimn d)%nat -> coord ((c : Rnum) *^ a) k = c * coord a k.
  Proof. apply (tget_tmk (A := R)). Qed.
  Lemma coord_scalr (c : R) a k : (k < dimn d)%nat -> coord (vscalr a (c : Rnum)) k = coord a k * c.
  Proof. apply (tget_tmk (A := R)). Qed.
  Lemma coord_div (c : R) a k : (k < dimn d)%nat -> coord (a /^ (c : Rnum)) k = coord a k / c.
  Proof. apply (tget_tmk (A := R)). Qed.
  Lemma coord_zero k : (k < dimn d)%nat -> coord (vzero : V) k = 0.
  Proof. apply (tget_tmk (A := R)). Qed.
  Lemma coord_ext a b : (forall k, (k < dimn d)%nat -> coord a k = coord b k) -> a = b.
  Proof. apply tup_ext. Qed.

  Lemma foldl_sum (f : nat -> R) l : foldl (fun t k => t + f k) 0 l = rsum (map f l).
  Proof.
    assert (forall e : R, foldl (fun t k => t + f k) e l = e + rsum (map f l)) as H.
    { induction l as [|k l IH]; intros e; simpl; [unfold rsum; simpl; lra|]. rewrite IH. unfold rsum. simpl. lra. }
    rewrite H. lra.
  Qed.
  Lemma vdot_inner a b : vdot a b = inner a b.
  Proof. unfold vdot, inner, sum_n. rewrite <- foldl_sum. done. Qed.
  Lemma vnorm_len a : vnorm a = len a.
  Proof.
    unfold vnorm, len. simpl nsqrt. f_equal. unfold inner, sum_n. rewrite <- foldl_sum. simpl nadd. simpl nofZ.
    assert (forall t l, foldl (fun t k => t + @nabs Rnum (tget d a k) * @nabs Rnum (tget d a k)) t l = foldl (fun t k => t + coord a k * coord a k) t l) as H; [|apply H].
    intros t l. revert t. induction l as [|k l IH]; intros t; simpl; [done|]. rewrite IH. f_equal. f_equal.
    unfold coord. rewrite <- Rabs_mult. apply Rabs_pos_eq. apply Rle_0_sqr.
  Qed.
  Lemma inner_comm a b : inner a b = inner b a.
  Proof. apply sum_n_ext. intros. lra. Qed.
  Lemma inner_add_l a b c : inner (a +^ b) c = inner a c + inner b c.
  Proof. unfold inner. rewrite <- sum_n_plus. apply sum_n_ext. intros k Hk. rewrite coord_add by done. lra. Qed.
  Lemma inner_sub_l a b c : inner (a -^ b) c = inner a c - inner b c.
  Proof.
    unfold inner, Rminus. rewrite <- sum_n_opp, <- sum_n_plus. apply sum_n_ext. intros k Hk. rewrite coord_sub by done. lra.
  Qed.
  Lemma inner_scal_l (r : R) a c : inner ((r : Rnum) *^ a) c = r * inner a c.
  Proof. unfold inner. rewrite <- sum_n_scal. apply sum_n_ext. intros k Hk. rewrite coord_scal by done. lra. Qed.
  Lemma inner_scalr_l (r : R) a c : inner (vscalr a (r : Rnum)) c = r * inner a c.
  Proof. unfold inner. rewrite <- sum_n_scal. apply sum_n_ext. intros k Hk. rewrite coord_scalr by done. lra. Qed.
  Lemma inner_zero_l c : inner vzero c = 0.
  Proof. apply sum_n_zero. intros k Hk. rewrite coord_zero by done. lra. Qed.
  Lemma inner_add_r a b c : inner c (a +^ b) = inner c a + inner c b.
  Proof. by rewrite inner_comm, inner_add_l, !(inner_comm _ c). Qed.
  Lemma inner_sub_r a b c : inner c (a -^ b) = inner c a - inner c b.
  Proof. by rewrite inner_comm, inner_sub_l, !(inner_comm _ c). Qed.
  Lemma inner_scal_r (r : R) a c : inner c ((r : Rnum) *^ a) = r * inner c a.
  Proof. by rewrite inner_comm, inner_scal_l, inner_comm. Qed.
  Lemma inner_scalr_r (r : R) a c : inner c (vscalr a (r : Rnum)) = r * inner c a.
  Proof. by rewrite inner_comm, inner_scalr_l, inner_comm. Qed.
  Lemma inner_zero_r c : inner c vzero = 0.
  Proof. by rewrite inner_comm, inner_zero_l. Qed.
  Lemma inner_pos a : 0 <= inner a a.
  Proof. apply sum_n_nonneg. intros k _. nra. Qed.
  Lemma inner_zero_iff a : inner a a = 0 <-> a = vzero.
  Proof.
    split; [|intros ->; apply inner_zero_l]. intros H. apply coord_ext. intros k Hk. rewrite coord_zero by done.
    assert (coord a k * coord a k <= inner a a) as Hle.
    { apply (sum_n_ge (dimn d) (fun k => coord a k * coord a k)); [|done]. intros j _. nra. }
    nra.
  Qed.
  Lemma coord_sq_le a k : (k < dimn d)%nat -> coord a k * coord a k <= inner a a.
  Proof. intros Hk. apply (sum_n_ge (dimn d) (fun k => coord a k * coord a k)); [|done]. intros j _. nra. Qed.

  (** Cauchy-Schwarz *)
  Lemma cauchy_schwarz a b : inner a b * inner a b <= inner a a * inner b b.
  Proof.
    destruct (Req_dec (inner b b) 0) as [H0|H0].
    - assert (b = vzero) as -> by (by apply inner_zero_iff). rewrite !inner_zero_r. lra.
    - assert (0 < inner b b) as Hb by (pose proof (inner_pos b); lra).
      pose proof (inner_pos (((inner b b : R) : Rnum) *^ a -^ ((inner a b : R) : Rnum) *^ b)) as H.
      rewrite !inner_sub_l, !inner_sub_r, !inner_scal_l, !inner_scal_r, (inner_comm b a) in H.
      apply Rmult_le_reg_l with (inner b b); [done|]. nra.
  Qed.

  Lemma len_sqr a : len a * len a = inner a a.
  Proof. apply sqrt_sqrt, inner_pos. Qed.
  Lemma len_nonneg a : 0 <= len a.
  Proof. apply sqrt_pos. Qed.
  Lemma len_zero_iff a : len a = 0 <-> a = vzero.
  Proof.
    rewrite <- inner_zero_iff. split; intros H.
    - rewrite <- len_sqr, H. lra.
    - unfold len. rewrite H. apply sqrt_0.
  Qed.
  Lemma len_lt a (r : R) : 0 <= r -> len a < r <-> inner a a < r * r.
  Proof.
    intros Hr. split; intros H.
    - rewrite <- len_sqr. pose proof (len_nonneg a). nra.
    - unfold len. rewrite <- (sqrt_square r) by done. apply sqrt_lt_1; [apply inner_pos|nra|done].
  Qed.
  Lemma inner_le_len a b : inner a b <= len a * len b.
  Proof.
    pose proof (cauchy_schwarz a b). rewrite <- !len_sqr in H. pose proof (len_nonneg a). pose proof (len_nonneg b).
    apply Rsqr_incr_0_var; [unfold Rsqr; lra|nra].
  Qed.
  Lemma len_triangle a b : len (a +^ b) <= len a + len b.
  Proof.
    assert (len (a +^ b) * len (a +^ b) <= (len a + len b) * (len a + len b)) as H.
    { rewrite len_sqr, !inner_add_l, !inner_add_r, (inner_comm b a). pose proof (inner_le_len a b). rewrite <- !len_sqr. lra. }
    pose proof (len_nonneg a). pose proof (len_nonneg b). apply Rsqr_incr_0_var; [exact H|lra].
  Qed.
  Lemma len_scal (r : R) a : len ((r : Rnum) *^ a) = Rabs r * len a.
  Proof.
    unfold len. rewrite inner_scal_l, inner_scal_r, <- Rmult_assoc, sqrt_mult_alt by nra. f_equal. apply sqrt_Rsqr_abs.
  Qed.
  Lemma coord_le_len a k : (k < dimn d)%nat -> Rabs (coord a k) <= len a.
  Proof.
    intros Hk. pose proof (coord_sq_le a k Hk). rewrite <- len_sqr in H. pose proof (len_nonneg a).
    apply Rabs_le. nra.
  Qed.

  Lemma edist_len x y : edist x y = len (x -^ y).
  Proof.
    unfold edist, len, inner. f_equal. apply sum_n_ext. intros k Hk. rewrite coord_sub by done. simpl. lra.
  Qed.
  Lemma dist_edist x y : dist x y = edist x y.
  Proof. unfold dist. rewrite edist_len. simpl. rewrite vdot_inner. done. Qed.
  Lemma edist_sym x y : edist x y = edist y x.
  Proof. unfold edist. f_equal. apply sum_n_ext. intros. lra. Qed.
  Lemma edist_triangle x y z : edist x z <= edist x y + edist y z.
  Proof.
    rewrite !edist_len. assert (x -^ z = (x -^ y) +^ (y -^ z)) as ->; [|apply len_triangle].
    apply coord_ext. intros k Hk. rewrite coord_add, !coord_sub by done. lra.
  Qed.
  Lemma edist_nonneg x y : 0 <= edist x y.
  Proof. apply sqrt_pos. Qed.
  Lemma edist_coord x y k : (k < dimn d)%nat -> Rabs (coord x k - coord y k) <= edist x y.
  Proof. intros Hk. rewrite edist_len, <- coord_sub by done. by apply coord_le_len. Qed.
  Lemma edist_zero x y : edist x y = 0 <-> x = y.
  Proof.
    rewrite edist_len, len_zero_iff. split.
    - intros H. apply coord_ext. intros k Hk. assert (coord (x -^ y) k = 0) as E by (by rewrite H, coord_zero).
      rewrite coord_sub in E by done. lra.
    - intros ->. apply coord_ext. intros k Hk. rewrite coord_sub, coord_zero by done. lra.
  Qed.
  (** The squared test used by the neighbour sums. *)
  Lemma sq_test x y (r : R) : 0 <= r ->
    @nltb Rnum (vdot (y -^ x) (y -^ x)) (r * r) = true <-> edist x y < r.
  Proof. intros Hr. rewrite Rltb_true, vdot_inner, edist_sym, edist_len. symmetry. by apply len_lt. Qed.

  Lemma coord_vsum (l : list V) k : (k < dimn d)%nat -> coord (vsum l) k = rsum (map (fun v => coord v k) l).
  Proof. intros Hk. unfold vsum. by rewrite coord_tmk. Qed.
  Lemma coord_vsum_n n (f : nat -> V) k : (k < dimn d)%nat -> coord (vsum_n n f) k = sum_n n (fun i => coord (f i) k).
  Proof. intros Hk. unfold vsum_n. rewrite coord_vsum by done. unfold sum_n. by rewrite map_map. Qed.

  Lemma vadd_comm a b : a +^ b = b +^ a.
  Proof. apply coord_ext. intros k Hk. rewrite !coord_add by done. lra. Qed.
  Lemma vadd_assoc a b c : a +^ (b +^ c) = (a +^ b) +^ c.
  Proof. apply coord_ext. intros k Hk. rewrite !coord_add by done. lra. Qed.
  Lemma vadd_0_l a : vzero +^ a = a.
  Proof. apply coord_ext. intros k Hk. rewrite coord_add, coord_zero by done. lra. Qed.
  Lemma vadd_0_r a : a +^ vzero = a.
  Proof. apply coord_ext. intros k Hk. rewrite coord_add, coord_zero by done. lra. Qed.
  Lemma vscal_add (r : R) a b : (r : Rnum) *^ (a +^ b) = (r : Rnum) *^ a +^ (r : Rnum) *^ b.
  Proof. apply coord_ext. intros k Hk. rewrite coord_add, !coord_scal, coord_add by done. lra. Qed.
  Lemma vscal_zero (r : R) : (r : Rnum) *^ vzero = (vzero : V).
  Proof. apply coord_ext. intros k Hk. rewrite coord_scal, coord_zero by done. lra. Qed.
  Lemma vscal_0 a : ((0 : R) : Rnum) *^ a = vzero.
  Proof. apply coord_ext. intros k Hk. rewrite coord_scal, coord_zero by done. lra. Qed.
  Lemma vsub_self a : a -^ a = vzero.
  Proof. apply coord_ext. intros k Hk. rewrite coord_sub, coord_zero by done. lra. Qed.
End Vec.

(** ** Floor *)
Lemma Zfloor_close (a b : R) : Rabs (a - b) < 1 -> (Z.abs (Zfloor a - Zfloor b) <= 1)%Z.
Proof.
  intros H. apply Rabs_def2 in H as [H1 H2].
  pose proof (Zfloor_lb a). pose proof (Zfloor_ub a). pose proof (Zfloor_lb b). pose proof (Zfloor_ub b).
  assert (IZR (Zfloor a) < IZR (Zfloor b) + 2) by lra.
  assert (IZR (Zfloor b) < IZR (Zfloor a) + 2) by lra.
  rewrite <- plus_IZR in *. apply lt_IZR in H5, H6. lia.
Qed.
Lemma to_index_Some z z' : to_index z = Some z' -> z' = z.
Proof. unfold to_index. destruct (_ && _); [congruence|done]. Qed.

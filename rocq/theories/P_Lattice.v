(** The lattice sums of the constructor of the environment. *)
From Coq Require Import ZifyBool.
From Verif Require Export S_Lattice P_Real P_AccR.
Open Scope R_scope.

Lemma rsum_sq_nonneg z : 0 <= rsum (map (fun k => IZR k * IZR k) z).
Proof. apply rsum_map_nonneg. intros a _. nra. Qed.
Lemma znorm_nonneg z : 0 <= znorm z.
Proof. apply sqrt_pos. Qed.
Lemma znorm_sqr z : znorm z * znorm z = rsum (map (fun k => IZR k * IZR k) z).
Proof. apply sqrt_sqrt, rsum_sq_nonneg. Qed.
Lemma znorm_coord z k : k ∈ z -> Rabs (IZR k) <= znorm z.
Proof.
  intros Hk. unfold znorm. rewrite <- sqrt_Rsqr_abs. apply sqrt_le_1_alt.
  apply (rsum_map_ge (fun k => IZR k * IZR k) z k); [|done]. intros a _. nra.
Qed.
Lemma znorm_zero z : znorm z = 0 <-> Forall (fun k => k = 0%Z) z.
Proof.
  split.
  - intros H. apply Forall_forall. intros k Hk. pose proof (znorm_coord z k Hk) as Hc. rewrite H in Hc.
    pose proof (Rabs_pos (IZR k)). assert (Rabs (IZR k) = 0) as E by lra.
    destruct (Z.eq_dec k 0%Z) as [->|Hn]; [done|]. exfalso. apply (Rabs_no_R0 (IZR k)); [|done]. by apply IZR_neq.
  - intros H. unfold znorm. rewrite rsum_map_zero; [apply sqrt_0|].
    intros a Ha. rewrite Forall_forall in H. rewrite (H a Ha). simpl. ring.
Qed.
Lemma Forall_zero_forallb z : forallb (Z.eqb 0) z = true <-> Forall (fun k => k = 0%Z) z.
Proof.
  rewrite forallb_forall, Forall_forall. split; intros H k Hk.
  - assert (Z.eqb 0 k = true) by (apply H; by apply elem_of_list_In). lia.
  - apply elem_of_list_In in Hk. rewrite (H k Hk). done.
Qed.
(** Length 1 is the shortest non-zero length. *)
Lemma znorm_ge_1 z : znorm z <> 0 -> 1 <= znorm z.
Proof.
  intros H. assert (exists k, k ∈ z /\ k <> 0%Z) as (k & Hk & Hn).
  { assert (~ Forall (fun k => k = 0%Z) z) as He by (intros HF; apply H; by apply znorm_zero).
    apply not_Forall_Exists in He; [|intros k; apply Z.eq_dec]. apply Exists_exists in He as (k & ? & ?). eauto. }
  pose proof (znorm_coord z k Hk). assert (1 <= Rabs (IZR k)); [|lra].
  rewrite <- abs_IZR. apply (IZR_le 1). lia.
Qed.

Lemma lattice_axis_elem range k : k ∈ lattice_axis range <-> (- range <= k < range)%Z.
Proof.
  unfold lattice_axis. rewrite elem_of_list_fmap. split.
  - intros (a & -> & Ha). apply elem_of_seq in Ha. lia.
  - intros H. exists (Z.to_nat (k + range)). split; [lia|]. apply elem_of_seq. lia.
Qed.
Lemma lattice_axis_NoDup range : NoDup (lattice_axis range).
Proof. unfold lattice_axis. apply NoDup_fmap_2; [|apply NoDup_seq]. intros a b. lia. Qed.
Lemma lattice_idx_elem n range z :
  z ∈ lattice_idx n range <-> length z = n /\ Forall (fun k => (- range <= k < range)%Z) z.
Proof.
  revert z; induction n as [|n IH]; intros z; simpl.
  - rewrite elem_of_list_singleton. split; [intros ->; split; [done|constructor]|]. intros [H _]. by destruct z.
  - split.
    + intros H. apply elem_of_list_bind in H as (k & H & Hk). apply elem_of_list_bind in H as (l & H & Hl).
      apply elem_of_list_singleton in H as ->. apply IH in Hl as [Hl1 Hl2]. apply lattice_axis_elem in Hk.
      split; [simpl; lia|by constructor].
    + intros [Hl HF]. destruct z as [|k z]; [done|]. apply Forall_cons in HF as [Hk HF].
      apply elem_of_list_bind. exists k. split; [|by apply lattice_axis_elem].
      apply elem_of_list_bind. exists z. split; [by apply elem_of_list_singleton|]. apply IH. simpl in Hl. split; [lia|done].
Qed.
Lemma NoDup_bind_cons (A : list Z) (B : list (list Z)) :
  NoDup A -> NoDup B -> NoDup (i ← A; l ← B; [i :: l]).
Proof.
  intros HA HB. induction HA as [|a A Ha HA IH]; [constructor|]. csimpl. apply NoDup_app. split; [|split; [|done]].
  - clear -HB. induction HB as [|b B Hb HB IH]; [constructor|]. csimpl. apply NoDup_cons. split; [|done].
    intros H. apply elem_of_list_bind in H as (l & H & Hl). apply elem_of_list_singleton in H. by injection H as <-.
  - intros x H1 H2. apply elem_of_list_bind in H1 as (l & H1 & _). apply elem_of_list_singleton in H1 as ->.
    apply elem_of_list_bind in H2 as (a' & H2 & Ha'). apply elem_of_list_bind in H2 as (l' & H2 & _).
    apply elem_of_list_singleton in H2. injection H2 as <- <-. done.
Qed.
Lemma lattice_idx_NoDup n range : NoDup (lattice_idx n range).
Proof.
  induction n as [|n IH]; simpl; [apply NoDup_singleton|]. apply NoDup_bind_cons; [apply lattice_axis_NoDup|done].
Qed.

Section Sum.
  Context {cfg : config}.
  Notation d := (cDim cfg).

  Lemma len_lattice_vec (l : R) z : length z = dimn d -> 0 <= l -> len (lattice_vec d l z) = l * znorm z.
  Proof.
    intros Hl Hp. unfold len, znorm. set (X := rsum (map (fun k => IZR k * IZR k) z)).
    replace (l * R_sqrt.sqrt X) with (R_sqrt.sqrt (l * l * X)) by (rewrite sqrt_mult_alt by nra; by rewrite sqrt_square).
    unfold X. f_equal. rewrite <- rsum_map_scal. unfold inner, sum_n.
    assert (map (fun k => coord (lattice_vec d l z) k * coord (lattice_vec d l z) k) (seq 0 (dimn d))
      = map (fun k => l * l * (IZR k * IZR k)) z) as ->; [|done].
    apply list_eq. intros k. rewrite !list_lookup_fmap.
    destruct (z !! k) as [zk|] eqn:E.
    - pose proof (lookup_lt_Some _ _ _ E). rewrite (proj2 (lookup_seq 0 (dimn d) k k)) by lia. simpl. f_equal.
      unfold lattice_vec. rewrite coord_tmk by lia. rewrite (nth_lookup_Some z k 0%Z zk E). ring.
    - apply lookup_ge_None in E. rewrite lookup_ge_None_2; [done|]. rewrite seq_length. lia.
  Qed.

  Lemma lattice_step_R (l_0 R_e : R) (s : R * R) z : length z = dimn d -> 0 <= l_0 ->
    lattice_step cfg (l_0 : Rnum) R_e s z =
    (s.1 + wt (l_0 * znorm z) R_e, s.2 + (l_0 * znorm z) * (l_0 * znorm z) * wt (l_0 * znorm z) R_e).
  Proof.
    intros Hl Hp. unfold lattice_step. destruct (forallb (Z.eqb 0) z) eqn:E.
    - apply Forall_zero_forallb, znorm_zero in E. rewrite E, Rmult_0_r. unfold wt.
      destruct (Rlt_dec 0 0); [lra|]. rewrite !Rmult_0_r, !Rplus_0_r. by destruct s.
    - assert (vnorm (tmk d (fun k => @nofZ Rnum (nth k z 0%Z) ×. (l_0 : Rnum)) : vec Rnum d) = l_0 * znorm z) as Hv.
      { rewrite vnorm_len. rewrite <- len_lattice_vec by done. f_equal. unfold lattice_vec. apply tmk_ext. intros k _. simpl. ring. }
      cbv zeta. rewrite Hv. rewrite weight_wt. simpl. destruct (Rlt_dec (l_0 * znorm z) R_e) as [L|L]; simpl; [done|].
      unfold wt. destruct (Rlt_dec 0 _); [destruct (Rlt_dec (l_0 * znorm z) R_e); [done|]|]; rewrite Rmult_0_r, !Rplus_0_r; by destruct s.
  Qed.
  Lemma lattice_fold (l_0 R_e : R) zs (s : R * R) : (forall z, z ∈ zs -> length z = dimn d) -> 0 <= l_0 ->
    foldl (lattice_step cfg (l_0 : Rnum) R_e) s zs =
    (s.1 + rsum (map (fun z => wt (l_0 * znorm z) R_e) zs),
     s.2 + rsum (map (fun z => (l_0 * znorm z) * (l_0 * znorm z) * wt (l_0 * znorm z) R_e) zs)).
  Proof.
    revert s; induction zs as [|z zs IH]; intros s Hl Hp; simpl.
    - rewrite !Rplus_0_r. by destruct s.
    - rewrite lattice_step_R by (try apply Hl; try done; by left). rewrite IH by (try done; intros; apply Hl; by right).
      simpl. f_equal; ring.
  Qed.

  (** Any two lists of lattice points that contain everything within the radius give the same sum of a
      function vanishing outside. *)
  Lemma lattice_sum_eq (r : R) (f : list Z -> R) L1 L2 :
    lattice_within d r L1 -> lattice_within d r L2 ->
    (forall z, f z <> 0 -> znorm z <> 0 /\ znorm z < r) ->
    rsum (map f L1) = rsum (map f L2).
  Proof.
    intros H1 H2 Hf.
    assert (forall z, Decision (f z <> 0)) as Hdec by (intros z; destruct (Req_EM_T (f z) 0); [right|left]; tauto).
    assert (forall L, rsum (map f L) = rsum (map f (filter (fun z => f z <> 0) L))) as Hfil.
    { intros L. rewrite rsum_filter. apply rsum_map_ext. intros z _. destruct (decide (f z <> 0)) as [|E]; [done|].
      destruct (Req_dec (f z) 0); [done|]. by destruct E. }
    rewrite (Hfil L1), (Hfil L2). apply rsum_perm, fmap_Permutation. apply NoDup_Permutation.
    - apply NoDup_filter, H1.
    - apply NoDup_filter, H2.
    - intros z. rewrite !elem_of_list_filter. split; intros [Hz Hin]; (split; [done|]).
      + apply H2; [by apply H1|apply Hf, Hz..].
      + apply H1; [by apply H2|apply Hf, Hz..].
  Qed.

  Lemma lattice_idx_within r range : r <= IZR range -> lattice_within d r (lattice_idx (dimn d) range).
  Proof.
    intros Hr. split.
    - apply lattice_idx_NoDup.
    - intros z Hz. by apply lattice_idx_elem in Hz as [? _].
    - intros z Hl Hn Hlt. apply lattice_idx_elem. split; [done|]. apply Forall_forall. intros k Hk.
      pose proof (znorm_coord z k Hk) as Hc. assert (Rabs (IZR k) < IZR range) as Hb by lra.
      apply Rabs_def2 in Hb as [B1 B2]. rewrite <- opp_IZR in B2. apply lt_IZR in B1, B2. lia.
  Qed.
End Sum.

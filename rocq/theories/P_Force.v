(** Helpers for sums over pairs. *)
From Coq Require Import ZifyBool.
From Verif Require Export S_Terms.
From Verif Require Export P_Lattice P_Neigh T_Env T_Search T_Density.
Open Scope R_scope.

Section Force.
  Context {cfg : config} {wm : wallmotion Rnum (cDim cfg)}.
  Notation d := (cDim cfg).
  Notation V := (vec Rnum d).
  Notation part := (particle Rnum d).
  Notation computer := (computer cfg wm).
  Implicit Types (s : computer) (p q : part) (env : environment Rnum cfg).

  Lemma close_vsum_ext r s i (f g : nat -> part -> V) :
    (forall j q, cParts s !! j = Some q -> close r s i j -> f j q = g j q) -> close_vsum r s i f = close_vsum r s i g.
  Proof.
    intros H. unfold close_vsum, vsum_n. f_equal. apply map_ext_in. intros j _. destruct (decide (close r s i j)) as [C|]; [|done].
    unfold at_part. destruct (cParts s !! j) eqn:E; [|done]. by apply H.
  Qed.
  Lemma coord_close_vsum r s i (f : nat -> part -> V) k : (k < dimn d)%nat ->
    coord (close_vsum r s i f) k = close_sum r s i (fun j q => coord (f j q) k).
  Proof.
    intros Hk. unfold close_vsum, close_sum. rewrite coord_vsum_n by done. apply sum_n_ext. intros j _.
    destruct (decide _); [|by apply coord_zero]. unfold at_part. destruct (cParts s !! j); [done|]. by apply coord_zero.
  Qed.
  Lemma close_vsum_zero r s i (f : nat -> part -> V) :
    (forall j q, cParts s !! j = Some q -> close r s i j -> f j q = vzero) -> close_vsum r s i f = vzero.
  Proof.
    intros H. apply coord_ext. intros k Hk. rewrite coord_close_vsum, coord_zero by done. unfold close_sum. apply sum_n_zero.
    intros j _. destruct (decide (close r s i j)) as [C|]; [|done]. unfold at_part. destruct (cParts s !! j) as [q|] eqn:E; [|done].
    rewrite (H j q E C). by apply coord_zero.
  Qed.
  Lemma close_sym r s i j p q : cParts s !! i = Some p -> enabled p -> cParts s !! j = Some q ->
    close r s i j -> close r s j i.
  Proof.
    intros Hp He Hq (Hne & a & b & Ha & Hb & _ & Hd). rewrite Hp in Ha. rewrite Hq in Hb. injection Ha as <-. injection Hb as <-.
    split; [done|]. exists q, p. rewrite edist_sym. done.
  Qed.

  (** The virtual particle, when present: same velocity, type Newton, pressure 0. *)
  Lemma virtual_fields s i p v : virtual s i p = Some v -> pU v = pU p /\ pT v = Newton /\ pP v = 0 /\ cSPP cfg = true.
  Proof.
    unfold virtual. destruct (cSPP cfg); [|done]. destruct (cNws s !! i); [|done]. destruct (Rlt_dec _ _); [|done].
    destruct (Rlt_dec _ _); [|done]. by intros [= <-].
  Qed.
  (** A particle with nobody around has no virtual particle. *)
  Lemma isolated_no_virtual s i p : (forall j, ~ close (eRe (cEnv s)) s i j) -> virtual s i p = None.
  Proof.
    intros H. unfold virtual. destruct (cSPP cfg); [|done]. destruct (cNws s !! i); [|done]. destruct (Rlt_dec _ _); [|done].
    assert (len (centroid s i p) = 0) as ->.
    { apply len_zero_iff. unfold centroid. apply close_vsum_zero. intros j q _ C. by destruct (H j). }
    destruct (Rlt_dec _ _) as [L|]; [|done]. pose proof (Rinv_0_lt_compat (2 ^ 52) ltac:(lra)). lra.
  Qed.
  Lemma vscalr_add (a b : V) (c : R) : vscalr (a +^ b) (c : Rnum) = vscalr a (c : Rnum) +^ vscalr b (c : Rnum).
  Proof. apply coord_ext. intros k Hk. rewrite coord_scalr, !coord_add, !coord_scalr by done. ring. Qed.
  Lemma vsub_eq (a b : V) : a = b -> a -^ b = vzero.
  Proof. intros ->. apply vsub_self. Qed.
  Lemma is_newton_true p : is_newton (pT p) = true <-> pT p = Newton.
  Proof. destruct (pT p); simpl; split; done. Qed.

  (** Double sums over close pairs of fluid particles: antisymmetric contributions cancel. *)
  Lemma pair_sum_zero r s (F : nat -> nat -> part -> part -> R) :
    (forall i j p q, cParts s !! i = Some p -> cParts s !! j = Some q -> fluid p -> fluid q -> F i j p q = - F j i q p) ->
    (forall i j p q, cParts s !! i = Some p -> cParts s !! j = Some q -> fluid p -> ~ fluid q -> close r s i j -> F i j p q = 0) ->
    sum_n (psize s) (fun i => at_part s i 0 (fun p => if decide (fluid p) then close_sum r s i (fun j q => F i j p q) else 0)) = 0.
  Proof.
    intros Hanti Hzero.
    set (G i j := at_part s i 0 (fun p => at_part s j 0 (fun q =>
        if decide (fluid p) then if decide (fluid q) then if decide (close r s i j) then F i j p q else 0 else 0 else 0))).
    transitivity (sum_n (psize s) (fun i => sum_n (psize s) (G i))).
    - apply sum_n_ext. intros i Hi. unfold at_part at 1. destruct (lookup_lt_is_Some_2 (cParts s) i Hi) as [p Hp]. rewrite Hp.
      unfold close_sum. destruct (decide (fluid p)) as [Hf|Hf].
      + apply sum_n_ext. intros j Hj. unfold G, at_part. rewrite Hp. destruct (lookup_lt_is_Some_2 (cParts s) j Hj) as [q Hq].
        rewrite Hq. destruct (decide (fluid p)); [|done]. destruct (decide (close r s i j)) as [C|C].
        * destruct (decide (fluid q)) as [|Hq']; [done|]. by apply Hzero.
        * by destruct (decide (fluid q)).
      + symmetry. apply sum_n_zero. intros j Hj. unfold G, at_part. rewrite Hp.
        destruct (cParts s !! j); [|done]. by destruct (decide (fluid p)).
    - apply sum_n_antisym. intros i j Hi Hj. unfold G, at_part.
      destruct (lookup_lt_is_Some_2 (cParts s) i Hi) as [p Hp]. destruct (lookup_lt_is_Some_2 (cParts s) j Hj) as [q Hq].
      rewrite Hp, Hq. destruct (decide (fluid p)) as [Fp|], (decide (fluid q)) as [Fq|]; try ring.
      assert (enabled p) by (unfold enabled, fluid in *; congruence). assert (enabled q) by (unfold enabled, fluid in *; congruence).
      destruct (decide (close r s i j)) as [C|C], (decide (close r s j i)) as [C'|C']; try ring.
      + by apply Hanti.
      + exfalso. apply C'. by apply (close_sym r s i j p q).
      + exfalso. apply C. by apply (close_sym r s j i q p).
  Qed.
End Force.

(** Examples: a fluid particle with its four lattice neighbours, in any two-dimensional build.  The velocities and pressures are
    chosen to meet the hypotheses of the theorems about lattices, rigid motions, linear pressure fields and the push of the
    virtual surface particles. *)
From Verif Require Import P_Neigh P_Force P_Phase P_Step P_Point P_Search P_AccR T_Search T_Env T_Density T_Force T_Speed T_Grad
  T_Outcome S_Outcome S_Lattice S_Ppe M_Main E_Real E_Scene.
Open Scope R_scope.

Section Plus.
  Context (x hs hl ecs gc ds spp mid cen : bool).
  Notation cfg := (plane x hs hl ecs gc ds spp mid cen).
  Notation V := (vec Rnum (cDim cfg)).
  Notation part := (particle Rnum (cDim cfg)).
  Context (vel : Z -> Z -> V) (pr : Z -> Z -> R).

  Definition sites : list (Z * Z) := [(5, 5); (6, 5); (4, 5); (5, 6); (5, 4)]%Z.
  Definition plus : list part := map (fun ab => at_whole x hs hl ecs gc ds spp mid cen ab.1 ab.2 (vel ab.1 ab.2) (pr ab.1 ab.2) Newton) sites.
  Lemma plus_fits : fits x hs hl ecs gc ds spp mid cen plus.
  Proof.
    split; [cbn; lia|]. intros p Hp. apply elem_of_list_fmap in Hp as ((a & b) & -> & Hab). split; [done|]. intros k Hk.
    assert (4 <= a <= 6 /\ 4 <= b <= 6)%Z as [Ha Hb].
    { unfold sites in Hab. repeat (apply elem_of_cons in Hab as [[= -> ->]|Hab]; [lia|]). by apply elem_of_nil in Hab. }
    assert (forall z : Z, (4 <= z <= 6)%Z -> 0 <= IZR z <= 10) as HZ by (intros z Hz; split; apply IZR_le; lia).
    destruct k as [|[|k]]; [exact (HZ a Ha)|exact (HZ b Hb)|lia].
  Qed.

  Notation wm := (fixed_walls (N := Rnum) cfg (map pX plus)).
  Notation computer := (computer cfg wm).

  (** The particles are at the sites, in their order. *)
  Definition at_sites (s : computer) : Prop :=
    psize s = 5%nat /\ forall i p, cParts s !! i = Some p -> exists ab, sites !! i = Some ab /\ pX p = ((IZR ab.1, IZR ab.2) : V) /\
      pT p = Newton /\ pU p = vel ab.1 ab.2 /\ pP p = pr ab.1 ab.2.
  Definition gap (ab ab' : Z * Z) : Z := ((ab.1 - ab'.1) * (ab.1 - ab'.1) + (ab.2 - ab'.2) * (ab.2 - ab'.2))%Z.
  Lemma gap_nonneg ab ab' : (0 <= gap ab ab')%Z.
  Proof. unfold gap. pose proof (Z.square_nonneg (ab.1 - ab'.1)). pose proof (Z.square_nonneg (ab.2 - ab'.2)). lia. Qed.
  Lemma whole_edist (ab ab' : Z * Z) : edist ((IZR ab.1, IZR ab.2) : V) ((IZR ab'.1, IZR ab'.2) : V) = R_sqrt.sqrt (IZR (gap ab ab')).
  Proof. unfold edist, gap. cbn. f_equal. rewrite plus_IZR, !mult_IZR, !minus_IZR. ring. Qed.
  Lemma whole_close (z : Z) : (0 <= z)%Z -> (R_sqrt.sqrt (IZR z) < 6/5 <-> (z <= 1)%Z).
  Proof.
    intros Hz. split.
    - intros H. apply sqrt_lt_sq in H; [|lra]. assert (z < 2)%Z; [|lia]. apply lt_IZR. lra.
    - intros H. assert (z = 0 \/ z = 1)%Z as [->| ->] by lia; rewrite ?sqrt_0, ?sqrt_1; lra.
  Qed.
  Definition adjacent (i : nat) : list nat := match i with 0 => [1; 2; 3; 4] | 1 | 2 | 3 | 4 => [0] | _ => [] end%nat.
  Lemma site_gap i j ab ab' : sites !! i = Some ab -> sites !! j = Some ab' -> (i <> j /\ (gap ab ab' <= 1)%Z) <-> j ∈ adjacent i.
  Proof.
    intros Hi Hj. assert (Hdec : bool_decide (i <> j) && (gap ab ab' <=? 1)%Z = bool_decide (j ∈ adjacent i)).
    { do 5 (destruct i as [|i]; [apply (inj Some) in Hi; subst ab; do 5 (destruct j as [|j]; [apply (inj Some) in Hj; subst ab'; vm_compute; reflexivity|]);
        exfalso; apply lookup_lt_Some in Hj; cbn in Hj; lia|]). exfalso; apply lookup_lt_Some in Hi; cbn in Hi; lia. }
    rewrite <- (bool_decide_eq_true (j ∈ adjacent i)), <- Hdec, andb_true_iff, bool_decide_eq_true, Z.leb_le. done.
  Qed.
  Lemma at_sites_close s i j p : at_sites s -> cParts s !! i = Some p -> (close (6/5) s i j <-> j ∈ adjacent i).
  Proof.
    intros [HN HS] Hp. destruct (HS i p Hp) as (ab & Hab & Xp & Tp & _). split.
    - intros (Hne & p' & q & Hp' & Hq & _ & Hd). replace p' with p in * by congruence. destruct (HS j q Hq) as (ab' & Hab' & Xq & _).
      apply (site_gap i j ab ab' Hab Hab'). split; [done|]. rewrite Xp, Xq, whole_edist in Hd. apply whole_close in Hd; [done|]. apply gap_nonneg.
    - intros Hj. assert (j < 5)%nat as Hlt.
      { do 5 (destruct i as [|i]; [cbn in Hj; rewrite ?elem_of_cons, ?elem_of_nil in Hj; lia|]). cbn in Hj. by apply elem_of_nil in Hj. }
      destruct (lookup_lt_is_Some_2 (cParts s) j) as [q Hq]; [unfold psize in HN; lia|]. destruct (HS j q Hq) as (ab' & Hab' & Xq & Tq & _).
      apply (site_gap i j ab ab' Hab Hab') in Hj as [Hne Hg]. split; [done|]. exists p, q. split; [done|]. split; [done|]. split; [unfold enabled; congruence|].
      rewrite Xp, Xq, whole_edist. apply whole_close; [apply gap_nonneg|done].
  Qed.
  Lemma adjacent_filter s i p : at_sites s -> cParts s !! i = Some p -> filter (close (6/5) s i) (seq 0 (psize s)) ≡ₚ adjacent i.
  Proof.
    intros HS Hp. apply NoDup_Permutation.
    - apply list.NoDup_filter, NoDup_seq.
    - do 5 (destruct i as [|i]; [cbn; repeat constructor; rewrite ?elem_of_cons, ?elem_of_nil; lia|]). constructor.
    - intros j. rewrite elem_of_list_filter, (at_sites_close s i j p HS Hp). split; [tauto|]. intros Hj. split; [done|]. apply elem_of_seq.
      destruct HS as [-> _]. do 5 (destruct i as [|i]; [cbn in Hj; rewrite ?elem_of_cons, ?elem_of_nil in Hj; lia|]). cbn in Hj. by apply elem_of_nil in Hj.
  Qed.
  Lemma plus_sum s i p f : at_sites s -> cParts s !! i = Some p ->
    close_sum (6/5) s i f = rsum (map (fun j => at_part s j 0 (f j)) (adjacent i)).
  Proof. intros HS Hp. rewrite <- close_sum_filter. apply rsum_perm. by rewrite (adjacent_filter s i p HS Hp). Qed.
  Lemma adjacent_edist s i j p q : at_sites s -> cParts s !! i = Some p -> cParts s !! j = Some q -> j ∈ adjacent i -> edist (pX p) (pX q) = 1.
  Proof.
    intros [_ HS] Hp Hq Hj. destruct (HS i p Hp) as (ab & Hab & -> & _). destruct (HS j q Hq) as (ab' & Hab' & -> & _). rewrite whole_edist.
    assert (gap ab ab' = 1%Z) as ->; [|by rewrite sqrt_1].
    do 5 (destruct i as [|i]; [cbn in Hj, Hab; injection Hab as <-; repeat (apply elem_of_cons in Hj as [->|Hj]; [cbn in Hab'; by injection Hab' as <-|]); by apply elem_of_nil in Hj|]).
    cbn in Hj. by apply elem_of_nil in Hj.
  Qed.
  Lemma plus_density s i p : at_sites s -> eRe (cEnv s) = 6/5 -> cParts s !! i = Some p ->
    raw_density s i p = if decide (i = 0%nat) then 4/5 else 1/5.
  Proof.
    intros HS HR Hp. unfold raw_density. rewrite HR, (plus_sum s i p) by done. pose proof HS as [HN HS'].
    assert (forall j, j ∈ adjacent i -> at_part s j 0 (fun q => wt (edist (pX p) (pX q)) (6/5)) = 1/5) as HW.
    { intros j Hj. assert (j < 5)%nat as Hlt.
      { do 5 (destruct i as [|i]; [cbn in Hj; rewrite ?elem_of_cons, ?elem_of_nil in Hj; lia|]). cbn in Hj. by apply elem_of_nil in Hj. }
      destruct (lookup_lt_is_Some_2 (cParts s) j) as [q Hq]; [unfold psize in HN; lia|]. unfold at_part. rewrite Hq.
      rewrite (adjacent_edist s i j p q) by done. apply wt_one. }
    rewrite (rsum_map_ext _ (fun _ => 1/5)) by done. destruct (HS' i p Hp) as (ab & Hab & _).
    do 5 (destruct i as [|i]; [cbn [adjacent map rsum foldr]; case_decide; (lia || lra)|]).
    apply lookup_lt_Some in Hab; cbn in Hab; lia.
  Qed.

  (** The state after the search and the density phase. *)
  Record plus_up (e : environment Rnum cfg) (s s1 s2 : computer) : Prop := {
    pu_env : scene_env x hs hl ecs gc ds spp mid cen = Some e;
    pu_facts : scene_facts x hs hl ecs gc ds spp mid cen e;
    pu_reach : reachable e s;
    pu_parts : cParts s = plus;
    pu_search : search_neighbor (start_step (1/100 : Rnum) s) = Done s1;
    pu_dens : compute_densities s1 = Some s2;
    pu_mid1 : midstep s1; pu_mid2 : midstep s2;
    pu_wf : P_Search.wf s2;
    pu_env1 : cEnv s1 = set_next_t (set_dt (1/100 : Rnum) e); pu_env2 : cEnv s2 = set_next_t (set_dt (1/100 : Rnum) e);
    pu_at1 : at_sites s1; pu_at2 : at_sites s2;
    pu_nws : forall i, (i < 5)%nat -> cNws s2 !! i = Some ((if decide (i = 0%nat) then 4/5 else 1/5) : Rnum);
    pu_n : forall i p, cParts s2 !! i = Some p -> pN p = if spp then 4/5 else if decide (i = 0%nat) then 4/5 else 1/5 }.
  Lemma plus_at i p : plus !! i = Some p -> exists ab, sites !! i = Some ab /\ pX p = ((IZR ab.1, IZR ab.2) : V) /\
    pT p = Newton /\ pU p = vel ab.1 ab.2 /\ pP p = pr ab.1 ab.2.
  Proof. intros Hp. apply list_lookup_fmap_Some in Hp as (ab & Hab & ->). exists ab. done. Qed.
  Lemma plus_scene : exists e s s1 s2, plus_up e s s1 s2.
  Proof.
    destruct (scene_env_facts x hs hl ecs gc ds spp mid cen) as (e & Hee & He).
    destruct (scene_new x hs hl ecs gc ds spp mid cen plus e He (1/1000000 : Rnum)) as [s0 Hs0].
    destruct (scene x hs hl ecs gc ds spp mid cen plus plus_fits e He _ s0 Hs0 (1/100)) as (s1 & s2 & [U1 U2 U3 U4 U5 U6 U7 U8 U9 U10 U11]).
    exists e, (scene_state x hs hl ecs gc ds spp mid cen plus s0), s1, s2.
    assert (at_sites s1) as A1. { split; [unfold psize; by rewrite U3|]. intros i p. rewrite U3. apply plus_at. }
    assert (eRe (cEnv s1) = 6/5) as HR by (rewrite U7; exact (sf_re _ _ _ _ _ _ _ _ _ e He)).
    split; try done.
    - by eapply scene_reachable.
    - by eapply scene_parts.
    - by rewrite U8.
    - split; [done|]. intros i p Hp. destruct (lookup_lt_is_Some_2 plus i) as [p0 Hp0].
      { apply lookup_lt_Some in Hp. unfold psize in U9. rewrite <- U9. done. }
      destruct (U11 i p0 Hp0) as (n & Hn & _). rewrite Hn in Hp. injection Hp as <-. destruct (plus_at i p0 Hp0) as (ab & ? & ? & ? & ? & ?). exists ab. done.
    - intros i Hi. destruct (lookup_lt_is_Some_2 plus i) as [p0 Hp0]; [done|]. destruct (U11 i p0 Hp0) as (n & Hn & HW).
      destruct HW as [HW _]; [destruct (plus_at i p0 Hp0) as (ab & _ & _ & HT & _); split; congruence|].
      rewrite (plus_density s1 i p0 A1 HR) in HW; [exact HW|by rewrite U3].
    - intros i p Hp. destruct (lookup_lt_is_Some_2 plus i) as [p0 Hp0].
      { apply lookup_lt_Some in Hp. unfold psize in U9. rewrite <- U9. done. }
      destruct (U11 i p0 Hp0) as (n & Hn & HW). rewrite Hn in Hp. injection Hp as <-. cbn [set_N pN].
      destruct HW as [_ ->]; [destruct (plus_at i p0 Hp0) as (ab & _ & _ & HT & _); split; congruence|].
      assert (raw_density s1 i p0 = if decide (i = 0%nat) then 4/5 else 1/5) as E by (apply (plus_density s1 i p0 A1 HR); by rewrite U3).
      assert (Rmax (4/5) (raw_density s1 i p0) = 4/5) as E' by (rewrite E; destruct (decide _); apply Rmax_left; lra).
      transitivity (if spp then 4/5 else raw_density s1 i p0).
      + exact (f_equal (fun a : R => if spp then a else raw_density s1 i p0) E').
      + exact (f_equal (fun a : R => if spp then 4/5 else a) E).
  Qed.
End Plus.

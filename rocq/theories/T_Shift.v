(** Property theorems: translation and Galilean invariance (C52, C55). *)
From Verif Require Import P_Neigh P_Point P_Sim S_Shift.
Open Scope R_scope.

Lemma implicit_origx {N cfg wm} (s t : @computer N cfg wm) : compute_implicit s = Done t -> cOrigX t = cOrigX s.
Proof.
  intros H. destruct (cExplicit cfg) eqn:Hx.
  - destruct (implicit_Done_explicit s t H Hx) as (s1 & H1 & H2).
    rewrite (gradient_rest _ _ H2). cbn. by rewrite (explicitp_rest _ _ _ H1).
  - destruct (implicit_Done s t H Hx) as (s1 & s2 & s3 & [H1 H2 H3 H4 H5]).
    rewrite (gradient_rest _ _ H5). cbn. rewrite (assign_rest _ _ _ H4). cbn. rewrite H2. cbn. by rewrite (set_ppe_rest _ _ H1).
Qed.

Lemma mapM_ext_in {A B} (f f' : A -> option B) l : (forall x, x ∈ l -> f x = f' x) -> mapM f l = mapM f' l.
Proof.
  induction l as [|x l IH]; intros H; [done|]. simpl. rewrite (H x) by left. rewrite IH; [done|]. intros ??; apply H; by right.
Qed.

Section Shift.
  Context {cfg : config} {wm : wallmotion Rnum (cDim cfg)} (b : R -> vec Rnum (cDim cfg)).
  Notation d := (cDim cfg).
  Notation V := (vec Rnum d).
  Notation part := (particle Rnum d).
  Notation computer := (computer cfg wm).
  Notation computer' := (M_Computer.computer cfg (shift_wall b wm)).
  Notation moved := (@moved cfg wm b).
  Implicit Types (p q : part) (g a c : V).

  Lemma shift_sub (x y a : V) : (x +^ a) -^ (y +^ a) = x -^ y.
  Proof. apply coord_ext. intros k Hk. rewrite !coord_sub, !coord_add by done. lra. Qed.
  Lemma shift_add (x y a : V) : (x +^ a) +^ y = (x +^ y) +^ a.
  Proof. apply coord_ext. intros k Hk. rewrite !coord_add by done. lra. Qed.
  Lemma shift_sub_l (x y a : V) : (x +^ a) -^ y = (x -^ y) +^ a.
  Proof. apply coord_ext. intros k Hk. rewrite coord_sub, !coord_add, coord_sub by done. lra. Qed.
  Lemma shift_dist (x y a : V) : dist (x +^ a) (y +^ a) = dist x y.
  Proof. unfold dist. by rewrite shift_sub. Qed.

  (** ** Grid *)
  Section Grid.
    Context (g : V) (G : grid Rnum d).
    Lemma shift_block x : block_of d (shift_grid g G) (x +^ g) = block_of d G x.
    Proof.
      unfold block_of. assert (forall k, k ∈ seq 0 (dimn d) -> block_axis d (shift_grid g G) (x +^ g) k = block_axis d G x k) as H.
      { intros k Hk%elem_of_seq. unfold block_axis, floor_div. cbn [g_origin g_len shift_grid].
        change (tget d ?y k) with (coord y k). rewrite !coord_add by lia. do 2 f_equal. simpl. lra. }
      by apply mapM_ext_in.
    Qed.
    Lemma shift_scan nb fuel v i : scan d (shift_grid g G) nb fuel v i = scan d G nb fuel v i.
    Proof.
      revert v i. induction fuel as [|fuel IH]; intros v i; [done|]. simpl.
      destruct (_ && _); [|done]. destruct (nb !! _) as [nx|]; [|done]. cbn [mbind option_bind g_shape shift_grid].
      destruct (in_range _ nx); [|apply IH]. unfold particle_count. cbn [g_data shift_grid].
      destruct (c_cnt <$> _); [|done]. apply IH.
    Qed.
    Lemma shift_increment it : increment d (shift_grid g G) it = increment d G it.
    Proof. unfold increment, particle_count. cbn [g_data shift_grid]. by rewrite !shift_scan. Qed.
    Lemma shift_collect fuel it : collect d (shift_grid g G) fuel it = collect d G fuel it.
    Proof.
      revert it. induction fuel as [|fuel IH]; intros it; [done|]. simpl. rewrite shift_increment.
      change (deref d (shift_grid g G) it) with (deref d G it). destruct (_ =? _)%nat; [done|].
      destruct (deref d G it); [|done]. simpl. destruct (increment d G it) as [it'|]; [|done]. simpl. by rewrite IH.
    Qed.
    Lemma shift_around x : around d (shift_grid g G) (x +^ g) = around d G x.
    Proof.
      unfold around, cbegin. rewrite shift_block. destruct (block_of d G x) as [bl|]; [|done]. cbn [mbind option_bind].
      change (particle_count d (shift_grid g G)) with (particle_count d G). change (iter_fuel d (shift_grid g G)) with (iter_fuel d G).
      destruct (_ !! _) as [b0|]; [|done]. cbn [mbind option_bind].
      destruct (particle_count d G b0) as [n|]; [|done]. cbn [mbind option_bind]. rewrite shift_increment.
      destruct (if (n =? 0)%nat then _ else _) as [it|]; [|done]. cbn [mbind option_bind]. apply shift_collect.
    Qed.
    Lemma shift_clear : clear d (shift_grid g G) = shift_grid g <$> clear d G.
    Proof. unfold clear. cbn [g_data g_shape shift_grid]. by destruct (foldM _ _ _). Qed.
    Lemma shift_store x i : store d (shift_grid g G) (x +^ g) i =
      match store d G x i with
      | Stored _ g' => Stored d (shift_grid g g') | Rejected _ => Rejected d
      | Overflow _ g' => Overflow d (shift_grid g g') | StoreUndef _ => StoreUndef d end.
    Proof.
      unfold store. rewrite shift_block. destruct (block_of d G x) as [bl|]; [|done]. cbn [g_data g_shape g_cap shift_grid].
      destruct (in_range _ bl); [|done]. destruct (g_data d G !! bl); [|done]. destruct (_ <=? _)%nat; [done|]. by destruct (_ <? _)%nat.
    Qed.
  End Grid.

  (** ** Basic facts *)
  Section Fix.
  Context (g a c : V).
  Notation sh := (shift_part a c).
  Lemma moved_at (s : computer) (s' : computer') j : moved g a c s s' -> cParts s' !! j = sh <$> cParts s !! j.
  Proof. intros H. by rewrite (mo_parts _ _ _ _ _ H), list_lookup_fmap. Qed.
  Lemma moved_size (s : computer) (s' : computer') : moved g a c s s' -> psize s' = psize s.
  Proof. intros H. unfold psize. by rewrite (mo_parts _ _ _ _ _ H), map_length. Qed.
  Lemma moved_list (s : computer) (s' : computer') i : moved g a c s s' -> neighbor_list s' i = neighbor_list s i.
  Proof. intros H. unfold neighbor_list. by rewrite (mo_neighbor _ _ _ _ _ H). Qed.
  Ltac mo H := rewrite ?(mo_env _ _ _ _ _ H), ?(mo_neighbor _ _ _ _ _ H), ?(mo_A _ _ _ _ _ H), ?(mo_x _ _ _ _ _ H),
    ?(mo_b _ _ _ _ _ H), ?(mo_eps _ _ _ _ _ H), ?(mo_du _ _ _ _ _ H), ?(mo_ecs _ _ _ _ _ H), ?(mo_nws _ _ _ _ _ H), ?(mo_wall _ _ _ _ _ H).
  Ltac at_i H i := rewrite ?(moved_at _ _ i H); match goal with |- context [cParts ?s !! i] =>
    let p := fresh "p" in destruct (cParts s !! i) as [p|] eqn:?; [|done] end; cbn [mbind option_bind fmap option_fmap option_map].

  Lemma map_alter {A B} (h : A -> B) (f : A -> A) (f' : B -> B) i (l : list A) :
    (forall x, h (f x) = f' (h x)) -> map h (alter f i l) = alter f' i (map h l).
  Proof.
    intros H. apply list_eq. intros j. rewrite list_lookup_fmap. destruct (decide (i = j)) as [->|Hne].
    - rewrite !list_lookup_alter, list_lookup_fmap. destruct (l !! j); [|done]. simpl. by rewrite H.
    - rewrite !list_lookup_alter_ne by done. by rewrite list_lookup_fmap.
  Qed.
  Lemma moved_upd (s : computer) (s' : computer') i f f' : (forall p, sh (f p) = f' (sh p)) ->
    moved g a c s s' -> moved g a c (upd_part i f s) (upd_part i f' s').
  Proof.
    intros Hf H. split; try by apply H. unfold upd_part. cbn [cParts with_parts]. rewrite (mo_parts _ _ _ _ _ H). symmetry. by apply map_alter.
  Qed.

  (** ** Sums over the neighbours *)
  Lemma shift_spp p x : sh (spp_particle (cfg := cfg) p x) = spp_particle (cfg := cfg) (sh p) (x +^ a).
  Proof. done. Qed.
  Lemma shift_acc_at {A} (s : computer) (s' : computer') i (zero : A) plus f f' p l :
    moved g a c s s' -> cParts s !! i = Some p -> neighbor_list s i = Some l ->
    (forall j q, j ∈ l -> cParts s !! j = Some q -> f' (Z.of_nat j) (sh q) = f (Z.of_nat j) q) ->
    (cSPP cfg = true -> forall q, pT q = Newton -> f' (-1)%Z (sh q) = f (-1)%Z q) ->
    acc s' i zero plus f' = acc s i zero plus f.
  Proof.
    intros H Hp Hl Hf Hspp. unfold acc. rewrite (moved_list _ _ _ H), (moved_at _ _ _ H), Hp, Hl.
    cbn [mbind option_bind fmap option_fmap option_map].
    assert (foldM (acc_step s' i (pX (sh p)) plus f') (zero, vzero) l = foldM (acc_step s i (pX p) plus f) (zero, vzero) l) as ->.
    { apply foldM_ext. intros st j Hj. unfold acc_step. destruct (j =? i)%nat; [done|].
      rewrite (moved_at _ _ _ H). destruct (cParts s !! j) as [q|] eqn:Hq; [|done]. cbn [mbind option_bind fmap option_fmap option_map].
      rewrite (Hf j q) by done. mo H. cbn [pX shift_part eRe shift_env]. by rewrite shift_sub. }
    destruct (foldM _ _ l) as [st|]; [|done]. cbn [mbind option_bind]. destruct (cSPP cfg) eqn:HS; [|done].
    unfold acc_spp. mo H. destruct (cNws s !! i) as [n|]; [|done]. cbn [mbind option_bind eRe eN0 shift_env].
    destruct (_ <?. _); [|done]. destruct (neps <?. _); [|done]. cbn [pX shift_part]. rewrite shift_sub_l, <- shift_spp.
    by rewrite Hspp.
  Qed.
  Lemma shift_acc {A} (s : computer) (s' : computer') i (zero : A) plus f f' :
    moved g a c s s' -> (forall j q, f' j (sh q) = f j q) -> acc s' i zero plus f' = acc s i zero plus f.
  Proof.
    intros H Hf. destruct (neighbor_list s i) as [l|] eqn:Hl.
    2:{ unfold acc. by rewrite (moved_list _ _ _ H), Hl. }
    destruct (cParts s !! i) as [p|] eqn:Hp.
    2:{ unfold acc. by rewrite (moved_list _ _ _ H), Hl, (moved_at _ _ _ H), Hp. }
    by eapply shift_acc_at.
  Qed.

  Ltac keep H := split; cbn; try rewrite (mo_neighbor _ _ _ _ _ H); try rewrite (mo_nws _ _ _ _ _ H); try rewrite (mo_du _ _ _ _ _ H);
    try rewrite (mo_ecs _ _ _ _ _ H); try rewrite (mo_x _ _ _ _ _ H); try rewrite (mo_b _ _ _ _ _ H); try rewrite (mo_A _ _ _ _ _ H); try reflexivity; try by apply H.
  Lemma moved_nws (s : computer) (s' : computer') l : moved g a c s s' -> moved g a c (with_nws s l) (with_nws s' l).
  Proof. intros H. keep H. Qed.
  Lemma moved_du (s : computer) (s' : computer') l : moved g a c s s' -> moved g a c (with_du s l) (with_du s' l).
  Proof. intros H. keep H. Qed.
  Lemma moved_ecs (s : computer) (s' : computer') l : moved g a c s s' -> moved g a c (with_ecs s l) (with_ecs s' l).
  Proof. intros H. keep H. Qed.
  Lemma moved_ppe (s : computer) (s' : computer') A x y : moved g a c s s' -> moved g a c (with_ppe s A x y) (with_ppe s' A x y).
  Proof. intros H. keep H. Qed.
  Lemma moved_neighbor (s : computer) (s' : computer') l : moved g a c s s' -> moved g a c (with_neighbor s l) (with_neighbor s' l).
  Proof. intros H. keep H. Qed.
  Lemma moved_with_wall (s : computer) (s' : computer') w : moved g a c s s' -> moved g a c (with_wall s w) (with_wall s' w).
  Proof. intros H. keep H. Qed.
  Lemma moved_grid (s : computer) (s' : computer') G : moved g a c s s' -> moved g a c (with_grid s G) (with_grid s' (shift_grid g G)).
  Proof. intros H. keep H. Qed.
  Lemma moved_start (s : computer) (s' : computer') dt : moved g a c s s' -> moved g a c (start_step dt s) (start_step dt s').
  Proof. intros H. split; try by apply H. cbn. by rewrite (mo_env _ _ _ _ _ H). Qed.

  (** ** Phases *)
  Lemma dens_moved (s : computer) (s' : computer') : moved g a c s s' -> opt_rel (moved g a c) (compute_densities s) (compute_densities s').
  Proof.
    intros H. unfold compute_densities. rewrite (moved_size _ _ H). generalize (psize s) as n. intros n. apply run_loop_sim_eq; [| |done]; clear H s s'.
    - intros i s s' _ H. cbn [l_compute dens_loop]. at_i H i. mo H. destruct (cNws s !! i) eqn:En; [|done].
      cbn [mbind option_bind eN0 eRe shift_env pT shift_part]. destruct (is_active (pT p)); [|done].
      rewrite (shift_acc (with_nws s (<[i:=eN0 (cEnv s)]> (cNws s))) (with_nws s' (<[i:=eN0 (cEnv s)]> (cNws s))) i (nofZ 0) nadd
        (dens_func cfg (pX p) (eRe (cEnv s)))); [done|by apply moved_nws|].
      intros j q. unfold dens_func. cbn [pX shift_part]. by rewrite shift_dist.
    - intros i v s s' H. cbn [l_write dens_loop]. rewrite (mo_nws _ _ _ _ _ H).
      destruct v.2; [apply moved_upd; [done|]|]; by apply moved_nws.
  Qed.
  Lemma speed_moved (s : computer) (s' : computer') i : moved g a c s s' -> density_speed s' i = density_speed s i.
  Proof.
    intros H. unfold density_speed. at_i H i. mo H. cbn [eN0 eRe eDt shift_env pN shift_part].
    rewrite (shift_acc s s' i (nofZ 0) nadd (speed_func cfg (pX p) (pU p))); [done|done|].
    intros j q. unfold speed_func. cbn [pX pU shift_part]. by rewrite !shift_sub.
  Qed.
  Lemma ecs_moved (s : computer) (s' : computer') : moved g a c s s' -> opt_rel (moved g a c) (compute_ecs s) (compute_ecs s').
  Proof.
    intros H. unfold compute_ecs. rewrite (moved_size _ _ H). generalize (psize s) as n. intros n. apply run_loop_sim_eq; [| |done]; clear H s s'.
    - intros i s s' _ H. cbn [l_compute ecs_loop]. rewrite (speed_moved _ _ _ H). at_i H i. mo H. done.
    - intros i v s s' H. cbn [l_write ecs_loop]. rewrite (mo_ecs _ _ _ _ _ H). destruct v; [by apply moved_ecs|done].
  Qed.
  Lemma accel_moved n (s : computer) (s' : computer') : cCentral cfg = false -> moved g a c s s' ->
    opt_rel (moved g a c) (run_loop (accel_loop cfg wm) n s) (run_loop (accel_loop cfg (shift_wall b wm)) n s').
  Proof.
    intros HC H. apply run_loop_sim_eq; [| |done]; clear H s s'.
    - intros i s s' _ H. cbn [l_compute accel_loop]. at_i H i. mo H. cbn [pT shift_part]. destruct (is_newton (pT p)); [|done].
      rewrite (shift_acc s s' i vzero vadd (vis_func (cEnv s) (pX p) (pU p))); [|done|].
      + destruct (acc _ _ _ _ _); [|done]. cbn [mbind option_bind]. destruct (cDu s !! i); [|done]. cbn [mbind option_bind].
        unfold gravity. by rewrite HC.
      + intros j q. unfold vis_func. cbn [pX pU pT shift_part eRe eNu eN0 eLambda shift_env]. by rewrite !shift_sub, shift_dist.
    - intros i v s s' H. cbn [l_write accel_loop]. rewrite (mo_du _ _ _ _ _ H). destruct v; [by apply moved_du|done].
  Qed.
  Lemma rhs_moved n (s : computer) (s' : computer') : moved g a c s s' ->
    opt_rel (moved g a c) (run_loop (rhs_loop cfg wm) n s) (run_loop (rhs_loop cfg (shift_wall b wm)) n s').
  Proof.
    intros H. apply run_loop_sim_eq; [| |done]; clear H s s'.
    - intros i s s' _ H. cbn [l_compute rhs_loop]. rewrite (speed_moved _ _ _ H). at_i H i. mo H. done.
    - intros i v s s' H. cbn [l_write rhs_loop]. rewrite (mo_x _ _ _ _ _ H), (mo_b _ _ _ _ _ H), (mo_A _ _ _ _ _ H). by apply moved_ppe.
  Qed.
  Lemma matrix_moved n (s : computer) (s' : computer') : moved g a c s s' ->
    opt_rel (moved g a c) (run_loop (matrix_loop cfg wm) n s) (run_loop (matrix_loop cfg (shift_wall b wm)) n s').
  Proof.
    intros H. apply run_loop_sim_eq; [| |done]; clear H s s'.
    - intros i s s' _ H. cbn [l_compute matrix_loop]. at_i H i. mo H.
      rewrite (shift_acc s s' i ppe_zero ppe_plus (ppe_func (cEnv s) (pX p))); [done|done|].
      intros j q. unfold ppe_func. cbn [pX pT pN shift_part]. by rewrite shift_dist.
    - intros i v s s' H. cbn [l_write matrix_loop]. rewrite (mo_x _ _ _ _ _ H), (mo_b _ _ _ _ _ H), (mo_A _ _ _ _ _ H). by apply moved_ppe.
  Qed.
  Lemma set_ppe_moved (s : computer) (s' : computer') : moved g a c s s' -> opt_rel (moved g a c) (set_ppe s) (set_ppe s').
  Proof.
    intros H. unfold set_ppe. rewrite (moved_size _ _ H). mo H. eapply opt_rel_bind.
    - apply rhs_moved. destruct (_ =? _)%nat; [done|]. by apply moved_ppe.
    - intros t t' Ht. by apply matrix_moved.
  Qed.
  Lemma solve_moved (s : computer) (s' : computer') : moved g a c s s' ->
    same_kind (moved g a c) (fun e t t' => e = CgNotConverged /\ moved g a c t t') (solve_ppe s) (solve_ppe s').
  Proof.
    intros H. unfold solve_ppe. mo H. destruct (cg_solve _ _ _ _).2; [|split; [done|split; [done|]]]; by apply moved_ppe.
  Qed.
  Lemma assign_moved n (s : computer) (s' : computer') : moved g a c s s' ->
    opt_rel (moved g a c) (run_loop (assign_loop cfg wm) n s) (run_loop (assign_loop cfg (shift_wall b wm)) n s').
  Proof.
    intros H. apply run_loop_sim_eq; [| |done]; clear H s s'.
    - intros i s s' _ H. cbn [l_compute assign_loop]. at_i H i. mo H. done.
    - intros i v s s' H. cbn [l_write assign_loop]. destruct v; [by apply moved_upd|done].
  Qed.
  Lemma explicitp_moved n (s : computer) (s' : computer') : moved g a c s s' ->
    opt_rel (moved g a c) (run_loop (explicit_loop cfg wm) n s) (run_loop (explicit_loop cfg (shift_wall b wm)) n s').
  Proof.
    intros H. apply run_loop_sim_eq; [| |done]; clear H s s'.
    - intros i s s' _ H. cbn [l_compute explicit_loop]. at_i H i. mo H. done.
    - intros i v s s' H. cbn [l_write explicit_loop]. by apply moved_upd.
  Qed.
  Lemma grad_moved n (s : computer) (s' : computer') : moved g a c s s' ->
    opt_rel (moved g a c) (run_loop (grad_loop cfg wm) n s) (run_loop (grad_loop cfg (shift_wall b wm)) n s').
  Proof.
    intros H. apply run_loop_sim_eq; [| |done]; clear H s s'.
    - intros i s s' _ H. cbn [l_compute grad_loop]. at_i H i. mo H. cbn [pT pX pP pN shift_part eRe eDt eRho eN0 shift_env].
      rewrite (shift_acc s s' i mzero madd (gc_matrix_func (pX p) (eRe (cEnv s)))); [|done|].
      2:{ intros j q. unfold gc_matrix_func. cbn [pX shift_part]. by rewrite !shift_sub, shift_dist. }
      rewrite (shift_acc s s' i vzero vadd (grad_func (pP p) (pX p) (eRe (cEnv s)))); [|done|].
      2:{ intros j q. unfold grad_func. cbn [pX pT pP shift_part]. by rewrite !shift_sub. }
      destruct (is_newton (pT p)); [|done]. destruct (cGC cfg); [|done].
      destruct (acc s i mzero madd _) as [m|]; [|done]. cbn [mbind option_bind].
      rewrite (shift_acc s s' i vzero vadd (gc_func cfg (pP p) (pX p) (eRe (cEnv s)) (minvert m (nofZ (Z.of_nat (dimn d)) /. eN0 (cEnv s))))); [done|done|].
      intros j q. unfold gc_func. cbn [pX pT pP shift_part]. by rewrite !shift_sub, shift_dist.
    - intros i v s s' H. cbn [l_write grad_loop]. rewrite (mo_du _ _ _ _ _ H). destruct v; [by apply moved_du|done].
  Qed.
  Lemma kick_moved n (s : computer) (s' : computer') : moved g a c s s' ->
    opt_rel (moved g a c) (run_loop (kick_loop cfg wm) n s) (run_loop (kick_loop cfg (shift_wall b wm)) n s').
  Proof.
    intros H. apply run_loop_sim_eq; [| |done]; clear H s s'.
    - intros i s s' _ H. cbn [l_compute kick_loop]. at_i H i. mo H. done.
    - intros i v s s' H. cbn [l_write kick_loop]. destruct v; [|done]. mo H. apply moved_upd; [|done].
      intros p. unfold set_X, set_U, shift_part. cbn [pX pU pP pN pT eDt shift_env]. by rewrite (shift_add (pX p) _ a), (shift_add (pU p) _ c).
  Qed.
  Lemma gradient_moved (s : computer) (s' : computer') : moved g a c s s' ->
    opt_rel (moved g a c) (modify_by_gradient s) (modify_by_gradient s').
  Proof.
    intros H. unfold modify_by_gradient. rewrite (moved_size _ _ H). eapply opt_rel_bind; [by apply grad_moved|].
    intros t t' Ht. rewrite (moved_size _ _ Ht). by apply kick_moved.
  Qed.

  (** ** Outcomes *)
  Lemma implicit_moved (s : computer) (s' : computer') : moved g a c s s' ->
    same_kind (moved g a c) (fun e t t' => e = CgNotConverged /\ moved g a c t t') (compute_implicit s) (compute_implicit s').
  Proof.
    intros H. unfold compute_implicit. rewrite (moved_size _ _ H). apply (same_kind_bind (moved g a c)).
    - destruct (cExplicit cfg); [by apply same_kind_opt, explicitp_moved|].
      apply (same_kind_bind (moved g a c)); [apply (same_kind_bind (moved g a c))|].
      + by apply same_kind_opt, set_ppe_moved.
      + intros t t' Ht. by apply solve_moved.
      + intros t t' Ht. rewrite (moved_size _ _ Ht). by apply same_kind_opt, assign_moved.
    - intros t t' Ht. by apply same_kind_opt, gradient_moved.
  Qed.

  (** ** Search *)
  Lemma near_moved (s : computer) (s' : computer') i p js : moved g a c s s' -> near s' i (sh p) js = near s i p js.
  Proof.
    intros H. induction js as [|j js IH]; [done|]. cbn [near]. rewrite IH. destruct (j =? i)%nat; [done|].
    at_i H j. mo H. destruct (near s i p js); [|done]. cbn [mbind option_bind pT pX shift_part eNL shift_env].
    by rewrite shift_dist.
  Qed.

  (** ** Saving the positions *)
  (** The saved positions that count. *)
  Definition orig_moved (s : computer) (s' : computer') : Prop :=
    forall j q, cParts s !! j = Some q -> is_active (pT q) = true -> cOrigX s' !! j = (fun x => x +^ a) <$> cOrigX s !! j.
  Lemma savex_moved (s : computer) (s' : computer') : moved g a c s s' ->
    opt_rel (fun t t' => moved g a c t t' /\ orig_moved t t') (save_x s) (save_x s').
  Proof.
    intros H. assert (opt_rel (moved g a c) (save_x s) (save_x s')) as HR.
    { unfold save_x. rewrite (moved_size _ _ H). generalize (psize s) as n. intros n.
      apply (run_loop_sim _ _ (fun _ => moved g a c)); [|done]. clear H s s'.
      intros i s s' _ H. cbn [l_compute savex_loop]. rewrite (moved_at _ _ _ H). destruct (cParts s !! i) as [p|]; [|done].
      cbn [mbind option_bind fmap option_fmap option_map]. cbn [pT shift_part]. destruct (is_active (pT p)); [|done].
      pose proof (mo_orig _ _ _ _ _ H) as HL.
      destruct (cOrigX s !! i) eqn:E1, (cOrigX s' !! i) eqn:E2; cbn [mbind option_bind opt_rel l_write savex_loop].
      - split; try by apply H. cbn. by rewrite !insert_length.
      - apply lookup_ge_None in E2. apply lookup_lt_Some in E1. lia.
      - apply lookup_ge_None in E1. apply lookup_lt_Some in E2. lia.
      - done. }
    destruct (save_x s) as [t|] eqn:E, (save_x s') as [t'|] eqn:E'; simpl in *; try done. split; [done|].
    intros j q Hq HT. rewrite (savex_rest _ _ E) in Hq. cbn in Hq.
    rewrite (savex_at _ _ _ _ E Hq HT). cbn.
    rewrite (savex_at _ _ j (sh q) E'); [done|by rewrite (moved_at _ _ _ H), Hq|done].
  Qed.

  (** ** Stabilisation *)
  (** The lists of fluid particles contain enabled particles only. *)
  Definition lists_enabled (s : computer) : Prop :=
    forall i p l j, cParts s !! i = Some p -> pT p = Newton -> neighbor_list s i = Some l -> j ∈ l ->
    exists q, cParts s !! j = Some q /\ pT q <> Disabled.
  Lemma phase_lists_enabled (s t : computer) : phase_rel s t -> lists_enabled s -> lists_enabled t.
  Proof.
    intros H HL i p l j Hp HT Hl Hj.
    assert (forall k, pT <$> cParts t !! k = pT <$> cParts s !! k) as Ht.
    { intros k. rewrite <- !list_lookup_fmap. by rewrite (pr_types _ _ H). }
    pose proof (Ht i) as Hi. rewrite Hp in Hi. destruct (cParts s !! i) as [p0|] eqn:E0; [|done]. injection Hi as Hi.
    destruct (HL i p0 l j E0 ltac:(congruence)) as (q & Hq & Hen); [|done|].
    { rewrite <- Hl. unfold neighbor_list. by rewrite (pr_nb _ _ H). }
    pose proof (Ht j) as Hj2. rewrite Hq in Hj2. destruct (cParts t !! j) as [q'|] eqn:Eq; [|done]. injection Hj2 as Hj2.
    exists q'. split; [done|congruence].
  Qed.
  Lemma ds_moved n (s : computer) (s' : computer') : moved g a c s s' -> orig_moved s s' -> lists_enabled s ->
    opt_rel (moved g a c) (run_loop (ds_loop cfg wm) n s) (run_loop (ds_loop cfg (shift_wall b wm)) n s').
  Proof.
    intros H HO HL. assert (opt_rel (fun t t' => moved g a c t t' /\ orig_moved t t' /\ lists_enabled t)
      (run_loop (ds_loop cfg wm) n s) (run_loop (ds_loop cfg (shift_wall b wm)) n s')) as HH.
    2:{ destruct (run_loop (ds_loop cfg wm) n s), (run_loop (ds_loop cfg (shift_wall b wm)) n s'); simpl in *; tauto. }
    apply run_loop_sim_eq; [| |done]; clear H HO HL s s'.
    - intros i s s' _ (H & HO & HL). cbn [l_compute ds_loop]. at_i H i. mo H. cbn [pT pX shift_part eL0 eMaxDx eDt eN0 shift_env].
      destruct (is_newton (pT p)) eqn:HT; [|done]. apply is_newton_true in HT.
      rewrite (HO i p Heqo) by (by rewrite HT). destruct (cOrigX s !! i) as [x0|]; [|done].
      cbn [mbind option_bind fmap option_fmap option_map].
      destruct (neighbor_list s i) as [l|] eqn:Hl.
      2:{ unfold acc. by rewrite (moved_list _ _ _ H), Hl. }
      erewrite (shift_acc_at s s' i _ _ (ds_func s x0 (pX p) _)); [done|done|done|done| |].
      + intros j q Hj Hq. unfold ds_func. cbn [pT pX shift_part]. rewrite shift_sub.
        destruct (is_dummy (pT q)) eqn:HD; [done|]. destruct (negb false && _); [|done]. destruct (_ <?. _); [|done].
        rewrite Nat2Z.id. rewrite (HO j q Hq).
        * destruct (cOrigX s !! j); [|done]. cbn [mbind option_bind fmap option_fmap option_map]. by rewrite shift_sub.
        * destruct (HL i p l j Heqo HT Hl Hj) as (q' & Hq' & Hen). assert (q' = q) as -> by congruence.
          destruct (pT q); done.
      + intros HS q HTq. unfold ds_func. cbn [pT shift_part]. by rewrite HTq, HS.
    - intros i v s s' (H & HO & HL). cbn [l_write ds_loop]. rewrite (mo_du _ _ _ _ _ H). destruct v; [|done].
      split; [by apply moved_du|]. done.
  Qed.
  Lemma stabilize_moved (s : computer) (s' : computer') : moved g a c s s' -> orig_moved s s' -> lists_enabled s ->
    opt_rel (moved g a c) (stabilize s) (stabilize s').
  Proof.
    intros H HO HL. unfold stabilize. rewrite (moved_size _ _ H). eapply opt_rel_bind; [by apply ds_moved|].
    intros t t' Ht. rewrite (moved_size _ _ Ht). by apply kick_moved.
  Qed.
  End Fix.

  (** ** Search *)
  Section Search.
  Context (g c : V).
  Lemma store_one_moved (s : computer) (s' : computer') i : moved g g c s s' ->
    same_kind (moved g g c) (fun e t t' => e = TooManyParticles /\ moved g g c t t') (store_one s i) (store_one s' i).
  Proof.
    intros H. unfold store_one. rewrite (moved_at _ _ _ _ _ _ H). destruct (cParts s !! i) as [p|]; [|done].
    cbn [fmap option_fmap option_map pT pX shift_part]. destruct (is_disabled (pT p)); [done|].
    rewrite (mo_grid _ _ _ _ _ H), shift_store. destruct (store d (cGrid s) (pX p) i) as [G| |G|].
    - by apply moved_grid.
    - split; try by apply H. cbn. rewrite (mo_parts _ _ _ _ _ H). symmetry. apply (list_fmap_insert (shift_part g c)).
    - split; [done|]. split; [done|]. by apply moved_grid.
    - done.
  Qed.
  Lemma store_all_moved l (s : computer) (s' : computer') : moved g g c s s' ->
    same_kind (moved g g c) (fun e t t' => e = TooManyParticles /\ moved g g c t t') (store_all l s) (store_all l s').
  Proof.
    revert s s'. induction l as [|i l IH]; intros s s' H; [done|]. cbn [store_all].
    eapply same_kind_bind; [by apply store_one_moved|]. intros t t' Ht. by apply IH.
  Qed.
  Lemma neighbor_loop_moved n (s : computer) (s' : computer') : moved g g c s s' ->
    opt_rel (moved g g c) (run_loop (neighbor_loop cfg wm) n s) (run_loop (neighbor_loop cfg (shift_wall b wm)) n s').
  Proof.
    intros H. apply run_loop_sim_eq; [| |done]; clear H s s'.
    - intros i s s' _ H. cbn [l_compute neighbor_loop]. rewrite (moved_at _ _ _ _ _ _ H).
      destruct (cParts s !! i) as [p|]; [|done]. cbn [mbind option_bind fmap option_fmap option_map].
      cbn [pT shift_part]. destruct (is_disabled (pT p)); [done|].
      rewrite (mo_grid _ _ _ _ _ H). cbn [pX shift_part]. rewrite shift_around.
      destruct (around d (cGrid s) (pX p)) as [js|]; [|done]. cbn [mbind option_bind].
      change (mkParticle _ _ _ _ _) with (shift_part g c p). rewrite (near_moved _ _ _ _ _ _ _ _ H).
      by rewrite (mo_neighbor _ _ _ _ _ H).
    - intros i v s s' H. cbn [l_write neighbor_loop]. destruct v; [|done].
      rewrite (mo_neighbor _ _ _ _ _ H). by apply moved_neighbor.
  Qed.
  Lemma search_moved (s : computer) (s' : computer') : moved g g c s s' ->
    same_kind (moved g g c) (fun e t t' => e = TooManyParticles /\ moved g g c t t') (search_neighbor s) (search_neighbor s').
  Proof.
    intros H. unfold search_neighbor. rewrite (mo_grid _ _ _ _ _ H), shift_clear, (moved_size _ _ _ _ _ H).
    destruct (clear d (cGrid s)) as [G|]; [|done]. cbn [fmap option_fmap option_map].
    eapply same_kind_bind; [by apply store_all_moved, moved_grid|].
    intros t t' Ht. rewrite (moved_size _ _ _ _ _ Ht). by apply same_kind_opt, neighbor_loop_moved.
  Qed.
  End Search.

  (** ** Moving *)
  Lemma move_moved g a c (s : computer) (s' : computer') (dt : R) : moved g a c s s' ->
    eDt (cEnv s) = dt -> b dt = a +^ (dt : Rnum) *^ c -> c = vzero \/ dt <> 0 ->
    opt_rel (moved g (b dt) c) (run_loop (move_loop cfg wm) (psize s) s) (run_loop (move_loop cfg (shift_wall b wm)) (psize s) s').
  Proof.
    intros H Hdt Hb Hc.
    pose (at_ := fun i j : nat => if (j <? i)%nat then b dt else a).
    assert (opt_rel (fun t t' => (forall j, cParts t' !! j = shift_part (at_ (psize s) j) c <$> cParts t !! j)
        /\ moved g a c (with_parts t []) (with_parts t' [])
        /\ eDt (cEnv t) = dt /\ psize t = psize s)
      (run_loop (move_loop cfg wm) (psize s) s) (run_loop (move_loop cfg (shift_wall b wm)) (psize s) s')) as HH.
    { apply (run_loop_sim _ _ (fun i (t : computer) (t' : computer') =>
        (forall j, cParts t' !! j = shift_part (at_ i j) c <$> cParts t !! j)
        /\ moved g a c (with_parts t []) (with_parts t' []) /\ eDt (cEnv t) = dt /\ psize t = psize s)).
      2:{ split; [|split; [|done]].
          - intros j. unfold at_. rewrite (proj2 (Nat.ltb_ge j 0)) by lia. by apply (moved_at g).
          - split; try by apply H. done. }
      intros i t t' Hi (HP & HM & HD & HS). cbn [l_compute move_loop]. rewrite (HP i).
      assert (at_ i i = a) as -> by (unfold at_; by rewrite (proj2 (Nat.ltb_ge i i)) by lia). destruct (cParts t !! i) as [p|] eqn:Hp; [|done].
      cbn [mbind option_bind fmap option_fmap option_map]. cbn [pT shift_part pU pX].
      pose proof (mo_env _ _ _ _ _ HM) as HE. cbn in HE. rewrite HE. pose proof (mo_du _ _ _ _ _ HM) as HU. cbn in HU. rewrite HU.
      pose proof (mo_wall _ _ _ _ _ HM) as HW. cbn in HW. rewrite HW. cbn [eT eDt shift_env]. rewrite HD.
      assert (forall x u, opt_rel
        (fun v v' : V * V => (forall j, cParts (l_write (move_loop cfg (shift_wall b wm)) i v' t') !! j
             = shift_part (at_ (1 + i)%nat j) c <$> cParts (l_write (move_loop cfg wm) i v t) !! j) /\
           moved g a c (with_parts (l_write (move_loop cfg wm) i v t) []) (with_parts (l_write (move_loop cfg (shift_wall b wm)) i v' t') []) /\
           eDt (cEnv (l_write (move_loop cfg wm) i v t)) = dt /\ psize (l_write (move_loop cfg wm) i v t) = psize s)
        (Some (x, u)) (Some (x +^ b dt, u +^ c))) as HW2.
      { intros x u. simpl opt_rel. split; [|split; [|split]].
        - intros j. cbn [l_write move_loop upd_part with_parts cParts]. unfold upd_part. cbn [with_parts cParts].
          destruct (decide (i = j)) as [<-|Hne].
          + rewrite !list_lookup_alter, HP, Hp. cbn [fmap option_fmap option_map].
            assert (at_ (S i)%nat i = b dt) as -> by (unfold at_; by rewrite (proj2 (Nat.ltb_lt i (S i))) by lia). done.
          + rewrite !list_lookup_alter_ne by done. rewrite HP.
            assert (at_ (S i)%nat j = at_ i j) as ->; [|done]. unfold at_.
            destruct (Nat.ltb_spec j i), (Nat.ltb_spec j (S i)); try done; lia.
        - split; try by apply HM.
        - exact HD.
        - cbn [l_write move_loop]. unfold psize, upd_part. cbn [with_parts cParts]. by rewrite alter_length. }
      destruct (is_newton (pT p)).
      - destruct (cDu t !! i) as [v|]; [|done]. cbn [mbind option_bind].
        specialize (HW2 (pX p +^ vscalr (pU p +^ vscalr v (dt : Rnum)) (dt : Rnum)) (pU p +^ vscalr v (dt : Rnum))).
        rewrite (shift_add (pU p)). replace ((pX p +^ a) +^ vscalr ((pU p +^ vscalr v (dt : Rnum)) +^ c) (dt : Rnum))
          with ((pX p +^ vscalr (pU p +^ vscalr v (dt : Rnum)) (dt : Rnum)) +^ b dt); [exact HW2|].
        rewrite Hb. apply coord_ext. intros k Hk. rewrite !coord_add, !coord_scalr, !coord_add, coord_scalr, coord_scal by done. ring.
      - specialize (HW2 (wPos wm (cWall t) i (eT (cEnv t)) (dt : Rnum)) ((wPos wm (cWall t) i (eT (cEnv t)) (dt : Rnum) -^ pX p) /^ (dt : Rnum))).
        cbn [wPos shift_wall]. set (y := wPos wm (cWall t) i (eT (cEnv t)) (dt : Rnum)) in *.
        replace (((y +^ b dt) -^ (pX p +^ a)) /^ (dt : Rnum)) with ((y -^ pX p) /^ (dt : Rnum) +^ c); [exact HW2|].
        rewrite Hb. apply coord_ext. intros k Hk.
        rewrite coord_add, !(coord_div dt), !coord_sub, !coord_add, coord_scal by done.
        destruct Hc as [->|Hc]; [|field; done]. rewrite coord_zero by done. unfold Rdiv. ring. }
    destruct (run_loop (move_loop cfg wm) (psize s) s) as [t|], (run_loop (move_loop cfg (shift_wall b wm)) (psize s) s') as [t'|];
      simpl in *; try done.
    destruct HH as (HP & HM & _ & HS). split; try by apply HM.
    apply list_eq. intros j. rewrite HP, list_lookup_fmap. destruct (cParts t !! j) as [p|] eqn:Hp; [|done].
    apply lookup_lt_Some in Hp. unfold psize in HS. simpl. do 2 f_equal. unfold at_, psize. by rewrite (proj2 (Nat.ltb_lt _ _)) by lia.
  Qed.

  (** ** A whole step *)
  Lemma seen_moved g c (s : computer) : moved g g c s (seen_from b g c s).
  Proof. by split. Qed.
  Lemma search_lists_enabled (s t : computer) : ok s -> search_neighbor s = Done t -> lists_enabled t.
  Proof.
    intros [Hwf Hok] H. pose proof (search_spec s Hwf Hok) as Hs. rewrite H in Hs.
    intros i p l j Hp HT Hl Hj. assert (is_disabled (pT p) = false) as HD by (by rewrite HT).
    rewrite (found_list s t Hs i p Hp HD) in Hl. injection Hl as <-.
    destruct (found_enabled t i p j Hj) as (_ & q & Hq & Hq2). exists q. split; [done|]. by apply is_disabled_false.
  Qed.
  Lemma bind_knowing {S S'} (R R' : S -> S' -> Prop) RT o o' (f : S -> outcome S) (f' : S' -> outcome S') :
    same_kind R RT o o' -> (forall t t', o = Done t -> R t t' -> same_kind R' RT (f t) (f' t')) -> same_kind R' RT (o >>o f) (o' >>o f').
  Proof. intros H Hf. destruct o, o'; simpl in *; try done. by apply Hf. Qed.
  Lemma keep_lists g a c (s : computer) (o : option computer) (o' : option computer') RT : lists_enabled s ->
    (forall t, o = Some t -> phase_rel s t) -> opt_rel (moved g a c) o o' ->
    same_kind (fun t t' => moved g a c t t' /\ lists_enabled t) RT (of_opt o) (of_opt o').
  Proof.
    intros HL HP H. destruct o as [t|], o' as [t'|]; simpl in *; try done. split; [done|].
    eapply phase_lists_enabled; [by apply HP|done].
  Qed.
  Lemma forward_moved g c (s : computer) (s' : computer') (dt : R) :
    ok s -> cCentral cfg = false -> moved g g c s s' -> b dt = g +^ (dt : Rnum) *^ c -> c = vzero \/ dt <> 0 ->
    same_kind (moved g (b dt) c)
      (fun e t t' => match e with TooManyParticles => moved g g c t t' | CgNotConverged => moved g (b dt) c t t' end)
      (forward_dt (dt : Rnum) s) (forward_dt (dt : Rnum) s').
  Proof.
    intros Hok HC H Hb Hc. unfold forward_dt.
    set (RT := fun e (t : computer) (t' : computer') => match e with TooManyParticles => _ | CgNotConverged => _ end).
    set (R1 := fun (t : computer) (t' : computer') => (moved g g c t t' /\ lists_enabled t) /\ eDt (cEnv t) = dt).
    set (R2 := fun (t : computer) (t' : computer') => moved g (b dt) c t t' /\ lists_enabled t).
    apply (bind_knowing (fun t t' => R2 t t' /\ (cDS cfg = true -> orig_moved (b dt) t t'))).
    2:{ intros t t' _ [[Ht Hl] Ho]. destruct (cDS cfg); [|done]. apply same_kind_opt. apply stabilize_moved; [done|by apply Ho|done]. }
    apply (bind_knowing (fun t t' => R2 t t' /\ (cDS cfg = true -> orig_moved (b dt) t t'))).
    2:{ intros t t' _ [[Ht Hl] Ho]. pose proof (implicit_moved g (b dt) c t t' Ht) as HI.
        pose proof (implicit_pr t) as HP. pose proof (implicit_origx t) as HX.
        destruct (compute_implicit t) as [u|e u|] eqn:Eu, (compute_implicit t') as [u'|e' u'|] eqn:Eu'; simpl in HI; try done.
        2:{ destruct HI as (-> & -> & HI). done. }
        specialize (HP u eq_refl). specialize (HX u eq_refl).
        assert (cOrigX u' = cOrigX t') as HX' by (by apply (implicit_origx t' u')).
        simpl. split; [split; [done|]; by eapply phase_lists_enabled|].
        intros HD j q Hq HT. rewrite HX, HX'. pose proof (f_equal (fun l => l !! j) (pr_types _ _ HP)) as Ht2. cbn beta in Ht2.
        rewrite !list_lookup_fmap, Hq in Ht2. destruct (cParts t !! j) as [q0|] eqn:Hq0; [|done]. injection Ht2 as Ht2.
        apply (Ho HD j q0 Hq0). by rewrite <- Ht2. }
    apply (bind_knowing R2).
    2:{ intros t t' _ [Ht Hl]. destruct (cDS cfg); [|done].
        pose proof (savex_moved g (b dt) c t t' Ht) as HS. pose proof (savex_pr t) as HP.
        destruct (save_x t) as [u|], (save_x t') as [u'|]; simpl in *; try done. destruct HS as [HS1 HS2].
        split; [split; [done|]; by eapply phase_lists_enabled; [apply HP|]|done]. }
    apply (bind_knowing R2).
    2:{ intros t t' _ [Ht Hl]. apply (keep_lists g (b dt) c t); [done|intros; by apply dens_pr|by apply dens_moved]. }
    apply (bind_knowing R1).
    2:{ intros t t' _ [[Ht Hl] HD]. apply (keep_lists g (b dt) c t); [done|intros; by apply explicit_pr|].
        unfold compute_explicit. rewrite (moved_size _ _ _ _ _ Ht).
        pose proof (accel_moved g g c (psize t) t t' HC Ht) as HA. pose proof (accel_rest (psize t) t) as HR.
        destruct (run_loop (accel_loop cfg wm) (psize t) t) as [u|], (run_loop (accel_loop cfg (shift_wall b wm)) (psize t) t') as [u'|]; simpl in HA; try done.
        cbn [mbind option_bind]. specialize (HR u eq_refl).
        assert (moved g g c (with_wall u (wPre wm (cWall u) (eT (cEnv u)) (eDt (cEnv u))))
          (with_wall u' (wPre (shift_wall b wm) (cWall u') (eT (cEnv u')) (eDt (cEnv u'))))) as HW.
        { rewrite (mo_env _ _ _ _ _ HA), (mo_wall _ _ _ _ _ HA). by apply moved_with_wall. }
        rewrite (moved_size _ _ _ _ _ HW). apply (move_moved g g c); [done| |done|done].
        cbn. rewrite HR. exact HD. }
    apply (bind_knowing R1).
    2:{ intros t t' _ [[Ht Hl] HD]. destruct (cECS cfg); [|done].
        pose proof (keep_lists g g c t (compute_ecs t) (compute_ecs t') RT Hl ltac:(intros; by apply ecs_pr) ltac:(by apply ecs_moved)) as HK.
        pose proof (ecs_pr t) as HP. destruct (compute_ecs t) as [u|], (compute_ecs t') as [u'|]; simpl in *; try done.
        split; [done|]. by rewrite (pr_env _ _ (HP u eq_refl)). }
    apply (bind_knowing R1).
    2:{ intros t t' _ [[Ht Hl] HD].
        pose proof (keep_lists g g c t (compute_densities t) (compute_densities t') RT Hl ltac:(intros; by apply dens_pr) ltac:(by apply dens_moved)) as HK.
        pose proof (dens_pr t) as HP. destruct (compute_densities t) as [u|], (compute_densities t') as [u'|]; simpl in *; try done.
        split; [done|]. by rewrite (pr_env _ _ (HP u eq_refl)). }
    change (with_env s (set_next_t (set_dt (dt : Rnum) (cEnv s)))) with (start_step (dt : Rnum) s).
    change (with_env s' (set_next_t (set_dt (dt : Rnum) (cEnv s')))) with (start_step (dt : Rnum) s').
    pose proof (search_moved g c _ _ (moved_start g g c s s' (dt : Rnum) H)) as HS.
    destruct Hok as [Hwf Hcl]. assert (ok (start_step (dt : Rnum) s)) as Hok' by (split; [by apply wf_start|done]).
    pose proof (search_spec _ (proj1 Hok') (proj2 Hok')) as HSp.
    destruct (search_neighbor (start_step (dt : Rnum) s)) as [u|e u|] eqn:Eu, (search_neighbor (start_step (dt : Rnum) s')) as [u'|e' u'|]; simpl in HS; try done.
    - split; [split; [done|]|].
      + by eapply search_lists_enabled.
      + rewrite (se_rest _ _ HSp). done.
    - destruct HS as (-> & -> & HS). done.
  Qed.
End Shift.

Section Properties.
  Context {cfg : config} {wm : wallmotion Rnum (cDim cfg)}.
  Notation d := (cDim cfg).
  Notation V := (vec Rnum d).
  Notation computer := (computer cfg wm).
  Implicit Types (a c g : V).

  Lemma shift_nothing a (dt : R) : a = a +^ (dt : Rnum) *^ (vzero : V).
  Proof. by rewrite vscal_zero, vadd_0_r. Qed.

  (** C52, one step: with everything (particles, domain, wall motion) displaced by [a], ForwardTime(dt)
      ends in the same way, in the displaced state. *)
  Theorem C52_step env0 a (s : computer) (dt : R) :
    square_ground env0 -> reachable env0 s -> cCentral cfg = false ->
    same_kind (moved a a vzero) (fun _ => moved a a vzero)
      (forward_dt (dt : Rnum) s) (forward_dt (dt : Rnum) (seen_from (fun _ => a) a vzero s)).
  Proof.
    intros Hsq Hr HC.
    pose proof (forward_moved (fun _ => a) a vzero s _ dt (inv_ok env0 s Hsq (reachable_inv env0 s Hsq Hr)) HC
      (seen_moved (fun _ => a) a vzero s) (shift_nothing a dt) (or_introl eq_refl)) as H.
    destruct (forward_dt (dt : Rnum) s) as [t|e t|], (forward_dt (dt : Rnum) (seen_from _ a vzero s)) as [t'|e' t'|]; simpl in *; try done.
    destruct H as [-> H]. split; [done|]. by destruct e'.
  Qed.

  (** C52: the environment of a displaced domain is the displaced environment. *)
  Theorem C52_environment a (maxDt courant g rho nu surf r_eByl_0 c0 l_0 : R) (minX maxX : V) :
    new_env (N := Rnum) cfg maxDt courant g rho nu surf r_eByl_0 c0 l_0 (minX +^ a) (maxX +^ a)
    = shift_env a <$> new_env (N := Rnum) cfg maxDt courant g rho nu surf r_eByl_0 c0 l_0 minX maxX.
  Proof. unfold new_env. destruct (nceil _); [|done]. by destruct (_ || _). Qed.

  Lemma new_grid_shift a (nl l0 : R) (minX maxX : V) :
    new_grid (N := Rnum) d nl l0 (minX +^ a) (maxX +^ a) = shift_grid a <$> new_grid (N := Rnum) d nl l0 minX maxX.
  Proof.
    unfold new_grid. rewrite (mapM_ext_in _ (fun k => c ← ceil_div (tget d maxX k -. tget d minX k) nl; Some (c + 2)%Z)).
    2:{ intros k Hk%elem_of_seq. change (tget d ?y k) with (coord y k). rewrite !coord_add by lia. cbn [nsub Rnum].
        replace ((coord maxX k + coord a k)%R - (coord minX k + coord a k)%R) with (coord maxX k - coord minX k) by lra. done. }
    destruct (mapM _ _) as [sh|]; [|done]. cbn [mbind option_bind]. destruct (ceil_div _ _) as [m|]; [|done].
    cbn [mbind option_bind]. by destruct (_ && _).
  Qed.
  Lemma new_computer_shift a eps env w :
    opt_rel (moved a a vzero) (new_computer cfg wm eps env w) (new_computer cfg (shift_wall (fun _ => a) wm) eps (shift_env a env) w).
  Proof.
    unfold new_computer. cbn [eNL eL0 eMinX eMaxX shift_env]. rewrite new_grid_shift.
    destruct (new_grid _ _ _ _ _) as [G|]; [|done]. simpl. by split.
  Qed.

  Lemma resize_length_eq {A} (l l' : list A) n x : length l' = length l -> length (resize n x l') = length (resize n x l).
  Proof. by rewrite !resize_length. Qed.
  Lemma add_moved {b} a (src : list (particle Rnum d)) (s : computer) s' :
    @moved cfg wm b a a vzero s s' -> moved a a vzero (add_particles src s) (add_particles (map (shift_part a vzero) src) s').
  Proof.
    intros H. unfold add_particles. rewrite (mo_parts _ _ _ _ _ H), <- map_app, map_length.
    split; cbn; try by (rewrite ?(mo_du _ _ _ _ _ H), ?(mo_ecs _ _ _ _ _ H), ?(mo_nws _ _ _ _ _ H); apply H).
    - done.
    - by rewrite (mo_grid _ _ _ _ _ H), (mo_neighbor _ _ _ _ _ H).
    - by rewrite (mo_du _ _ _ _ _ H).
    - by rewrite (mo_ecs _ _ _ _ _ H).
    - by rewrite !resize_length.
    - by rewrite (mo_nws _ _ _ _ _ H).
  Qed.
  Lemma max_u_shift a (p : particle Rnum d) ps :
    foldl max_u_step (shift_part a vzero p) (map (shift_part a vzero) ps) = shift_part a vzero (foldl max_u_step p ps).
  Proof.
    revert p. induction ps as [|q ps IH]; intros p; [done|]. simpl. rewrite <- IH. f_equal. unfold max_u_step.
    cbn [pU shift_part]. rewrite !vadd_0_r. by destruct (_ <?. _).
  Qed.
  Lemma determine_shift {b} a (s : computer) s' : @moved cfg wm b a a vzero s s' -> determine_dt s' = determine_dt s.
  Proof.
    intros H. unfold determine_dt. rewrite (mo_parts _ _ _ _ _ H), (mo_env _ _ _ _ _ H). destruct (cParts s) as [|p ps]; [done|].
    cbn [map]. rewrite max_u_shift. cbn [pU shift_part]. by rewrite vadd_0_r.
  Qed.
  Lemma api_moved a (s : computer) s' o : ok s -> cCentral cfg = false -> moved a a vzero s s' ->
    same_kind (moved a a vzero) (fun _ => moved a a vzero) (api_step o s) (@api_step _ cfg (shift_wall (fun _ => a) wm) (shift_op a o) s').
  Proof.
    intros Hok HC H.
    assert (forall dt : R, same_kind (moved a a vzero) (fun _ => moved a a vzero) (forward_dt (dt : Rnum) s) (forward_dt (dt : Rnum) s')) as HF.
    { intros dt. pose proof (forward_moved (fun _ => a) a vzero s s' dt Hok HC H (shift_nothing a dt) (or_introl eq_refl)) as HF.
      destruct (forward_dt (dt : Rnum) s) as [t|e t|], (forward_dt (dt : Rnum) s') as [t'|e' t'|]; simpl in *; try done.
      destruct HF as [-> HF]. split; [done|]. by destruct e'. }
    destruct o as [src|dt|]; simpl.
    - by apply add_moved.
    - apply HF.
    - unfold forward. rewrite (determine_shift a s s' H). destruct (determine_dt s); [apply HF|done].
  Qed.

  (** C52, whole histories: construct a computer for the displaced domain, hand over the displaced particles and
      make the same calls; the final state is the displaced final state (and the calls have defined behaviour in
      both cases or in neither). *)
  Theorem C52_history env0 a eps w (s0 : computer) ops :
    square_ground env0 -> cCentral cfg = false ->
    new_computer cfg wm eps env0 w = Some s0 ->
    exists s0', new_computer cfg (shift_wall (fun _ => a) wm) eps (shift_env a env0) w = Some s0' /\
      match api_run ops s0, api_run (map (shift_op a) ops) s0' with
      | Some s, Some s' => moved a a vzero s s'
      | None, None => True
      | _, _ => False
      end.
  Proof.
    intros Hsq HC Hn. pose proof (new_computer_shift a eps env0 w) as HN. rewrite Hn in HN.
    destruct (new_computer cfg (shift_wall _ wm) _ _ _) as [s0'|]; simpl in HN; [|done].
    exists s0'. split; [done|].
    assert (ok s0) as Hok by (apply (inv_ok env0 s0 Hsq), (reachable_inv env0 s0 Hsq); by eapply reach_new).
    clear Hn. revert s0 s0' HN Hok. induction ops as [|o ops IH]; intros s s' H Hok; [done|].
    cbn [map]. rewrite !api_run_cons. pose proof (api_moved a s s' o Hok HC H) as HO. pose proof (api_step_ok o s) as HK.
    destruct (api_step o s) as [t|e t|], (api_step (shift_op a o) s') as [t'|e' t'|]; simpl in *; try done.
    - apply IH; [done|by eapply HK].
    - apply IH; [apply HO|by eapply HK].
  Qed.

  (** C55: an observer moving with velocity [-c] sees the same step.  Before the step its positions are displaced by
      [g], after it by [g + dt c]; walls are prescribed to be at the displaced positions.  Particles have the same
      pressure, density and type for both, velocities differ by [c], and the step ends in the same way. *)
  Theorem C55_galilean env0 g c (s : computer) (dt : R) :
    square_ground env0 -> reachable env0 s -> cCentral cfg = false -> dt <> 0 ->
    let b := fun dt : R => g +^ (dt : Rnum) *^ c in
    same_kind (moved g (b dt) c)
      (fun e => match e with TooManyParticles => moved g g c | CgNotConverged => moved g (b dt) c end)
      (forward_dt (dt : Rnum) s) (forward_dt (dt : Rnum) (seen_from b g c s)).
  Proof.
    intros Hsq Hr HC Hdt b.
    pose proof (forward_moved b g c s _ dt (inv_ok env0 s Hsq (reachable_inv env0 s Hsq Hr)) HC
      (seen_moved b g c s) eq_refl (or_intror Hdt)) as H.
    destruct (forward_dt (dt : Rnum) s) as [t|e t|], (forward_dt (dt : Rnum) (seen_from b g c s)) as [t'|e' t'|]; simpl in *; try done.
    destruct H as [-> H]. split; [done|]. by destruct e'.
  Qed.
End Properties.

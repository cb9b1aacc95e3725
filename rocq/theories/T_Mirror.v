(** Property theorems: scenes with a symmetry keep it (C75). *)
From Verif Require Import S_Terms.
From Verif Require Import P_Neigh P_Force P_Step P_Life T_Search T_Env T_Density T_Force T_Solve T_Outcome S_Outcome T_Life T_Rest T_Scheme P_Sym T_Sym P_Bench T_Bench S_Mirror.
Open Scope R_scope.

(** ** Any isometry *)
Section Kept.
  Context {cfg : config} (cond : M_Main.condition (N := Rnum)) (env : environment Rnum cfg).
  Notation d := (cDim cfg).
  Context (parts : list (particle Rnum d)) (Q : nat -> nat -> R) (b : vec Rnum d) (f : nat -> nat).
  Notation computer := (computer cfg (fixed_walls cfg (map pX parts))).
  Context (HQ : orthogonal (dimn d) Q) (Hframe : same_frame Q b f parts parts).
  Context (HG : forall e : environment Rnum cfg, eG e = eG env -> eL0 e = eL0 env -> forall x, gravity_at e (carry (cfg := cfg) Q b x) = rotate Q (gravity_at e x)).
  Context (Hsq : square_ground env) (HNL : 0 < eNL env) (Hre : 0 <= eRe env).

  Lemma walls_kept : walls_correspond Q b f (length parts) (fixed_walls cfg (map pX parts)) (fixed_walls cfg (map pX parts)) (fun _ _ => True).
  Proof.
    intros w w' t dt _. cbv zeta. split; [done|]. intros i Hi. cbn [fixed_walls wPos wPre].
    destruct Hframe as (_ & _ & HF). destruct (lookup_lt_is_Some_2 parts i Hi) as [p Hp]. specialize (HF i p Hp).
    rewrite !(nth_lookup_Some _ _ _ _ (eq_trans (list_lookup_fmap pX parts _) (f_equal _ Hp))). rewrite (nth_lookup_Some _ _ _ _ (eq_trans (list_lookup_fmap pX parts _) (f_equal _ HF))). done.
  Qed.
  Lemma disabled_stays (s s1 : computer) i p p1 : forward s = Done s1 -> cParts s !! i = Some p -> cParts s1 !! i = Some p1 -> pT p = Disabled -> pT p1 = Disabled.
  Proof.
    intros Hf Hp Hp1 Hd. assert (api_run [ForwardTime cfg] s = Some s1) as H. { cbn [api_run]. cbn [api_step]. by rewrite Hf. }
    pose proof (C08_types_permanent _ _ _ H) as HF. cbn in HF. rewrite app_nil_r in HF. destruct (Forall2_lookup_lr _ _ _ _ _ _ HF Hp Hp1); congruence.
  Qed.
  Lemma forward_length (s s1 : computer) : forward s = Done s1 -> length (cParts s1) = length (cParts s).
  Proof.
    intros Hf. assert (api_run [ForwardTime cfg] s = Some s1) as H. { cbn [api_run]. cbn [api_step]. by rewrite Hf. }
    pose proof (Forall2_length _ _ _ (C08_types_permanent _ _ _ H)) as HF. cbn in HF. by rewrite app_nil_r in HF.
  Qed.
  Lemma symmetry_kept (s s' : computer) n : initial cond env parts s -> stepped s n s' -> (forall p, p ∈ cParts s' -> pT p <> Disabled) ->
    same_frame Q b f (cParts s') (cParts s').
  Proof.
    intros Hi Hst. destruct (initial_reachable _ _ _ _ Hi) as [Hr Hp]. induction Hst as [|n s1 s2 Hst IH Hf]; intros Hen; [by rewrite Hp|].
    pose proof (stepped_reachable env s s1 n Hr Hst) as Hr1.
    assert (forall p, p ∈ cParts s1 -> pT p <> Disabled) as Hen1.
    { intros p (i & Hpi)%elem_of_list_lookup Hd. assert (i < length (cParts s2))%nat as Hlt by (rewrite (forward_length _ _ Hf); by eapply lookup_lt_Some).
      destruct (lookup_lt_is_Some_2 _ _ Hlt) as [p2 Hp2]. apply (Hen p2); [by eapply elem_of_list_lookup_2|]. by eapply (disabled_stays s1 s2). }
    specialize (IH Hen1). destruct (reachable_geom env s1 Hsq Hr1) as (_ & _ & K).
    assert (psize s1 = length parts) as Hlen.
    { clear -Hst Hp. unfold psize. induction Hst as [|n a c _ IH Hf]; [by rewrite Hp|]. by rewrite (forward_length _ _ Hf). }
    assert (corresponding (cfg := cfg) Q b f (fun _ _ => True) s1 s1) as HC.
    { split; [done| |done|done]. split; try done. apply HG; rewrite K; done. }
    destruct (C63_automatic Q HQ b f (fun _ _ => True) env env s1 s1 s2 s2) as [[HC2 _ _ _] _]; try done.
    - rewrite Hlen. apply walls_kept.
    - by left.
    - by left.
    - intros i p q H1 H2. split; intros _; apply Hen; by eapply elem_of_list_lookup_2.
  Qed.
End Kept.

Lemma same_frame_perm {cfg : config} Q (b : vec Rnum (cDim cfg)) f ps : same_frame Q b f ps ps -> map (carry_part Q b) ps ≡ₚ ps.
Proof.
  intros (_ & Hren & HF). destruct ps as [|p0 ps0] eqn:E; [done|]. rewrite <- E in *. clear E ps0.
  assert (map (carry_part Q b) ps = map (fun i => nth i ps p0) (map f (seq 0 (length ps)))) as ->.
  { rewrite map_map. apply list_eq. intros i. change (map ?g ?l) with (g <$> l). rewrite !list_lookup_fmap. destruct (ps !! i) as [p|] eqn:Ei.
    - rewrite lookup_seq_lt by (by eapply lookup_lt_Some). cbn. f_equal. symmetry. apply nth_lookup_Some. by apply HF.
    - rewrite lookup_seq_ge by (by apply lookup_ge_None). done. }
  rewrite (renumbering_seq _ _ Hren). apply reflexive_eq. apply list_eq. intros i. change (map ?g ?l) with (g <$> l). rewrite list_lookup_fmap. destruct (ps !! i) as [p|] eqn:Ei.
  - rewrite lookup_seq_lt by (by eapply lookup_lt_Some). cbn. f_equal. by apply nth_lookup_Some.
  - rewrite lookup_seq_ge by (by apply lookup_ge_None). done.
Qed.

(** ** Scenes on a lattice *)
Section Lattice.
  Context (explicit hs hl ecs gc ds spp mid central : bool).
  Notation cfg := (plane explicit hs hl ecs gc ds spp mid central).
  Context (maxDt courant g rho nu surf ratio c l_0 : R) (minX maxX : vec Rnum D2) (env : environment Rnum cfg).
  Context (Henv : new_env (N := Rnum) cfg maxDt courant g rho nu surf ratio c l_0 minX maxX = Some env) (Hl : 0 < l_0) (Hr : 0 < ratio) (Hc : 0 <= courant).
  Context (sites : list site) (Hone : one_each sites) (parts : list (particle Rnum D2)) (Hparts : Forall2 (stands (N := Rnum) l_0) sites parts).
  Context (Q : nat -> nat -> R) (b : vec Rnum D2) (HQ : orthogonal 2 Q).
  Context (HG : forall e : environment Rnum cfg, eG e = eG env -> eL0 e = eL0 env -> forall x, gravity_at e (carry (cfg := cfg) Q b x) = rotate Q (gravity_at e x)).
  (** The symmetry on the cells. *)
  Context (tau : site -> site) (Hinj : forall x y, tau x = tau y -> x = y) (Hsites : forall x, x ∈ sites -> tau x ∈ sites).
  Context (Htau : forall x, carry_part (cfg := cfg) Q b (site_particle (N := Rnum) l_0 x) = site_particle (N := Rnum) l_0 (tau x)).

  Definition image_number (i : nat) : nat :=
    match sites !! i with Some x => match list_find (fun y => y = tau x) sites with Some (j, _) => j | None => 0 end | None => 0 end.
  Lemma image_number_at i x : sites !! i = Some x -> sites !! image_number i = Some (tau x).
  Proof.
    intros Hi. unfold image_number. rewrite Hi. assert (tau x ∈ sites) as Hx by (apply Hsites; by eapply elem_of_list_lookup_2).
    destruct (list_find_elem_of (fun y => y = tau x) _ _ Hx eq_refl) as [[j y] E]. rewrite E. by apply list_find_Some in E as (E1 & -> & _).
  Qed.
  Lemma sites_same : same_frame (cfg := cfg) Q b image_number parts parts.
  Proof.
    apply stands_placed in Hparts. split; [done|]. assert (length parts = length sites) as HL by (rewrite Hparts; apply map_length). split; [split|].
    - intros i Hi. assert (i < length sites)%nat as Hi' by (rewrite <- HL; exact Hi). destruct (lookup_lt_is_Some_2 _ _ Hi') as [x Hx].
      assert (image_number i < length sites)%nat as H by (by eapply lookup_lt_Some, image_number_at). rewrite <- HL in H. exact H.
    - intros i j Hi Hj E. assert (i < length sites)%nat as Hi' by (rewrite <- HL; exact Hi). assert (j < length sites)%nat as Hj' by (rewrite <- HL; exact Hj).
      destruct (lookup_lt_is_Some_2 _ _ Hi') as [x Hx]. destruct (lookup_lt_is_Some_2 _ _ Hj') as [y Hy].
      pose proof (image_number_at i x Hx) as H1. rewrite E, (image_number_at j y Hy) in H1. injection H1 as H1%Hinj. subst y.
      destruct Hone as [Hnd _]. apply NoDup_fmap_1 in Hnd. by eapply NoDup_lookup.
    - intros i p Hp. rewrite Hparts in Hp. change (placed (N := Rnum) l_0 sites) with (site_particle (N := Rnum) l_0 <$> sites) in Hp. apply list_lookup_fmap_Some in Hp as (x & Hx & ->).
      rewrite Hparts. change (placed (N := Rnum) l_0 sites) with (site_particle (N := Rnum) l_0 <$> sites). rewrite list_lookup_fmap, (image_number_at i x Hx). cbn. f_equal. symmetry. apply Htau.
  Qed.
  Lemma lattice_kept cond s' : after_some_steps cond env parts s' -> map (carry_part (cfg := cfg) Q b) (cParts s') ≡ₚ cParts s'.
  Proof.
    intros (s & n & Hi & Hst & Hen). apply (same_frame_perm (cfg := cfg) Q b image_number).
    destruct (C15_constants cfg _ _ _ _ _ _ _ _ _ _ _ env Henv) as (_ & _ & _ & _ & _ & _ & _ & _ & _ & _ & E1 & E2 & _).
    apply (symmetry_kept cond env parts Q b image_number HQ sites_same HG) with (s := s) (n := n); try done.
    - by left.
    - rewrite E2. cbn. apply Rmult_lt_0_compat; [nra|lra].
    - rewrite E1. cbn. nra.
  Qed.
  Lemma gravity_down : coord (eG env) 0 = 0.
  Proof. destruct (C15_constants cfg _ _ _ _ _ _ _ _ _ _ _ env Henv) as (_ & _ & _ & _ & _ & _ & _ & _ & _ & _ & _ & _ & _ & HK). exact (HK 0%nat ltac:(cbn; lia)). Qed.
End Lattice.

(** ** The three reflections *)
Definition flip (k a c : nat) : R := if (a =? c)%nat then (if (a =? k)%nat then -1 else 1) else 0.
Definition cross (a c : nat) : R := if (a =? c)%nat then 0 else 1.
Lemma flip_orthogonal k : orthogonal 2 (flip k).
Proof. intros a c Ha Hc. destruct a as [|[|]], c as [|[|]]; try lia; destruct k as [|[|k]]; unfold flip, sum_n, rsum, one_if_same; simpl; split; ring. Qed.
Lemma cross_orthogonal : orthogonal 2 cross.
Proof. intros a c Ha Hc. destruct a as [|[|]], c as [|[|]]; try lia; unfold cross, sum_n, rsum, one_if_same; simpl; split; ring. Qed.
Section Images.
  Context (explicit hs hl ecs gc ds spp mid central : bool).
  Notation cfg := (plane explicit hs hl ecs gc ds spp mid central).
  Lemma left_right_carry (c : R) p : carry_part (cfg := cfg) (flip 0) ((c, 0) : vec Rnum D2) p = left_right c p.
  Proof.
    destruct p as [[x z] [u w] P n t]. cbn in x, z, u, w. unfold carry_part, left_right. cbn [pX pU pP pN pT]. f_equal.
    - unfold carry, rotate, flip, sum_n, rsum. cbn. f_equal; ring.
    - unfold rotate, flip, sum_n, rsum. cbn. f_equal; ring.
  Qed.
  Lemma upside_down_carry p : carry_part (cfg := cfg) (flip 1) ((0, 0) : vec Rnum D2) p = upside_down p.
  Proof.
    destruct p as [[x z] [u w] P n t]. cbn in x, z, u, w. unfold carry_part, upside_down. cbn [pX pU pP pN pT]. f_equal.
    - unfold carry, rotate, flip, sum_n, rsum. cbn. f_equal; ring.
    - unfold rotate, flip, sum_n, rsum. cbn. f_equal; ring.
  Qed.
  Lemma diagonal_carry p : carry_part (cfg := cfg) cross ((0, 0) : vec Rnum D2) p = diagonal p.
  Proof.
    destruct p as [[x z] [u w] P n t]. cbn in x, z, u, w. unfold carry_part, diagonal. cbn [pX pU pP pN pT]. f_equal.
    - unfold carry, rotate, cross, sum_n, rsum. cbn. f_equal; ring.
    - unfold rotate, cross, sum_n, rsum. cbn. f_equal; ring.
  Qed.
End Images.
Lemma central_turns explicit hs hl ecs gc ds spp mid (e : environment Rnum (plane explicit hs hl ecs gc ds spp mid true)) Q x : orthogonal 2 Q ->
  gravity_at e (carry (cfg := plane explicit hs hl ecs gc ds spp mid true) Q ((0, 0) : vec Rnum D2) x) = rotate Q (gravity_at e x).
Proof.
  intros HQ. set (cfg := plane explicit hs hl ecs gc ds spp mid true) in *.
  assert (carry (cfg := cfg) Q ((0, 0) : vec Rnum D2) x = rotate (cfg := cfg) Q x) as ->.
  { unfold carry. change ((0, 0) : vec Rnum D2) with (vzero : vec Rnum (cDim cfg)). apply vadd_0_r. }
  unfold gravity_at. change (cCentral cfg) with true. cbv iota. rewrite (len_rot (cfg := cfg) Q HQ). destruct (Rlt_dec _ _).
  - symmetry. apply rot_zero.
  - symmetry. apply rot_scal.
Qed.

(** ** The theorems *)
Section Scenes.
  Context (explicit hs hl ecs gc ds spp mid : bool) (maxDt courant g rho nu surf ratio c l_0 : R) (minX maxX : vec Rnum D2).
  Context (Hl : 0 < l_0) (Hr : 0 < ratio) (Hc : 0 <= courant).
  Context (sites : list site) (parts : list (particle Rnum D2)) (cond : M_Main.condition (N := Rnum)).
  Notation made central env := (new_env (N := Rnum) (plane explicit hs hl ecs gc ds spp mid central) maxDt courant g rho nu surf ratio c l_0 minX maxX = Some env).
  (** C75.  Uniform gravity: a scene on a lattice that is its own mirror image in a vertical line stays so. *)
  Theorem C75_left_right (m : Z) env s' : made false env -> one_each sites -> Forall2 (stands (N := Rnum) l_0) sites parts ->
    (forall t a b, holds sites t a b -> holds sites t (m - a) b) -> after_some_steps cond env parts s' ->
    looks_the_same (left_right (IZR m * l_0)) (cParts s').
  Proof.
    intros Henv Hone Hparts Hsym Hs.
    pose proof (lattice_kept explicit hs hl ecs gc ds spp mid false maxDt courant g rho nu surf ratio c l_0 minX maxX env Henv Hl Hr Hc sites Hone parts Hparts
      (flip 0) ((IZR m * l_0, 0) : vec Rnum D2) (flip_orthogonal 0)) as HK.
    specialize (HK ltac:(intros e He _ x; unfold gravity_at; cbn [plane cCentral]; rewrite He;
      pose proof (gravity_down _ _ _ _ _ _ _ _ _ _ _ _ _ _ _ _ _ _ _ _ _ Henv) as H0; destruct (eG env) as [gx gz]; cbn in gx, gz, H0; subst gx;
      unfold rotate, flip, sum_n, rsum; cbn; f_equal; ring)).
    specialize (HK (fun x : site => (x.1.1, (m - x.1.2)%Z, x.2))). unfold looks_the_same.
    rewrite (map_ext (left_right (IZR m * l_0)) (carry_part (cfg := plane explicit hs hl ecs gc ds spp mid false) (flip 0) ((IZR m * l_0, 0) : vec Rnum D2)))
      by (intros p; symmetry; apply left_right_carry).
    apply (HK ltac:(intros [[t1 a1] b1] [[t2 a2] b2] [= -> E ->]; repeat f_equal; lia) ltac:(intros [[t a] b] Hx; by apply Hsym)) with (cond := cond); [|done].
    intros [[t a] b]. rewrite left_right_carry. unfold left_right, site_particle. cbn. rewrite minus_IZR. f_equal; f_equal; ring.
  Qed.
  (** C75.  Central gravity: the same for the reflections that keep the origin. *)
  Lemma central_kept env s' Q image tau : made true env -> one_each sites -> Forall2 (stands (N := Rnum) l_0) sites parts -> orthogonal 2 Q ->
    (forall p, carry_part (cfg := plane explicit hs hl ecs gc ds spp mid true) Q ((0, 0) : vec Rnum D2) p = image p) ->
    (forall x y : site, tau x = tau y -> x = y) -> (forall x, x ∈ sites -> tau x ∈ sites) ->
    (forall x, image (site_particle (N := Rnum) l_0 x) = site_particle (N := Rnum) l_0 (tau x)) -> after_some_steps cond env parts s' ->
    looks_the_same image (cParts s').
  Proof.
    intros Henv Hone Hparts HQ Him Hinj Hsites Htau Hs. unfold looks_the_same.
    rewrite (map_ext image (carry_part (cfg := plane explicit hs hl ecs gc ds spp mid true) Q ((0, 0) : vec Rnum D2))) by (intros p; symmetry; apply Him).
    apply (lattice_kept explicit hs hl ecs gc ds spp mid true maxDt courant g rho nu surf ratio c l_0 minX maxX env Henv Hl Hr Hc sites Hone parts Hparts
      Q ((0, 0) : vec Rnum D2) HQ) with (tau := tau) (cond := cond); try done.
    - intros e _ _ x. by apply central_turns.
    - intros x. rewrite Him. apply Htau.
  Qed.
  Theorem C75_central env s' : made true env -> one_each sites -> Forall2 (stands (N := Rnum) l_0) sites parts -> after_some_steps cond env parts s' ->
    ((forall t a b, holds sites t a b -> holds sites t (- a) b) -> looks_the_same (left_right 0) (cParts s')) /\
    ((forall t a b, holds sites t a b -> holds sites t a (- b)) -> looks_the_same upside_down (cParts s')) /\
    ((forall t a b, holds sites t a b -> holds sites t b a) -> looks_the_same diagonal (cParts s')).
  Proof.
    intros Henv Hone Hparts Hs. split; [|split]; intros Hsym.
    - refine (central_kept env s' (flip 0) _ (fun x : site => (x.1.1, (- x.1.2)%Z, x.2)) Henv Hone Hparts (flip_orthogonal 0) _ _ _ _ Hs).
      + intros p. apply left_right_carry.
      + intros [[t1 a1] b1] [[t2 a2] b2] [= -> E ->]. repeat f_equal. lia.
      + intros [[t a] b] Hx. by apply Hsym.
      + intros [[t a] b]. unfold left_right, site_particle. cbn. rewrite opp_IZR. f_equal; f_equal; ring.
    - refine (central_kept env s' (flip 1) _ (fun x : site => (x.1.1, x.1.2, (- x.2)%Z)) Henv Hone Hparts (flip_orthogonal 1) _ _ _ _ Hs).
      + intros p. apply upside_down_carry.
      + intros [[t1 a1] b1] [[t2 a2] b2] [= -> -> E]. repeat f_equal. lia.
      + intros [[t a] b] Hx. by apply Hsym.
      + intros [[t a] b]. unfold upside_down, site_particle. cbn. rewrite opp_IZR. f_equal; f_equal; ring.
    - refine (central_kept env s' cross _ (fun x : site => (x.1.1, x.2, x.1.2)) Henv Hone Hparts cross_orthogonal _ _ _ _ Hs).
      + intros p. apply diagonal_carry.
      + intros [[t1 a1] b1] [[t2 a2] b2] [= -> -> ->]. done.
      + intros [[t a] b] Hx. by apply Hsym.
      + intros [[t a] b]. done.
  Qed.
End Scenes.

(** C75.  What that means for the fluid as a whole: no momentum sideways, and the centre of mass stays in the line. *)
Lemma over_fluid_perm f ps qs : ps ≡ₚ qs -> over_fluid f ps = over_fluid f qs.
Proof. intros H. unfold over_fluid. apply rsum_perm, Permutation_map, filter_perm, H. Qed.
Lemma over_fluid_map f image ps : (forall p, pT (image p) = pT p) -> over_fluid f (map image ps) = over_fluid (fun p => f (image p)) ps.
Proof.
  intros HT. unfold over_fluid. rewrite (filter_map_eq (fun p : particle Rnum D2 => pT p = Newton) (fun p : particle Rnum D2 => pT p = Newton) image), map_map; [done|].
  intros p _. by rewrite HT.
Qed.
Lemma over_fluid_add f f' ps : over_fluid (fun p => f p + f' p) ps = over_fluid f ps + over_fluid f' ps.
Proof. unfold over_fluid. induction (filter _ ps) as [|p l IH]; cbn in *; [lra|]. unfold rsum in *. cbn. rewrite IH. ring. Qed.
Theorem C75_balance c ps : looks_the_same (left_right c) ps ->
  over_fluid (fun p => coord (pU p) 0) ps = 0 /\ over_fluid (fun p => coord (pX p) 0 - c / 2) ps = 0.
Proof.
  intros H. unfold looks_the_same in H.
  assert (forall f : particle Rnum D2 -> R, (forall p, f (left_right c p) = - f p) -> over_fluid f ps = 0) as HZ.
  { intros f Hf. pose proof (over_fluid_perm f _ _ H) as E. rewrite over_fluid_map in E by done.
    assert (over_fluid (fun p => f (left_right c p) + f p) ps = 0) as E0.
    { unfold over_fluid. induction (filter _ ps) as [|p l IH]; [done|]. unfold rsum in *. cbn. rewrite Hf, IH. ring. }
    rewrite over_fluid_add in E0. lra. }
  split; apply HZ; intros p; cbn; field.
Qed.

(** ** The benchmark scenes *)
Lemma static_mirrors w h t a b : static_shape w h t a b -> static_shape w h t (w - 1 - a) b.
Proof. unfold static_shape, water, inner_wall, behind_wall. intros H. destruct H as [[-> H]|[[-> H]|[-> H]]]; [left|right; left|right; right]; (split; [done|lia]). Qed.
(** C75.  The static scene stays its own mirror image, and the fluid as a whole neither moves nor drifts sideways. *)
Theorem C75_static explicit hs hl ecs gc ds spp mid (maxDt courant g rho nu surf ratio c l_0 : R) w h cond env s' :
  let sc := static_pressure (N := Rnum) l_0 w h in
  new_env (N := Rnum) (plane explicit hs hl ecs gc ds spp mid false) maxDt courant g rho nu surf ratio c l_0 (scMin sc) (scMax sc) = Some env ->
  0 < l_0 -> 0 < ratio -> 0 <= courant -> (0 <= w)%Z -> (0 <= h)%Z -> after_some_steps cond env (scParts sc) s' ->
  looks_the_same (left_right ((IZR w - 1) * l_0)) (cParts s') /\
  over_fluid (fun p => coord (pU p) 0) (cParts s') = 0 /\ over_fluid (fun p => coord (pX p) 0 - (IZR w - 1) * l_0 / 2) (cParts s') = 0.
Proof.
  intros sc Henv Hl Hr Hc Hw Hh Hs. enough (looks_the_same (left_right ((IZR w - 1) * l_0)) (cParts s')) as HL by (split; [done|by apply C75_balance]). destruct (C73_static (N := Rnum) l_0 w h Hw Hh) as (sites & HF & Hone & Hsh).
  rewrite <- minus_IZR. eapply (C75_left_right explicit hs hl ecs gc ds spp mid maxDt courant g rho nu surf ratio c l_0 _ _ Hl Hr Hc sites _ cond (w - 1) env s' Henv Hone HF); [|done].
  intros t a b H. apply Hsh. apply Hsh in H. by apply static_mirrors.
Qed.
Theorem C75_central_scene explicit hs hl ecs gc ds spp mid (maxDt courant g rho nu surf ratio c l_0 : R) w h areaSize cond env s' :
  let sc := central_gravity (N := Rnum) l_0 w h areaSize in
  new_env (N := Rnum) (plane explicit hs hl ecs gc ds spp mid true) maxDt courant g rho nu surf ratio c l_0 (scMin sc) (scMax sc) = Some env ->
  0 < l_0 -> 0 < ratio -> 0 <= courant -> after_some_steps cond env (scParts sc) s' ->
  looks_the_same (left_right 0) (cParts s') /\ looks_the_same upside_down (cParts s') /\ (w = h -> looks_the_same diagonal (cParts s')).
Proof.
  intros sc Henv Hl Hr Hc Hs. destruct (C73_central (N := Rnum) l_0 w h areaSize) as (sites & HF & Hone & Hsh).
  destruct (C75_central explicit hs hl ecs gc ds spp mid maxDt courant g rho nu surf ratio c l_0 _ _ Hl Hr Hc sites _ cond env s' Henv Hone HF Hs) as (H1 & H2 & H3).
  split; [|split].
  - apply H1. intros t a b H. apply Hsh. apply Hsh in H. unfold block_shape in *. split; [tauto|lia].
  - apply H2. intros t a b H. apply Hsh. apply Hsh in H. unfold block_shape in *. split; [tauto|lia].
  - intros ->. apply H3. intros t a b H. apply Hsh. apply Hsh in H. unfold block_shape in *. split; [tauto|lia].
Qed.

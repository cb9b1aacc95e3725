(** Property theorems: check_result.py on the scene it is made for (C81). *)
From Verif Require Import S_Terms.
From Verif Require Import S_Frame S_Outcome S_Bench S_Mirror P_Real P_Lattice T_Env T_Life T_Rest T_Bench S_Script T_Script S_Central T_Central M_Post T_Post.
Open Scope R_scope.

(** The central-gravity scene of its generator, in a build with virtual surface particles (the default): the settings file is loaded, the first step
    succeeds, and check_result.py cannot find a surface in a file with the particles after this step. *)
Theorem C81_refuted_central hs hl ecs gc ds mid (py_str : Rnum -> text) (parse_num parse_attr : text -> option Rnum) pad (st : settings Rnum) w h areaSize :
  let sc := central_gravity (stL0 st) w h areaSize in let cfg := plane false hs hl ecs gc ds true mid true in
  script_settings st -> read_as_written py_str parse_num parse_attr st sc ->
  (1 <= w)%Z -> (0 <= h)%Z -> (1 <= areaSize)%Z -> (areaSize * w <= 5 * 10 ^ 8)%Z -> (areaSize * h <= 5 * 10 ^ 8)%Z ->
  exists cond env, load_all cfg parse_num parse_attr (script_tree py_str pad st sc) = Loaded (cond, env, scParts sc) /\
  exists s s' : computer cfg (fixed_walls cfg (map pX (scParts sc))), initial cond env (scParts sc) s /\ forward s = Done s' /\
  forall (print_num : Rnum -> text) (py_float : text -> option Rnum) (shown : R -> R) (beta : R),
    (forall p v, p ∈ cParts s' -> value_of p v -> plain (print_num v) /\ py_float (print_num v) = Some (shown v)) ->
    (forall p, p ∈ cParts s' -> Rabs (shown (pN p) - pN p) <= / 10 ^ 5 * Rabs (pN p)) -> beta <= 1 - / 10 ^ 5 ->
    py_surface py_float (stRatio st) beta (write_csv print_num (cParts s')) = None.
Proof.
  intros sc cfg Hst (HA & HC & H0) Hw Hh Ha Haw Hah. pose proof Hst as [(Ec & Er & HI & Hg & Hl) HS].
  destruct (C74_loads (N := Rnum) py_str parse_num parse_attr hs hl ecs gc ds true mid true pad st sc (stL0 st) (block_shape w h) HA HC H0 ltac:(apply C73_central)) as (env & Henv & HLd); [|lia|].
  { rewrite Er. exists 3%Z. split; [|lia]. cbn. unfold to_index. replace (Zceil (24 / 10)) with 3%Z; [done|]. symmetry. apply Zceil_imp. change (2 < 24 / 10 <= 3)%R. split; lra. }
  eexists _, env. split; [exact HLd|]. pose proof Henv as Henv0. rewrite Ec, Er in Henv.
  match goal with |- context [initial ?c env _ _] => assert (one_step_succeeds c env (scParts sc)) as (s & s' & Hi & Hf & _ & HT) end.
  { eapply C73_central_runs; [exact Henv| |done|done|done|done|done|done|done]. apply Rdiv_lt_0_compat; [done|]. apply IZR_lt. lia. }
  exists s, s'. split; [exact Hi|]. split; [exact Hf|]. intros print_num py_float shown beta Hv Hsh Hb.
  destruct (initial_reachable _ _ _ _ Hi) as [Hr Hp].
  unfold forward in Hf. destruct (determine_dt s) as [dt|]; [|discriminate].
  assert (0 < stL0 st) as Hl0. { assert (0 < / 10 ^ 12) by (apply Rinv_0_lt_compat; lra). lra. }
  refine (C81_refuted_surface (cfg := cfg) print_num py_float shown _ _ _ _ _ _ _ _ _ beta _ _ env dt s s' eq_refl eq_refl Henv0 Hl0 Hr Hf _ Hv Hsh Hb).
  intros p Hin. apply elem_of_list_lookup in Hin as [i Hi']. destruct (Forall2_lookup_r _ _ _ _ _ HT Hi') as (p0 & Hp0 & Ht).
  destruct (C73_central (N := Rnum) (stL0 st) w h areaSize) as (sites & HF & _ & Hsh'). fold sc in HF.
  destruct (Forall2_lookup_r _ _ _ _ _ HF Hp0) as ([[t a] b] & Hs & (Et & _)). cbn in Et.
  destruct (proj1 (Hsh' t a b)) as [-> _]; [by eapply elem_of_list_lookup_2|].
  split; intros E; discriminate (eq_trans (eq_sym E) (eq_trans Ht Et)).
Qed.

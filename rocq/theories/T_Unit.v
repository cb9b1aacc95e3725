(** Property theorems: with virtual surface particles the unit of length matters (C77, binary64). *)
From Verif Require Import M_NumF M_Main P_Neigh T_Env T_Life S_Outcome T_Binary64.

(** The environment, with lengths in a unit of which [m] make up the old one. *)
Definition env_with (m : F64num) : option (environment F64num default_config) :=
  new_env default_config (q 1 10) (q 1 2) (m ×. q 10 1) (q 1000 1) (m ×. m ×. q 1 1000000) (q 95 100) (q 2 1) (m ×. q 1 1) (m ×. q 1 4)
    (m ×. q (-4) 1, m ×. q (-4) 1) (m ×. q 2 1, m ×. q 2 1).
Definition part_with (m : F64num) (p : fpart) : fpart :=
  mkParticle (N := F64num) (d := D2) (m ×. (pX p).1, m ×. (pX p).2) (m ×. (pU p).1, m ×. (pU p).2) (m ×. m ×. pP p) (pN p) (pT p).
(** Two particles approaching each other, a third at some distance. *)
Definition three : list fpart :=
  [fluid_at (q 0 1) (q 0 1) (q 1 1) (q 0 1); fluid_at (q 1 16) (q 0 1) (nopp (q 1 1)) (q 0 1); fluid_at (q 5 16) (q 0 1) (q 0 1) (q 0 1)].
Definition started (m : F64num) : option (fcomputer []) :=
  match env_with m with
  | None => None
  | Some e => match new_computer default_config (wall_of []) (q 1 1000000) e tt with
              | None => None
              | Some s => api_run [AddParticles default_config (map (part_with m) three)] s
              end
  end.
Lemma started_reachable m s : started m = Some s -> exists e, env_with m = Some e /\ reachable e s.
Proof.
  unfold started. generalize (q 1 1000000) as eps. generalize (map (part_with m) three) as ps. generalize (env_with m) as o. intros [e|] ps eps H; [|done].
  destruct (new_computer _ _ eps e _) as [s0|] eqn:E0; [|done].
  exists e. split; [done|]. eapply api_run_reachable; [|exact H]. by eapply reach_new.
Qed.
Definition ended (o : outcome (fcomputer [])) : option (option exn) :=
  match o with Done _ => Some None | Throw e _ => Some (Some e) | Undef => None end.
Definition end_with (m : F64num) : option (option exn) :=
  match started m with Some s => ended (forward_dt (q 1 1000) s) | None => None end.
Lemma end_seen m v : end_with m = Some v -> exists e s, env_with m = Some e /\ reachable e s /\ started m = Some s /\ ended (forward_dt (q 1 1000) s) = Some v.
Proof.
  unfold end_with. pose proof (started_reachable m) as HR. revert HR. generalize (q 1 1000) as dt. generalize (started m) as o. generalize (env_with m) as oe.
  intros oe [s|] dt HR H; [|by inversion H]. destruct (HR s eq_refl) as (e & He & Hr). exists e, s. split; [exact He|]. split; [exact Hr|]. split; [reflexivity|exact H].
Qed.
Definition shown (m : F64num) : option (list fpart) := match started m with Some s => Some (cParts s) | None => None end.
Lemma shown_parts m ps s : shown m = Some ps -> started m = Some s -> cParts s = ps.
Proof. unfold shown. generalize (started m) as o. intros o H ->. by apply (inj Some) in H. Qed.

Definition one : F64num := q 1 1.
Definition small : F64num := q 1 (2 ^ 60).
Definition scaled_three (m : F64num) : list fpart := map (part_with m) three.
Lemma end_one : end_with one = Some None. Proof. vm_cast_no_check (@eq_refl _ (Some (@None exn))). Qed.
Lemma end_small : end_with small = Some (Some CgNotConverged). Proof. vm_cast_no_check (@eq_refl _ (Some (Some CgNotConverged))). Qed.
Lemma shown_one : shown one = Some three. Proof. vm_cast_no_check (@eq_refl _ (Some three)). Qed.
Lemma shown_small : shown small = Some (map (part_with small) three). Proof. vm_cast_no_check (@eq_refl _ (Some (map (part_with small) three))). Qed.

(** The same three particles in the same surroundings, once with lengths in a unit 2^60 times as large (multiplying
    by 2^-60 is exact): in one case ForwardTime(1/1000) returns, in the other the pressure equation is unsolvable
    and it throws. *)
Theorem C77_refuted_length : exists (e e' : environment F64num default_config) (s s' : fcomputer []),
  env_with one = Some e /\ env_with small = Some e' /\ reachable e s /\ reachable e' s' /\
  cParts s = three /\ cParts s' = map (part_with small) three /\
  (exists t, forward_dt (q 1 1000) s = Done t) /\ (exists t, forward_dt (q 1 1000) s' = Throw CgNotConverged t).
Proof.
  destruct (end_seen _ _ end_one) as (e & s & He & Hr & Hs & H). destruct (end_seen _ _ end_small) as (e' & s' & He' & Hr' & Hs' & H').
  pose proof (shown_parts _ _ s shown_one Hs) as HP. pose proof (shown_parts _ _ s' shown_small Hs') as HP'.
  exists e, e', s, s'. split; [exact He|]. split; [exact He'|]. split; [exact Hr|]. split; [exact Hr'|]. split; [exact HP|]. split; [exact HP'|].
  revert H H'. clear. generalize (q 1 1000) as dt. intros dt H H'. split.
  - destruct (forward_dt dt s) as [t|e t|]; [by exists t|by inversion H|by inversion H].
  - destruct (forward_dt dt s') as [t|x t|]; [by inversion H'|exists t; by injection H' as ->|by inversion H'].
Qed.

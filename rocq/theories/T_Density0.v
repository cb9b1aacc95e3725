(** Property theorems: the number densities in the particle table do not matter (C88). *)
From Coq Require Import String Ascii.
From Verif Require Import P_Sim P_Reach S_Blind S_Main S_App T_Obs T_Blind.
From stdpp Require Import list.

Section Main.
  Context {N : num} {cfg : config}.
  Notation part := (particle N (cDim cfg)).
  Lemma but_count (ps ps' : list part) : Forall2 but_density ps ps' -> output_count ps' = output_count ps.
  Proof.
    unfold output_count. generalize 0%nat as n. intros n H. revert n. induction H as [|p p' ps ps' Hp _ IH]; intros n; cbn [foldl]; [done|].
    destruct Hp as (_ & _ & -> & _). apply IH.
  Qed.
  Section Loop.
    Context (env0 : environment N cfg) (Hsq : square_ground env0) (init : list (vec N (cDim cfg))).
    Notation computer := (computer cfg (fixed_walls cfg init)).
    Implicit Types s t : computer.
    Definition related (iter : nat) s s' : Prop := reachable env0 s /\ reachable env0 s' /\ same_but_density s s' /\ (iter <> 0%nat -> alike true s s').
    Lemma until_blind target fuel : forall s s' iter, related iter s s' ->
      match until fuel target s iter, until fuel target s' iter with
      | Some (Done t, x, n), Some (Done t', x', n') => x' = x /\ n' = n /\ related n t t'
      | Some (Throw e _, x, n), Some (Throw e' _, x', n') => e' = e /\ x' = x /\ n' = n
      | Some (Undef, x, n), Some (Undef, x', n') => x' = x /\ n' = n
      | None, None => True
      | _, _ => False
      end.
    Proof.
      induction fuel as [|fuel IH]; intros s s' iter (Hr & Hr' & HB & HA); cbn [until]; [done|]. rewrite (sb_env _ _ HB).
      destruct (_ <?. _); [|done]. pose proof (C88_call env0 (ForwardTime cfg) s s' Hsq Hr Hr' HB ltac:(done)) as HC. cbn [api_step] in HC.
      destruct (forward s) as [t|e t|] eqn:E, (forward s') as [t'|e' t'|] eqn:E'; cbn [same_kind] in HC; try done.
      - apply IH. destruct HC as [H1 H2]. split; [by apply (reach_done env0 (ForwardTime cfg) s)|]. split; [by apply (reach_done env0 (ForwardTime cfg) s')|]. done.
      - by destruct HC as [<- _].
    Qed.
    Lemma loop_blind fuel cond todo : forall number next s s' iter outs e, related iter s s' -> main_loop fuel cond todo number next s iter = Some (outs, e) ->
      exists outs', main_loop fuel cond todo number next s' iter = Some (outs', e) /\ Forall2 same_output outs outs'.
    Proof.
      induction todo as [|todo IH]; intros number next s s' iter outs e HR H; cbn [main_loop] in *; [injection H as <- <-; by exists []|].
      pose proof (until_blind (next +. coInterval cond) fuel s s' iter HR) as HU.
      destruct (until _ _ s iter) as [[[[t|ex t|] x] n]|], (until _ _ s' iter) as [[[[t'|ex' t'|] x'] n']|]; try done.
      - destruct HU as (-> & -> & HR'). destruct (main_loop fuel cond todo _ _ t n) as [[outs0 e0]|] eqn:EL; [|done]. injection H as <- <-.
        destruct (IH _ _ t t' n outs0 e0 HR' EL) as (outs' & -> & HF). eexists. split; [reflexivity|]. constructor; [|done].
        destruct HR' as (_ & _ & HB & HA). split; [done|]. split; [done|]. split; [done|]. split; [apply but_count, HB|]. split; [apply HB|]. intros Hn. by apply HA.
      - destruct HU as (-> & -> & ->). destruct ex; injection H as <- <-; by exists [].
      - destruct HU as (-> & ->). injection H as <- <-. by exists [].
    Qed.
  End Loop.
  (** C88.  The whole program: the number densities in the particle table (of particles that are not dummies) and the pressures of particles out of use have no influence on what happens. *)
  Theorem C88_program fuel cond env (ps ps' : list part) outs e : square_ground env -> Forall2 but_density ps ps' ->
    main_program fuel cond env ps = Some (outs, e) -> exists outs', main_program fuel cond env ps' = Some (outs', e) /\ Forall2 same_output outs outs'.
  Proof.
    intros Hsq HP H. unfold main_program in *. assert (map pX ps' = map pX ps) as ->.
    { clear H. induction HP as [|p p' l l' Hp _ IH]; [done|]. cbn [map]. destruct Hp as (-> & _). by rewrite IH. }
    destruct (new_computer _ _ _ _ _) as [s0|] eqn:E0; [|injection H as <- <-; by exists []].
    destruct (ceil_size (coStart cond /. coInterval cond)) as [off|]; [|injection H as <- <-; by exists []].
    assert (cParts s0 = []) as EP. { unfold new_computer in E0. destruct (new_grid _ _ _ _ _); [|done]. by injection E0 as <-. }
    assert (same_but_density (add_particles ps s0) (add_particles ps' s0)) as HB.
    { split; try done. cbn [add_particles cParts]. by rewrite EP. }
    assert (same_output (mkOutput cfg off (coStart cond) 0 (cParts (add_particles ps s0)) (output_count (cParts (add_particles ps s0))))
                        (mkOutput cfg off (coStart cond) 0 (cParts (add_particles ps' s0)) (output_count (cParts (add_particles ps' s0))))) as HO.
    { split; [done|]. split; [done|]. split; [done|]. split; [apply but_count, HB|]. split; [apply HB|]. done. }
    destruct (ceil_size ((coEnd cond -. coStart cond) /. coInterval cond)) as [cnt|].
    2:{ injection H as <- <-. eexists. split; [reflexivity|]. constructor; [exact HO|constructor]. }
    destruct (main_loop _ _ _ _ _ (add_particles ps s0) _) as [[outs0 e0]|] eqn:EL; [|done]. injection H as <- <-.
    destruct (loop_blind env Hsq (map pX ps) fuel cond (Z.to_nat cnt) (off + 1)%Z (nofZ 0) (add_particles ps s0) (add_particles ps' s0) 0 outs0 e0) as (outs' & -> & HF); [|done|].
    - split; [|split; [|done]]; (eapply (reach_done env (AddParticles cfg _)); [by eapply reach_new|done]).
    - eexists. split; [reflexivity|]. by constructor.
  Qed.
End Main.
Section Settings.
  Context {N : num} (cfg : config) (print_num : N -> text) (parse_num parse_attr : text -> option N).
  Local Strategy expand [load_condition load_env load_particles load_all].
  Notation application := (application cfg print_num parse_num parse_attr).
  Notation load_all := (load_all cfg parse_num parse_attr).
  (** C88.  Two settings files that differ only in these numbers: files with the same names, the same ending, the same particles but for the densities. *)
  Theorem C88_files fuel xml xml' files e cond env ps ps' : square_ground env -> load_all xml = Loaded (cond, env, ps) -> load_all xml' = Loaded (cond, env, ps') ->
    Forall2 but_density ps ps' -> application fuel xml = Some (files, e) ->
    exists files', application fuel xml' = Some (files', e) /\
      Forall2 (fun f f' => f'.1 = f.1 /\ exists qs qs' : list (particle N (cDim cfg)), f.2 = write_csv print_num qs /\ f'.2 = write_csv print_num qs' /\ Forall2 (but_density (cfg := cfg)) qs qs') files files'.
  Proof.
    intros Hsq HL HL' HP. unfold M_App.application. rewrite HL, HL'. destruct (main_program fuel cond env ps) as [[outs e0]|] eqn:EM; [|done]. intros [= <- <-].
    destruct (C88_program fuel cond env ps ps' outs e0 Hsq HP EM) as (outs' & -> & HF). eexists. split; [reflexivity|]. apply Forall2_fmap_2. eapply Forall2_impl; [exact HF|].
    intros o o' (H1 & _ & _ & _ & H2 & _). unfold output_file. cbn [fst snd]. rewrite H1. split; [done|]. eauto.
  Qed.
End Settings.

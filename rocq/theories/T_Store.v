(** Property theorems: concurrent calls of Store (C40).  Any arithmetic, both dimensions. *)
From Verif Require Import S_Par P_Grid T_Grid.

Section Store.
  Context {N : num} {d : dim} (calls : list (vec N d * nat)) (g0 : grid N d) (Hg0 : grid_wf g0).
  Notation grid := (grid N d).
  Implicit Types (g : grid) (t : list call).

  Definition geom (g g' : grid) : Prop :=
    g_len d g' = g_len d g /\ g_origin d g' = g_origin d g /\ g_shape d g' = g_shape d g /\ g_cap d g' = g_cap d g.
  Lemma geom_block g g' x : geom g g' -> block_of d g' x = block_of d g x.
  Proof.
    intros (H1 & H2 & H3 & H4). unfold block_of. apply mapM_ext. intros k. unfold block_axis. by rewrite H1, H2.
  Qed.
  Definition cnt0 (b : list Z) : nat := match g_data d g0 !! b with Some c => c_cnt c | None => 0 end.
  Definition slots0 (b : list Z) : list nat := match g_data d g0 !! b with Some c => c_slots c | None => [] end.
  Definition goes (k : nat) (b : list Z) : Prop :=
    exists x id, calls !! k = Some (x, id) /\ block_of d g0 x = Some b.

  Lemma goes_fun k b b' : goes k b -> goes k b' -> b = b'.
  Proof. intros (x & id & H1 & H2) (x' & id' & H1' & H2'). congruence. Qed.

  Record sinv (log : list Z -> list nat) (t : list call) (g : grid) : Prop := {
    si_len : length t = length calls;
    si_geom : geom g0 g;
    si_wf : grid_wf g;
    si_cnt : forall b c, g_data d g !! b = Some c -> c_cnt c = (cnt0 b + length (log b))%nat;
    si_old : forall b c m, g_data d g !! b = Some c -> (m < cnt0 b)%nat -> c_slots c !! m = slots0 b !! m;
    si_log : forall b c m k, g_data d g !! b = Some c -> log b !! m = Some k ->
      t !! k = Some (Drawn b (cnt0 b + m)) \/
      (t !! k = Some Accepted /\ (cnt0 b + m < g_cap d g0)%nat /\ c_slots c !! (cnt0 b + m)%nat = Some (particle_of calls k)) \/
      (t !! k = Some Thrown /\ (g_cap d g0 <= cnt0 b + m)%nat);
    si_nd : forall b, NoDup (log b);
    si_in : forall b k, k ∈ log b <-> goes k b /\ in_range (g_shape d g0) b = true /\ t !! k <> Some Begin;
    si_refused : forall k, t !! k = Some Refused -> exists b, goes k b /\ in_range (g_shape d g0) b = false;
    si_drawn : forall k b l, t !! k = Some (Drawn b l) -> goes k b /\ in_range (g_shape d g0) b = true;
    si_other : forall k, t !! k = Some Accepted \/ t !! k = Some Thrown -> exists b, goes k b /\ in_range (g_shape d g0) b = true;
  }.

  Lemma sinv_init : sinv (fun _ => []) (replicate (length calls) Begin) g0.
  Proof.
    split; try done.
    - by rewrite replicate_length.
    - intros b c H. unfold cnt0. rewrite H. simpl. lia.
    - intros b c m H _. unfold slots0. by rewrite H.
    - intros b. constructor.
    - intros b k. split; [intros H; by apply elem_of_nil in H|]. intros ((x & id & Hk & _) & _ & Ht).
      exfalso. apply Ht. apply lookup_replicate. split; [done|]. by eapply lookup_lt_Some.
    - intros k. rewrite lookup_replicate. by intros [? _].
    - intros k b l. rewrite lookup_replicate. by intros [? _].
    - intros k. rewrite !lookup_replicate. by intros [[? _]|[? _]].
  Qed.

  Lemma geom_set g m : geom g0 g -> geom g0 (set_data d g m).
  Proof. by intros (?&?&?&?). Qed.

  Lemma set_cell_wf g b c c' : grid_wf g -> g_data d g !! b = Some c -> length (c_slots c') = length (c_slots c) ->
    grid_wf (set_data d g (<[b := c']> (g_data d g))).
  Proof.
    intros Hg Hc Hl. pose proof (gw_slots g Hg _ _ Hc) as Hlen.
    apply set_data_wf; [done| |].
    - intros k. destruct (decide (b = k)) as [<-|Hne]; [rewrite lookup_insert, Hc; split; by eexists|].
      by rewrite lookup_insert_ne.
    - intros k c2. destruct (decide (b = k)) as [<-|Hne]; [rewrite lookup_insert; intros [= <-]; lia|].
      rewrite lookup_insert_ne by done. apply Hg.
  Qed.

  Ltac upd k j Hj :=
    destruct (decide (k = j)) as [<-|];
    [rewrite list_lookup_insert in Hj by (by eapply lookup_lt_Some)|rewrite list_lookup_insert_ne in Hj by done].

  Lemma sinv_step log t g t' g' :
    sinv log t g -> store_step calls (t, g) (t', g') -> exists log', sinv log' t' g'.
  Proof.
    intros [Hlen Hgeom Hwf Hcnt Hold Hlog Hnd Hin Href Hdr Hoth] Hstep.
    pose proof Hgeom as (_ & _ & Hsh & Hcap).
    inversion Hstep as [t1 g1 k x id b Hk Hcall Hb Hr|t1 g1 k x id b c Hk Hcall Hb Hr Hc|t1 g1 k b l Hk Hl|
                        t1 g1 k x id b l c Hk Hcall Hl Hc Hls]; subst; clear Hstep.
    - (* refuse *)
      exists log. rewrite (geom_block g0) in Hb by done. rewrite Hsh in Hr.
      assert (goes k b) as Hgo by (exists x, id; done).
      split; try done.
      + by rewrite insert_length.
      + intros b1 c m j Hc Hm. assert (k <> j) as Hne.
        { intros <-. assert (k ∈ log b1) as Hj by (apply elem_of_list_lookup; eauto). apply Hin in Hj as (_ & _ & Hj). congruence. }
        rewrite list_lookup_insert_ne by done. by apply Hlog.
      + intros b1 j. rewrite Hin. destruct (decide (k = j)) as [<-|Hne]; [|by rewrite list_lookup_insert_ne].
        rewrite list_lookup_insert by (by eapply lookup_lt_Some).
        split; [intros (_ & _ & Hj); congruence|]. intros (Hg1 & Hr1 & _).
        rewrite (goes_fun k b1 b) in Hr1 by done. congruence.
      + intros j Hj. upd k j Hj; eauto.
      + intros j b1 l Hj. upd k j Hj; [done|eauto].
      + intros j Hj. destruct (decide (k = j)) as [<-|Hne].
        * rewrite list_lookup_insert in Hj by (by eapply lookup_lt_Some). by destruct Hj.
        * rewrite list_lookup_insert_ne in Hj by done. eauto.
    - (* draw *)
      rewrite (geom_block g0) in Hb by done. rewrite Hsh in Hr.
      assert (goes k b) as Hgo by (exists x, id; done).
      assert (forall b1, k ∉ log b1) as Hfresh.
      { intros b1 Hj. apply Hin in Hj as (_ & _ & Hj). congruence. }
      exists (fun b1 => if decide (b1 = b) then log b ++ [k] else log b1).
      split; try done.
      + by rewrite insert_length.
      + by eapply set_cell_wf.
      + intros b1 c1. simpl. destruct (decide (b1 = b)) as [->|Hne].
        * rewrite lookup_insert. intros [= <-]. simpl. rewrite app_length. simpl. rewrite (Hcnt _ _ Hc). lia.
        * rewrite lookup_insert_ne by done. apply Hcnt.
      + intros b1 c1 m. simpl. destruct (decide (b1 = b)) as [->|Hne].
        * rewrite lookup_insert. intros [= <-]. simpl. by apply Hold.
        * rewrite lookup_insert_ne by done. apply Hold.
      + intros b1 c1 m j. simpl. destruct (decide (b1 = b)) as [->|Hne].
        * rewrite lookup_insert. intros [= <-]. simpl. intros Hm.
          apply lookup_app_Some in Hm as [Hm|[Hge Hm]].
          -- assert (k <> j) as Hne by (intros <-; apply (Hfresh b); apply elem_of_list_lookup; eauto).
             rewrite list_lookup_insert_ne by done. by apply Hlog.
          -- apply list_lookup_singleton_Some in Hm as [Hm <-]. left.
             rewrite list_lookup_insert by (by eapply lookup_lt_Some). rewrite (Hcnt _ _ Hc). do 2 f_equal. lia.
        * rewrite lookup_insert_ne by done. intros Hc1 Hm.
          assert (k <> j) as Hne' by (intros <-; apply (Hfresh b1); apply elem_of_list_lookup; eauto).
          rewrite list_lookup_insert_ne by done. by apply Hlog.
      + intros b1. destruct (decide (b1 = b)) as [->|Hne]; [|done]. apply NoDup_app. split; [done|].
        split; [|apply NoDup_singleton]. intros j Hj ->%elem_of_list_singleton. by apply (Hfresh b).
      + intros b1 j. destruct (decide (k = j)) as [<-|Hne].
        * rewrite list_lookup_insert by (by eapply lookup_lt_Some).
          destruct (decide (b1 = b)) as [->|Hnb].
          -- split; [intros _; done|]. intros _. apply elem_of_app. right. by apply elem_of_list_singleton.
          -- split; [intros Hj; by apply Hfresh in Hj|]. intros (Hg1 & _). exfalso. apply Hnb. by eapply goes_fun.
        * rewrite list_lookup_insert_ne by done. rewrite <- Hin.
          destruct (decide (b1 = b)) as [->|Hnb]; [|done]. rewrite elem_of_app, elem_of_list_singleton. naive_solver.
      + intros j Hj. upd k j Hj; [done|eauto].
      + intros j b1 l Hj. upd k j Hj; [|eauto]. injection Hj as <- <-. done.
      + intros j Hj. destruct (decide (k = j)) as [<-|Hne].
        * rewrite list_lookup_insert in Hj by (by eapply lookup_lt_Some). by destruct Hj.
        * rewrite list_lookup_insert_ne in Hj by done. eauto.
    - (* throw *)
      destruct (Hdr k b l Hk) as [Hgo Hr].
      exists log. split; try done.
      + by rewrite insert_length.
      + intros b1 c m j Hc Hm. destruct (decide (k = j)) as [<-|Hne].
        * rewrite list_lookup_insert by (by eapply lookup_lt_Some). right. right. split; [done|].
          destruct (Hlog b1 c m k Hc Hm) as [H|[[H _]|[H _]]]; [|congruence|congruence].
          rewrite Hk in H. injection H as <- ->. lia.
        * rewrite list_lookup_insert_ne by done. by apply Hlog.
      + intros b1 j. rewrite Hin. destruct (decide (k = j)) as [<-|Hne]; [|by rewrite list_lookup_insert_ne].
        rewrite list_lookup_insert by (by eapply lookup_lt_Some). rewrite Hk. naive_solver.
      + intros j Hj. upd k j Hj; [done|eauto].
      + intros j b1 l1 Hj. upd k j Hj; [done|eauto].
      + intros j Hj. destruct (decide (k = j)) as [<-|Hne]; [eauto|].
        rewrite list_lookup_insert_ne in Hj by done. eauto.
    - (* put *)
      destruct (Hdr k b l Hk) as [Hgo Hr].
      assert (k ∈ log b) as Hkl by (apply Hin; rewrite Hk; done).
      apply elem_of_list_lookup in Hkl as [m Hm].
      assert (l = cnt0 b + m)%nat as ->.
      { destruct (Hlog b c m k Hc Hm) as [H|[[H _]|[H _]]]; congruence. }
      assert (particle_of calls k = id) as Hid by (unfold particle_of; by rewrite Hcall).
      exists log. split; try done.
      + by rewrite insert_length.
      + eapply set_cell_wf; [done|done|]. simpl. by rewrite insert_length.
      + intros b1 c1. simpl. destruct (decide (b1 = b)) as [->|Hne].
        * rewrite lookup_insert. intros [= <-]. simpl. by apply Hcnt.
        * rewrite lookup_insert_ne by done. apply Hcnt.
      + intros b1 c1 m1. simpl. destruct (decide (b1 = b)) as [->|Hne].
        * rewrite lookup_insert. intros [= <-] Hm1. simpl. rewrite list_lookup_insert_ne by lia. by apply Hold.
        * rewrite lookup_insert_ne by done. apply Hold.
      + intros b1 c1 m1 j. simpl. destruct (decide (b1 = b)) as [->|Hne].
        * rewrite lookup_insert. intros [= <-] Hm1. simpl.
          destruct (decide (k = j)) as [<-|Hnj].
          -- assert (m1 = m) as -> by (eapply NoDup_lookup; [apply (Hnd b)|done|done]).
             rewrite !list_lookup_insert by (done || by eapply lookup_lt_Some). right. left. rewrite Hid. split; [done|]. split; [lia|done].
          -- rewrite list_lookup_insert_ne by done.
             assert (m <> m1) as Hmm by (intros <-; congruence).
             rewrite list_lookup_insert_ne by lia. by apply Hlog.
        * rewrite lookup_insert_ne by done. intros Hc1 Hm1.
          assert (k <> j) as Hnj.
          { intros <-. apply Hne. assert (k ∈ log b1) as Hj by (apply elem_of_list_lookup; eauto).
            apply Hin in Hj as (Hj & _). by eapply goes_fun. }
          rewrite list_lookup_insert_ne by done. by apply Hlog.
      + intros b1 j. rewrite Hin. destruct (decide (k = j)) as [<-|Hne]; [|by rewrite list_lookup_insert_ne].
        rewrite list_lookup_insert by (by eapply lookup_lt_Some). rewrite Hk. naive_solver.
      + intros j Hj. upd k j Hj; [done|eauto].
      + intros j b1 l1 Hj. upd k j Hj; [done|eauto].
      + intros j Hj. destruct (decide (k = j)) as [<-|Hne]; [eauto|].
        rewrite list_lookup_insert_ne in Hj by done. eauto.
  Qed.

  Lemma sinv_reach t g : under_way calls g0 t g -> exists log, sinv log t g.
  Proof.
    intros H. change ((fun c : list call * grid => exists log, sinv log c.1 c.2) (t, g)).
    refine (rtc_ind_r _ _ _ _ _ H); [eexists; apply sinv_init|].
    intros [t1 g1] [t2 g2] _ Hs [log Hl]. simpl in *. by eapply sinv_step.
  Qed.

  Lemma goes_aims b k : goes k b <-> aims calls g0 b k.
  Proof.
    unfold goes, aims. split; intros (x & id & H1 & H2); exists x, id; split; try done; by apply lies_in_block.
  Qed.
  Lemma goes_inside b k : goes k b -> inside g0 b <-> in_range (g_shape d g0) b = true.
  Proof. intros (x & id & _ & H). apply inside_range; [done|]. by eapply block_length. Qed.
End Store.

Section Theorems.
  Context {N : num} {d : dim} (calls : list (vec N d * nat)).
  Notation grid := (grid N d).
  Implicit Types (g : grid) (t : list call).

  (** C40.  However the actions of the concurrent calls are interleaved: calls for particles outside
      the grid are refused.  In each block [b] those that come first fill the free places in the order
      in which they come; each block holds in the end what it held before and after that their
      particles - nothing lost, nothing twice, nothing foreign - and exactly the calls for
      which there was no place left throw. *)
  Theorem C40_nothing_lost i g0 t g :
    built i g0 -> under_way calls g0 t g -> all_returned t ->
    (forall b k, aims calls g0 b k -> ~ inside g0 b -> t !! k = Some Refused) /\
    (forall b, inside g0 b -> exists order,
       NoDup order /\ (forall k, k ∈ order <-> aims calls g0 b k) /\
       let free := (g_cap d g0 - length (holds g0 b))%nat in
       holds g b = holds g0 b ++ map (particle_of calls) (take free order) /\
       (forall k, k ∈ take free order -> t !! k = Some Accepted) /\
       (forall k, k ∈ drop free order -> t !! k = Some Thrown)).
  Proof.
    intros Hb Hu Hret. apply built_wf in Hb as [Hg0 _].
    destruct (sinv_reach calls g0 Hg0 t g Hu) as [log [Hlen Hgeom Hwf Hcnt Hold Hlog Hnd Hin Href Hdr Hoth]].
    assert (forall k, (k < length calls)%nat -> t !! k = Some Accepted \/ t !! k = Some Refused \/ t !! k = Some Thrown) as Hend.
    { intros k Hk. rewrite <- Hlen in Hk. apply lookup_lt_is_Some in Hk as [c Hc]. rewrite Hc.
      destruct (Hret k c Hc) as [->|[->| ->]]; auto. }
    split.
    - intros b k Ha Hi. apply goes_aims in Ha. rewrite (goes_inside _ _ Hg0 b k) in Hi by done.
      assert (k < length calls)%nat as Hk by (destruct Ha as (x & id & Hx & _); by eapply lookup_lt_Some).
      destruct (Hend k Hk) as [H|[H|H]]; [|done|].
      + destruct (Hoth k (or_introl H)) as (b' & Hg' & Hr'). rewrite (goes_fun calls g0 k b b') in Hi by done. done.
      + destruct (Hoth k (or_intror H)) as (b' & Hg' & Hr'). rewrite (goes_fun calls g0 k b b') in Hi by done. done.
    - intros b Hi. exists (log b). split; [done|].
      assert (length b = dimn d) as Hlb by (rewrite <- (gw_dim g0 Hg0); by eapply Forall2_length).
      apply inside_range in Hi as Hr; [|done|done].
      assert (b ∈ all_keys (g_shape d g0)) as Hkey by (apply elem_of_all_keys; rewrite (gw_dim g0 Hg0); done).
      pose proof Hgeom as (_ & _ & Hsh & Hcap).
      destruct (proj2 (gw_keys g0 Hg0 b) Hkey) as [c0 Hc0].
      rewrite <- Hsh in Hkey. destruct (proj2 (gw_keys g Hwf b) Hkey) as [c Hc].
      pose proof (gw_slots g0 Hg0 b c0 Hc0) as Hl0. pose proof (gw_slots g Hwf b c Hc) as Hl1. rewrite Hcap in Hl1.
      assert (cnt0 g0 b = c_cnt c0) as Hn0 by (unfold cnt0; by rewrite Hc0).
      assert (slots0 g0 b = c_slots c0) as Hs0 by (unfold slots0; by rewrite Hc0).
      split.
      { intros k. rewrite Hin, <- goes_aims. split; [tauto|]. intros Hg. split; [done|]. split; [done|].
        assert (k < length calls)%nat as Hk by (destruct Hg as (x & id & Hx & _); by eapply lookup_lt_Some).
        intros He. destruct (Hend k Hk) as [H|[H|H]]; congruence. }
      assert (length (holds g0 b) = min (c_cnt c0) (g_cap d g0)) as Hh0 by (unfold holds; rewrite Hc0, take_length; lia).
      cbv zeta. split; [|split].
      + unfold holds at 1. rewrite Hc. pose proof (Hcnt b c Hc) as Hcn. rewrite Hn0 in Hcn.
        apply list_eq. intros m.
        destruct (decide (m < c_cnt c)%nat) as [Hm|Hm].
        2:{ rewrite (lookup_ge_None_2 (take _ _)) by (rewrite take_length; lia). symmetry. apply lookup_ge_None_2.
            rewrite app_length, map_length, take_length. lia. }
        rewrite lookup_take by done.
        destruct (decide (m < g_cap d g0)%nat) as [Hm2|Hm2].
        2:{ rewrite !lookup_ge_None_2; [done| |lia]. rewrite app_length, map_length, take_length. lia. }
        destruct (decide (m < c_cnt c0)%nat) as [Hm3|Hm3].
        * rewrite lookup_app_l by lia. unfold holds. rewrite Hc0, lookup_take by done. rewrite <- Hs0.
          apply Hold; [done|lia].
        * rewrite lookup_app_r by lia. rewrite list_lookup_fmap, lookup_take by lia.
          destruct (lookup_lt_is_Some_2 (log b) (m - length (holds g0 b))%nat) as [k Hk]; [lia|]. rewrite Hk. simpl.
          destruct (Hlog b c _ k Hc Hk) as [H|[(H & H1 & H2)|(H & H1)]].
          -- exfalso. destruct (Hret k _ H) as [?|[?|?]]; done.
          -- rewrite <- H2. f_equal. lia.
          -- lia.
      + intros k Hk. apply elem_of_take in Hk as (m & Hk & Hm).
        destruct (Hlog b c m k Hc Hk) as [H|[(H & H1 & H2)|(H & H1)]]; [|done|lia].
        exfalso. destruct (Hret k _ H) as [?|[?|?]]; done.
      + intros k Hk. apply elem_of_list_lookup in Hk as [m Hk]. rewrite lookup_drop in Hk.
        destruct (Hlog b c _ k Hc Hk) as [H|[(H & H1 & H2)|(H & H1)]]; [|lia|done].
        exfalso. destruct (Hret k _ H) as [?|[?|?]]; done.
  Qed.

  (** Somebody throws iff some block receives more than it has room for. *)
  Theorem C40_exception_iff i g0 t g :
    built i g0 -> under_way calls g0 t g -> all_returned t ->
    (exists k, t !! k = Some Thrown) <->
    exists b ks, inside g0 b /\ NoDup ks /\ (forall k, k ∈ ks -> aims calls g0 b k) /\
      (g_cap d g0 < length (holds g0 b) + length ks)%nat.
  Proof.
    intros Hb Hu Hret. destruct (C40_nothing_lost i g0 t g Hb Hu Hret) as [Hout Hins].
    apply built_wf in Hb as [Hg0 _].
    assert (forall b, (length (holds g0 b) <= g_cap d g0)%nat) as Hcap.
    { intros b. unfold holds. destruct (g_data d g0 !! b) as [c|] eqn:Hc; [|simpl; lia].
      rewrite take_length, (gw_slots g0 Hg0 b c Hc). lia. }
    split.
    - intros [k Hk]. destruct (sinv_reach calls g0 Hg0 t g Hu) as [log Hs].
      destruct (si_other calls g0 log t g Hs k (or_intror Hk)) as (b & Hgo & Hr).
      apply (goes_inside calls g0 Hg0 b k Hgo) in Hr as Hi. apply goes_aims in Hgo.
      destruct (Hins b Hi) as (order & Hnd & Hall & _ & Hacc & Hthr). exists b, order.
      split; [done|]. split; [done|]. split; [by intros k' ?%Hall|].
      apply Hall in Hgo. rewrite <- (take_drop (g_cap d g0 - length (holds g0 b)) order) in Hgo.
      apply elem_of_app in Hgo as [Hgo|Hgo]; [apply Hacc in Hgo; congruence|].
      apply elem_of_list_lookup in Hgo as [m Hm]. rewrite lookup_drop in Hm. apply lookup_lt_Some in Hm.
      specialize (Hcap b). lia.
    - intros (b & ks & Hi & Hnk & Hks & Hlt). destruct (Hins b Hi) as (order & Hnd & Hall & _ & Hacc & Hthr).
      assert (length ks <= length order)%nat as Hle.
      { apply submseteq_length, NoDup_submseteq; [done|]. intros k Hk. apply Hall. by apply Hks. }
      specialize (Hcap b).
      destruct (lookup_lt_is_Some_2 order (g_cap d g0 - length (holds g0 b))%nat) as [k Hk]; [lia|].
      exists k. apply Hthr. apply elem_of_list_lookup. exists 0%nat. rewrite lookup_drop, Nat.add_0_r. done.
  Qed.

  (** No call is ever stuck: as long as one has not returned, there is an action to perform - provided
      the positions have block numbers at all. *)
  Theorem C40_no_deadlock i g0 t g :
    built i g0 -> (forall x id, (x, id) ∈ calls -> exists b, lies_in g0 x b) ->
    under_way calls g0 t g -> all_returned t \/ exists t' g', store_step calls (t, g) (t', g').
  Proof.
    intros Hb Hx Hu. apply built_wf in Hb as [Hg0 _].
    destruct (sinv_reach calls g0 Hg0 t g Hu) as [log [Hlen Hgeom Hwf Hcnt Hold Hlog Hnd Hin Href Hdr Hoth]].
    pose proof Hgeom as (_ & _ & Hsh & Hcap).
    assert (all_returned t \/ exists k c, t !! k = Some c /\ match c with Begin | Drawn _ _ => True | _ => False end) as [Ha|(k & c & Hk & Hc)];
      [|by left|right].
    { clear. induction t as [|c t IH]; [by left|].
      destruct IH as [IH|(k & c' & Hk & Hc')]; [|right; by exists (S k), c'].
      destruct c; try (right; exists 0%nat; eexists; split; [reflexivity|done]);
        left; intros [|k] c; simpl; try (intros [= <-]; auto); apply IH. }
    destruct c as [|b l| | |]; try done.
    - assert (k < length calls)%nat as Hlt by (rewrite <- Hlen; by eapply lookup_lt_Some).
      apply lookup_lt_is_Some in Hlt as [[x id] Hcall].
      destruct (Hx x id) as [b Hbx]; [apply elem_of_list_lookup; eauto|]. apply lies_in_block in Hbx.
      assert (block_of d g x = Some b) as Hbx' by (by rewrite (geom_block g0)).
      destruct (in_range (g_shape d g) b) eqn:Hr.
      + assert (b ∈ all_keys (g_shape d g)) as Hkey.
        { apply elem_of_all_keys. rewrite (gw_dim g Hwf). split; [by eapply block_length|done]. }
        destruct (proj2 (gw_keys g Hwf b) Hkey) as [c Hcell]. do 2 eexists. by eapply st_draw.
      + do 2 eexists. by eapply st_refuse.
    - destruct (Hdr k b l Hk) as [(x & id & Hcall & Hbx) Hr].
      destruct (decide (g_cap d g <= l)%nat) as [Hl|Hl]; [do 2 eexists; by eapply st_throw|].
      assert (b ∈ all_keys (g_shape d g)) as Hkey.
      { rewrite Hsh. apply elem_of_all_keys. rewrite (gw_dim g0 Hg0). split; [by eapply block_length|done]. }
      destruct (proj2 (gw_keys g Hwf b) Hkey) as [c Hcell].
      do 2 eexists. eapply st_put; [done|done|lia|done|]. rewrite (gw_slots g Hwf b c Hcell). lia.
  Qed.

  (** ... and they come to an end: every action uses up one of at most two per call. *)
  Theorem C40_terminates t g t' g' :
    store_step calls (t, g) (t', g') -> (actions_left t' < actions_left t)%nat.
  Proof.
    assert (forall k c c' (l : list call), l !! k = Some c ->
      (match c' with Begin => 2 | Drawn _ _ => 1 | _ => 0 end < match c with Begin => 2 | Drawn _ _ => 1 | _ => 0 end)%nat ->
      (actions_left (<[k:=c']> l) < actions_left l)%nat) as Hins.
    { intros k c c' l. revert k. unfold actions_left. induction l as [|a l IH]; intros k Hk Hlt; [done|].
      destruct k as [|k]; simpl in *; [injection Hk as ->; lia|]. specialize (IH k Hk Hlt). lia. }
    intros H. inversion H; subst; eapply Hins; try done; simpl; lia.
  Qed.
End Theorems.

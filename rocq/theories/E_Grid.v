(** Examples for the grid (C02, C03, C05, C40), in binary64, by running the model. *)
From Verif Require Import M_NumF S_Grid S_Par P_Grid T_Grid T_Store.
Open Scope nat_scope.

Definition whole (a b c : Z) : vec F64num D3 := (nofZ a, nofZ b, nofZ c).
Definition half (a : Z) : F64num := nofZ a /. nofZ 2.
Ltac computed := match goal with |- _ = ?v => vm_cast_no_check (@eq_refl _ v) end.

(** C05: blocks of length 1, domain 3 x 1 x 1: Clear() runs out of bounds. *)
Theorem example_wide : exists g : grid F64num D3,
  built true g /\ g_shape D3 g = [5; 3; 3]%Z /\ clear D3 g = None.
Proof.
  assert (match new_grid D3 (nofZ 1 : F64num) (nofZ 1) (whole 0 0 0) (whole 3 1 1) with Some g => Some (g_shape D3 g) | None => None end
    = Some [5; 3; 3]%Z) as H by computed.
  destruct (new_grid D3 (nofZ 1 : F64num) (nofZ 1) (whole 0 0 0) (whole 3 1 1)) as [g|] eqn:E; [|discriminate H].
  assert (built true g) as Hb by (eapply built_new; exact E). injection H as HS. exists g. split; [assumption|]. split; [assumption|].
  apply (C05_refuted_out_of_bounds true g 5 3 3 Hb HS); lia.
Qed.
(** Domain 1 x 3 x 1, a particle stored at (1/2, 7/2, 1/2): it is still there after Clear(). *)
Theorem example_deep : exists g g' : grid F64num D3,
  built true g /\ g_shape D3 g = [3; 5; 3]%Z /\ holds g [0; 3; 0]%Z = [7] /\ clear D3 g = Some g' /\ holds g' [0; 3; 0]%Z = [7].
Proof.
  set (g0 := new_grid D3 (nofZ 1 : F64num) (nofZ 1) (whole 0 0 0) (whole 1 3 1)).
  assert (match g0 with Some g => match store D3 g (half 1, half 7, half 1) 7 with Stored _ g1 =>
    Some (g_shape D3 g1, holds g1 [0; 3; 0]%Z, match clear D3 g1 with Some _ => true | None => false end) | _ => None end | None => None end
    = Some ([3; 5; 3]%Z, [7], true)) as H by computed.
  destruct g0 as [g|] eqn:E; [|discriminate H]. destruct (store D3 g (half 1, half 7, half 1) 7) as [g1| | |] eqn:E1; try discriminate H.
  injection H as H1 H2 H3. destruct (clear D3 g1) as [g2|] eqn:E2; [|discriminate H3].
  assert (built true g1) as Hb by (eapply built_store; [eapply built_new; exact E|exact E1]).
  exists g1, g2. split; [assumption|]. split; [assumption|]. split; [assumption|]. split; [assumption|].
  rewrite (C05_refuted_not_cleared true g1 g2 3 5 3 0 3 0 Hb H1); [done|lia|done].
Qed.

(** C02, C03: a 2-D grid for the domain 3 x 3, blocks of length 1 (5 x 5 of them) with room for four particles each.  Around (3/2, 3/2), in block
    (1, 1), one finds the two particles stored in blocks (0, 1) and (2, 2), but not the one in block (3, 1). *)
Notation flat a b := ((half a, half b) : vec F64num D2).
Theorem example_around : exists g : grid F64num D2,
  built true g /\ g_shape D2 g = [5; 5]%Z /\ lies_in g (flat 3 3) [1; 1]%Z /\ inside g [1; 1]%Z /\
  around D2 g (flat 3 3) = Some [0; 2].
Proof.
  set (g0 := new_grid D2 (nofZ 1 : F64num) (nofZ 1) (flat 0 0) (flat 6 6)).
  assert (match g0 with Some g => match store D2 g (flat 1 3) 0 with Stored _ g1 => match store D2 g1 (flat 7 3) 1 with Stored _ g2 =>
    match store D2 g2 (flat 5 5) 2 with Stored _ g3 =>
    Some (g_shape D2 g3, block_of D2 g3 (flat 3 3), around D2 g3 (flat 3 3)) | _ => None end | _ => None end | _ => None end | None => None end
    = Some ([5; 5]%Z, Some [1; 1]%Z, Some [0; 2])) as H by computed.
  destruct g0 as [g|] eqn:E; [|discriminate H]. destruct (store D2 g (flat 1 3) 0) as [g1| | |] eqn:E1; try discriminate H.
  destruct (store D2 g1 (flat 7 3) 1) as [g2| | |] eqn:E2; try discriminate H. destruct (store D2 g2 (flat 5 5) 2) as [g3| | |] eqn:E3; try discriminate H.
  injection H as H1 H2 H3. exists g3.
  split; [eapply built_store; [eapply built_store; [eapply built_store; [eapply built_new; exact E|exact E1]|exact E2]|exact E3]|].
  split; [assumption|]. split; [|split; [unfold inside; rewrite H1; repeat constructor; lia|done]].
  apply lies_in_block; assumption.
Qed.

(** C40: five calls of Store for the same block, which has room for four; all draw a number before the first one writes, and they draw in
    the opposite order.  The call that draws last throws. *)
Section Schedule.
  Context {N : num} {d : dim} (calls : list (vec N d * nat)).
  (** The next action of call [k]. *)
  Definition act (k : nat) (st : list call * grid N d) : option (list call * grid N d) :=
    let '(t, g) := st in
    match t !! k, calls !! k with
    | Some Begin, Some (x, id) =>
        match block_of d g x with
        | Some b => if in_range (g_shape d g) b then
            match g_data d g !! b with
            | Some c => Some (<[k := Drawn b (c_cnt c)]> t, set_data d g (<[b := mkCell (S (c_cnt c)) (c_slots c)]> (g_data d g)))
            | None => None end
          else Some (<[k := Refused]> t, g)
        | None => None end
    | Some (Drawn b l), Some (x, id) =>
        if (g_cap d g <=? l)%nat then Some (<[k := Thrown]> t, g) else
        match g_data d g !! b with
        | Some c => if (l <? length (c_slots c))%nat
                    then Some (<[k := Accepted]> t, set_data d g (<[b := mkCell (c_cnt c) (<[l := id]> (c_slots c))]> (g_data d g))) else None
        | None => None end
    | _, _ => None
    end.
  Fixpoint schedule (ks : list nat) st : option (list call * grid N d) :=
    match ks with [] => Some st | k :: ks => match act k st with Some st => schedule ks st | None => None end end.
  Lemma act_step k st st' : act k st = Some st' -> store_step calls st st'.
  Proof.
    destruct st as [t g]. unfold act. destruct (t !! k) as [[|b l| | |]|] eqn:Ht; try done; destruct (calls !! k) as [[x id]|] eqn:Hc; try done.
    - destruct (block_of d g x) as [b|] eqn:Hb; [|done]. destruct (in_range _ _) eqn:Hr.
      + destruct (g_data d g !! b) as [c|] eqn:Hd; [|done]. intros [= <-]. by eapply st_draw.
      + intros [= <-]. by eapply st_refuse.
    - destruct (_ <=? _)%nat eqn:Hl.
      + intros [= <-]. apply Nat.leb_le in Hl. by eapply st_throw.
      + apply Nat.leb_gt in Hl. destruct (g_data d g !! b) as [c|] eqn:Hd; [|done]. destruct (_ <? _)%nat eqn:Hs; [|done].
        apply Nat.ltb_lt in Hs. intros [= <-]. by eapply st_put.
  Qed.
  Lemma schedule_steps ks st st' : schedule ks st = Some st' -> rtc (store_step calls) st st'.
  Proof.
    revert st. induction ks as [|k ks IH]; intros st H; cbn in H; [injection H as <-; apply rtc_refl|].
    destruct (act k st) as [st1|] eqn:E; [|done]. eapply rtc_l; [by eapply act_step|by apply IH].
  Qed.
End Schedule.

Definition five_calls : list (vec F64num D2 * nat) := [(flat 3 3, 10); (flat 3 3, 11); (flat 3 3, 12); (flat 3 3, 13); (flat 3 3, 14)].
Theorem example_concurrent : exists (g0 g : grid F64num D2) t,
  built true g0 /\ under_way five_calls g0 t g /\ all_returned t /\ g_cap D2 g0 = 4 /\
  t = [Thrown; Accepted; Accepted; Accepted; Accepted] /\ holds g [1; 1]%Z = [14; 13; 12; 11].
Proof.
  set (gn := new_grid D2 (nofZ 1 : F64num) (nofZ 1) (flat 0 0) (flat 6 6)).
  assert (match gn with Some g0 => match schedule five_calls [4; 3; 2; 1; 0; 0; 1; 2; 3; 4] (replicate 5 Begin, g0) with
      Some (t, g) => Some (g_cap D2 g0, t, holds g [1; 1]%Z) | None => None end | None => None end
    = Some (4, [Thrown; Accepted; Accepted; Accepted; Accepted], [14; 13; 12; 11])) as H by computed.
  destruct gn as [g0|] eqn:E; [|discriminate H]. destruct (schedule five_calls _ (replicate 5 Begin, g0)) as [[t g]|] eqn:Es; [|discriminate H].
  injection H as H1 H2 H3. exists g0, g, t. split; [eapply built_new; exact E|]. split; [eapply schedule_steps; exact Es|]. split; [|repeat split; assumption].
  subst t. intros k c Hk. do 5 (destruct k as [|k]; [cbn in Hk; injection Hk as <-; tauto|]). discriminate Hk.
Qed.

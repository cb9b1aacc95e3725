(** Specification vocabulary for concurrent calls of Store. *)
From Verif Require Export S_Grid M_Par.

Section Store.
  Context {N : num} {d : dim}.
  (** Call number [k] is for a particle in block [b]. *)
  Definition aims (calls : list (vec N d * nat)) (g : grid N d) (b : list Z) (k : nat) : Prop :=
    exists x id, calls !! k = Some (x, id) /\ lies_in g x b.
  (** The particle number handed over by call [k]. *)
  Definition particle_of (calls : list (vec N d * nat)) (k : nat) : nat :=
    match calls !! k with Some (_, id) => id | None => 0%nat end.
  (** [t], [g]: how the calls, begun together on grid [g0], stand after some actions. *)
  Definition under_way (calls : list (vec N d * nat)) (g0 : grid N d) (t : list call) (g : grid N d) : Prop :=
    rtc (store_step calls) (replicate (length calls) Begin, g0) (t, g).
  (** The actions still to come, at most two for each call. *)
  Definition actions_left (t : list call) : nat :=
    sum_list_with (fun c => match c with Begin => 2 | Drawn _ _ => 1 | _ => 0 end)%nat t.
End Store.

(** Specification vocabulary for the grid. *)
From Verif Require Export M_Grid.

Section Grid.
  Context {N : num} {d : dim}.
  Notation grid := (grid N d).

  (** The particle numbers held by block [b], oldest first; nothing outside the grid. *)
  Definition holds (g : grid) (b : list Z) : list nat :=
    match g_data d g !! b with Some c => take (c_cnt c) (c_slots c) | None => [] end.

  (** Block [b] lies inside the grid: [0 <= b_k < n_k] along every axis. *)
  Definition inside (g : grid) (b : list Z) : Prop :=
    Forall2 (fun z n => 0 <= z < n)%Z b (g_shape d g).

  (** Block [b] contains position [x]: along every axis, [floor((x_k - origin_k) / length)]. *)
  Definition lies_in (g : grid) (x : vec N d) (b : list Z) : Prop :=
    length b = dimn d /\
    forall k z, b !! k = Some z -> nfloor ((tget d x k -. tget d (g_origin d g) k) /. g_len d g) = Some z.

  (** The block itself and its neighbours (also diagonal ones), in lexicographic order. *)
  Fixpoint blocks_around (b : list Z) : list (list Z) :=
    match b with
    | [] => [[]]
    | z :: b => z' ← [z - 1; z; z + 1]%Z; r ← blocks_around b; [z' :: r]
    end.

  (** The grid is 2-D, or has as many blocks along y as along x. *)
  Definition square_grid (g : grid) : Prop := d = D2 \/ g_shape d g !! 0%nat = g_shape d g !! 1%nat.

  (** Grids that can come into being through the public functions.  [intact] is false as soon as a
      Store has thrown, until the next Clear(). *)
  Inductive built : forall (intact : bool), grid -> Prop :=
    | built_new nl l0 minX maxX g : new_grid d nl l0 minX maxX = Some g -> built true g
    | built_clear i g g' : built i g -> square_grid g -> clear d g = Some g' -> built true g'
    | built_store i g x id g' : built i g -> store d g x id = Stored _ g' -> built i g'
    | built_throw i g x id g' : built i g -> store d g x id = Overflow _ g' -> built false g'.
End Grid.

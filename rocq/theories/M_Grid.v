(** Grid.hpp: the grid for neighbour search. *)
From stdpp Require Export gmap.
From Verif Require Export M_Config.

Section Grid.
  Context {N : num} (d : dim).

  (** One block: Grid.hpp:75-76, the innermost dimension of [data].  Element 0 is the
      number of particles ([c_cnt]), elements 1.. the particle numbers ([c_slots]). *)
  Record cell := mkCell { c_cnt : nat; c_slots : list nat }.

  (** Grid.hpp:69-76.  [g_shape] is the extent along each axis (x[,y],z), [g_cap] is
      MaxParticles().  A key is present in [g_data] iff it is a legal index of the
      multi_array; looking up an absent key is an out-of-bounds access.
      The lock array of pre-OpenMP-3.0 compilers (ATOMIC_LOCK) is not modelled. *)
  Record grid := mkGrid {
    g_len : N; g_origin : vec N d; g_shape : list Z; g_cap : nat;
    g_data : gmap (list Z) cell
  }.

  (** Grid.hpp:63-66 with the compile-time power of 24-54. *)
  Fixpoint power (n : nat) (v : nat) : nat :=
    match n with O => 1 | S n => v * power n v end.
  Definition MAX_NEIGHBOR_BLOCK1 : nat := 3.
  Definition LAST_NEIGHBOR : nat := power (dimn d) MAX_NEIGHBOR_BLOCK1.    (* 66, 344 *)
  Definition MAX_NEIGHBOR : nat := LAST_NEIGHBOR + 1.                      (* 347 *)

  (** All index tuples below the extents, i.e. the legal indices of a multi_array. *)
  Fixpoint all_keys (shape : list Z) : list (list Z) :=
    match shape with
    | [] => [[]]
    | n :: shape => i ← map Z.of_nat (seq 0 (Z.to_nat n)); l ← all_keys shape; [i :: l]
    end.

  (** Grid.hpp:85-88 [Ceil], 89-92 [Floor]. *)
  Definition ceil_div (a b : N) : option Z := nceil (a /. b).
  Definition floor_div (a b : N) : option Z := nfloor (a /. b).

  (** Grid.hpp:137-150: constructor.  The storage is value-initialised.  [None]: a
      conversion is undefined or an extent is negative (boost would try to allocate an
      absurd array).  Overflow of the index arithmetic is ignored. *)
  Definition new_grid (neighborLength l_0 : N) (minX maxX : vec N d) : option grid :=
    shape ← mapM (fun k => c ← ceil_div (tget d maxX k -. tget d minX k) neighborLength;
                           Some (c + 2)%Z) (seq 0 (dimn d));
    m ← ceil_div neighborLength l_0;
    let slots := ((m + 1) ^ Z.of_nat (dimn d))%Z in
    if forallb (Z.leb 0) shape && (0 <=? slots)%Z then
      let cap := Z.to_nat slots in
      Some (mkGrid neighborLength minX shape cap
              (list_to_map (map (fun k => (k, mkCell 0 (replicate cap 0%nat))) (all_keys shape))))
    else None.

  Definition set_data (g : grid) (m : gmap (list Z) cell) : grid :=
    mkGrid (g_len g) (g_origin g) (g_shape g) (g_cap g) m.

  (** Loop bounds of Clear(), Grid.hpp:224-246.  In 3-D the middle loop (232) runs
      to [nx], not [ny]. *)
  Definition clear_bounds (shape : list Z) : list Z :=
    match d, shape with
    | D3, [nx; ny; nz] => [nx; nx; nz]
    | _, _ => shape
    end.

  (** Grid.hpp:238,240: [data[i][..][k][0] = 0]. *)
  Definition clear_block (m : gmap (list Z) cell) (k : list Z) : option (gmap (list Z) cell) :=
    c ← m !! k; Some (<[k := mkCell 0 (c_slots c)]> m).

  (** Grid.hpp:222-247 [Clear]. *)
  Definition clear (g : grid) : option grid :=
    m ← foldM clear_block (g_data g) (all_keys (clear_bounds (g_shape g)));
    Some (set_data g m).

  (** Grid.hpp:250-254 [Block] along one axis, and for all axes. *)
  Definition block_axis (g : grid) (x : vec N d) (k : nat) : option Z :=
    floor_div (tget d x k -. tget d (g_origin g) k) (g_len g).
  Definition block_of (g : grid) (x : vec N d) : option (list Z) :=
    mapM (block_axis g x) (seq 0 (dimn d)).

  (** The range test of Grid.hpp:285-290 and 475-480. *)
  Definition in_range (shape b : list Z) : bool :=
    forallb (fun p => (0 <=? p.1)%Z && (p.1 <? p.2)%Z) (zip b shape).

  (** Grid.hpp:258-266 [ParticleCount]. *)
  Definition particle_count (g : grid) (b : list Z) : option nat := c_cnt <$> g_data g !! b.

  (** Grid.hpp:101-121 [Particle]: slot [l] of a block. *)
  Definition grid_particle (g : grid) (b : list Z) (l : nat) : option nat :=
    c ← g_data g !! b; c_slots c !! l.

  (** Result of Store: [true], [false], exception (the counter stays incremented), UB. *)
  Inductive store_result :=
    | Stored (g : grid) | Rejected | Overflow (g : grid) | StoreUndef.

  (** Grid.hpp:276-331 [Store]. *)
  Definition store (g : grid) (x : vec N d) (id : nat) : store_result :=
    match block_of g x with
    | None => StoreUndef
    | Some b =>
        if in_range (g_shape g) b then
          match g_data g !! b with
          | None => StoreUndef
          | Some c =>
              let l := c_cnt c in
              let g1 := set_data g (<[b := mkCell (S l) (c_slots c)]> (g_data g)) in
              if (g_cap g <=? l)%nat then Overflow g1
              else if (l <? length (c_slots c))%nat then
                Stored (set_data g (<[b := mkCell (S l) (<[l := id]> (c_slots c))]> (g_data g)))
              else StoreUndef
          end
        else Rejected
    end.

  (** Grid.hpp:363-403: relative positions of the searched blocks, in order. *)
  Definition offsets : list (list Z) :=
    match d with
    | D2 => [ [-1; -1]; [-1; 0]; [-1; 1];
              [ 0; -1]; [ 0; 0]; [ 0; 1];
              [ 1; -1]; [ 1; 0]; [ 1; 1] ]
    | D3 => [ [-1; -1; -1]; [-1; -1; 0]; [-1; -1; 1];
              [-1;  0; -1]; [-1;  0; 0]; [-1;  0; 1];
              [-1;  1; -1]; [-1;  1; 0]; [-1;  1; 1];
              [ 0; -1; -1]; [ 0; -1; 0]; [ 0; -1; 1];
              [ 0;  0; -1]; [ 0;  0; 0]; [ 0;  0; 1];
              [ 0;  1; -1]; [ 0;  1; 0]; [ 0;  1; 1];
              [ 1; -1; -1]; [ 1; -1; 0]; [ 1; -1; 1];
              [ 1;  0; -1]; [ 1;  0; 0]; [ 1;  0; 1];
              [ 1;  1; -1]; [ 1;  1; 0]; [ 1;  1; 1] ]
    end%Z.

  (** Grid.hpp:334-356: iterator state ([neighbor], [index]). *)
  Record iter := mkIter { it_neighbor : list (list Z); it_index : nat }.

  (** Grid.hpp:465-490: look for the next usable block; returns [isValid] and [index].
      The loop runs at most LAST_NEIGHBOR times ([fuel]). *)
  Fixpoint scan (g : grid) (nb : list (list Z)) (fuel : nat) (isValid : bool) (index : nat)
    : option (bool * nat) :=
    match fuel with
    | O => Some (isValid, index)
    | S fuel =>
        if negb isValid && (index + 1 <? LAST_NEIGHBOR)%nat then
          next ← nb !! (index + 1);
          if in_range (g_shape g) next then
            c ← particle_count g next;
            scan g nb fuel (0 <? c)%nat (index + 1)
          else scan g nb fuel false (index + 1)
        else Some (isValid, index)
    end.

  (** Grid.hpp:433-501 [Increment]. *)
  Definition increment (g : grid) (it : iter) : option iter :=
    let neighborIndex := (it_index it mod MAX_NEIGHBOR)%nat in
    b ← it_neighbor it !! neighborIndex;
    let l := (it_index it / MAX_NEIGHBOR)%nat in
    count ← particle_count g b;
    if (count <=? l + 1)%nat then
      if (neighborIndex =? LAST_NEIGHBOR - 1)%nat then
        Some (mkIter (it_neighbor it) LAST_NEIGHBOR)
      else
        match scan g (it_neighbor it) LAST_NEIGHBOR false neighborIndex with
        | Some (isValid, index) =>
            Some (mkIter (it_neighbor it) (if isValid then index else LAST_NEIGHBOR))
        | None => None
        end
    else Some (mkIter (it_neighbor it) (it_index it + MAX_NEIGHBOR)).

  (** Grid.hpp:508-518 [CreateBegin]: the starting transition state, from the block [b]. *)
  Definition begin_index (b : list Z) : nat :=
    let z k := if (nth k b 1 =? 0)%Z then 1%nat else 0%nat in
    match d with
    | D2 => MAX_NEIGHBOR_BLOCK1 * z 0%nat + 1 * z 1%nat
    | D3 => MAX_NEIGHBOR_BLOCK1 * MAX_NEIGHBOR_BLOCK1 * z 0%nat
            + MAX_NEIGHBOR_BLOCK1 * z 1%nat + 1 * z 2%nat
    end%nat.

  (** Grid.hpp:362-424 (constructor) and 562-565 [cbegin]. *)
  Definition cbegin (g : grid) (x : vec N d) : option iter :=
    b ← block_of g x;
    let nb := map (zip_with Z.add b) offsets in
    let it := mkIter nb (begin_index b) in
    b0 ← nb !! (it_index it mod MAX_NEIGHBOR)%nat;
    count ← particle_count g b0;
    if (count =? 0)%nat then increment g it else Some it.

  (** Grid.hpp:530-546 [operator*]. *)
  Definition deref (g : grid) (it : iter) : option nat :=
    b ← it_neighbor it !! (it_index it mod MAX_NEIGHBOR)%nat;
    grid_particle g b (it_index it / MAX_NEIGHBOR)%nat.

  (** [for (it = begin; !(it == end); ++it) ... *it] (Computer.hpp:736-738 with Grid.hpp:
      523-526,548-558): the sequence of values of [*it].  [None] also when [fuel] steps do not
      suffice; the theorems show this cannot happen with the fuel used by the caller. *)
  Fixpoint collect (g : grid) (fuel : nat) (it : iter) : option (list nat) :=
    if (it_index it =? LAST_NEIGHBOR)%nat then Some []
    else match fuel with
         | O => None
         | S fuel =>
             j ← deref g it;
             it' ← increment g it;
             rest ← collect g fuel it';
             Some (j :: rest)
         end.

  (** Enough fuel: one step per slot of the searched blocks. *)
  Definition iter_fuel (g : grid) : nat := LAST_NEIGHBOR * g_cap g.

  Definition around (g : grid) (x : vec N d) : option (list nat) :=
    it ← cbegin g x; collect g (iter_fuel g) it.
End Grid.
Arguments grid : clear implicits.
Arguments store_result : clear implicits.

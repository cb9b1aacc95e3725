(** Specification vocabulary: blocks of the search grid and how many particles they hold. *)
From Verif Require Export S_Reach.

Section Outcome.
  Context {N : num} {cfg : config} {wm : wallmotion N (cDim cfg)}.
  Notation d := (cDim cfg).
  Notation part := (particle N d).
  Notation computer := (computer cfg wm).
  Implicit Types (env : environment N cfg) (s : computer).

  (** The number of the block along axis [k] of position [x], as the program computes it. *)
  Definition block_number env (x : vec N d) (k : nat) : option Z :=
    nfloor ((tget d x k -. tget d (eMinX env) k) /. eNL env).
  (** Number of blocks along axis [k]. *)
  Definition blocks_along env (k : nat) : option Z :=
    match nceil ((tget d (eMaxX env) k -. tget d (eMinX env) k) /. eNL env) with Some c => Some (c + 2)%Z | None => None end.
  (** How many particles a block can take: (ceil(NeighborLength / l_0) + 1)^D. *)
  Definition capacity env : option Z :=
    match nceil (eNL env /. eL0 env) with Some m => Some ((m + 1) ^ Z.of_nat (dimn d))%Z | None => None end.

  (** Every enabled particle has block numbers (the conversions to the index type are defined). *)
  Definition locatable env s : Prop :=
    forall i p k, cParts s !! i = Some p -> enabled p -> (k < dimn d)%nat -> exists z, block_number env (pX p) k = Some z.

  (** Block [b] of the grid contains more enabled particles than it can take: [js] are such particles. *)
  Definition overfull env s (b : list Z) (js : list nat) : Prop :=
    length b = dimn d /\
    (forall k z n, b !! k = Some z -> blocks_along env k = Some n -> (0 <= z < n)%Z) /\
    NoDup js /\
    (forall j, j ∈ js -> exists p, cParts s !! j = Some p /\ enabled p /\
       forall k z, b !! k = Some z -> block_number env (pX p) k = Some z) /\
    exists c, capacity env = Some c /\ (c < Z.of_nat (length js))%Z.
  Definition crowded env s : Prop := exists b js, overfull env s b js.
End Outcome.

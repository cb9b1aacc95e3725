(** Specification vocabulary over the reals: sums, Euclidean distance, who interacts with whom. *)
From Verif Require Export M_NumR S_Reach M_Computer.
Open Scope R_scope.

(** Finite sums. *)
Definition rsum (l : list R) : R := foldr Rplus 0 l.
(** Sum of [f i] over [i < n]. *)
Definition sum_n (n : nat) (f : nat -> R) : R := rsum (map f (seq 0 n)).

Section Vec.
  Context {d : dim}.
  Notation V := (vec Rnum d).
  (** [v] by its components. *)
  Definition coord (v : V) (k : nat) : R := tget d v k.
  (** Sum of vectors, component by component. *)
  Definition vsum (l : list V) : V := tmk d (fun k => rsum (map (fun v => coord v k) l)).
  Definition vsum_n (n : nat) (f : nat -> V) : V := vsum (map f (seq 0 n)).
  (** Euclidean inner product, length, distance. *)
  Definition inner (x y : V) : R := sum_n (dimn d) (fun k => coord x k * coord y k).
  Definition len (x : V) : R := R_sqrt.sqrt (inner x x).
  Definition edist (x y : V) : R := R_sqrt.sqrt (sum_n (dimn d) (fun k => (coord x k - coord y k) ^ 2)).
End Vec.

Section Interact.
  Context {cfg : config} {wm : wallmotion Rnum (cDim cfg)}.
  Notation d := (cDim cfg).
  Notation part := (particle Rnum d).
  Notation computer := (computer cfg wm).

  (** Particle [j] is an enabled particle other than [i], closer to [i] than [r]. *)
  Definition close (r : R) (s : computer) (i j : nat) : Prop :=
    i <> j /\ exists p q, cParts s !! i = Some p /\ cParts s !! j = Some q /\ enabled q /\
      edist (pX p) (pX q) < r.
  Global Instance close_dec r s i j : Decision (close r s i j).
  Proof.
    unfold close. destruct (decide (i = j)); [right; tauto|].
    destruct (cParts s !! i) as [p|]; [|right; intros (_ & p & q & H & _); discriminate].
    destruct (cParts s !! j) as [q|]; [|right; intros (_ & p' & q & _ & H & _); discriminate].
    destruct (decide (pT q = Disabled)); [right; intros (_ & ? & ? & _ & [= <-] & He & _); by apply He|].
    destruct (Rlt_dec (edist (pX p) (pX q)) r); [left; eauto 10|].
    right. intros (_ & ? & ? & [= <-] & [= <-] & _ & Hc). done.
  Defined.

  (** The stored neighbour lists are usable for sums over the interaction radius: no
      repetition, only other enabled particles, and all those within the radius. *)
  Definition lists_cover (s : computer) : Prop :=
    forall i p, cParts s !! i = Some p -> enabled p ->
    exists l, neighbor_list s i = Some l /\ NoDup l /\
      (forall j, j ∈ l -> j <> i /\ exists q, cParts s !! j = Some q /\ enabled q) /\
      (forall j, close (eRe (cEnv s)) s i j -> j ∈ l).

  (** [f q] for particle [j] (an arbitrary default if there is no such particle). *)
  Definition at_part {A} (s : computer) (j : nat) (default : A) (f : part -> A) : A :=
    match cParts s !! j with Some q => f q | None => default end.

  (** Sum of [f j q_j] over the particles closer to [i] than [r]. *)
  Definition close_sum (r : R) (s : computer) (i : nat) (f : nat -> part -> R) : R :=
    sum_n (psize s) (fun j => if decide (close r s i j) then at_part s j 0 (f j) else 0).
  Definition close_vsum (r : R) (s : computer) (i : nat) (f : nat -> part -> vec Rnum d) : vec Rnum d :=
    vsum_n (psize s) (fun j => if decide (close r s i j) then at_part s j vzero (f j) else vzero).

  (** Weight of a distance. *)
  Definition wt (r r_e : R) : R :=
    if Rlt_dec 0 r then if Rlt_dec r r_e then r_e / r - 1 else 0 else 0.

  (** The virtual surface particle of particle [i] (with data [p]): present iff the build has
      them, the stored raw density is below N0 and the weighted centroid of the
      neighbours is off by more than the machine epsilon. *)
  Definition centroid (s : computer) (i : nat) (p : part) : vec Rnum d :=
    close_vsum (eRe (cEnv s)) s i
      (fun j q => (wt (edist (pX p) (pX q)) (eRe (cEnv s)) / eN0 (cEnv s) : Rnum) *^ (pX q -^ pX p)).
  Definition virtual (s : computer) (i : nat) (p : part) : option part :=
    if cSPP cfg then
      match cNws s !! i with
      | Some n =>
          if Rlt_dec n (eN0 (cEnv s)) then
            if Rlt_dec (/ 2 ^ 52) (len (centroid s i p)) then
              let dist := eRe (cEnv s) / (eN0 (cEnv s) - n + 1) in
              Some (mkParticle (pX p -^ (dist / len (centroid s i p) : Rnum) *^ centroid s i p) (pU p) 0 0 Newton)
            else None
          else None
      | None => None
      end
    else None.
  Definition of_virtual {A} (s : computer) (i : nat) (p : part) (none : A) (f : part -> A) : A :=
    match virtual s i p with Some v => f v | None => none end.

  (** The sum of the weights of all enabled particles within the radius. *)
  Definition raw_density (s : computer) (i : nat) (p : part) : R :=
    close_sum (eRe (cEnv s)) s i (fun j q => wt (edist (pX p) (pX q)) (eRe (cEnv s))).

  (** A state in the course of a step in which neighbour sums can be formed.  By
      [C11_midstep] all intermediate states of a step are of this kind as long as nothing
      has moved further than the margin of the neighbour search allows. *)
  Record midstep (s : computer) : Prop := {
    ms_re : 0 < eRe (cEnv s);
    ms_cover : lists_cover s;
    ms_nws : length (cNws s) = psize s;
    ms_ax : length (cXv s) = length (cA s);
    ms_ab : length (cBv s) = length (cA s)
  }.
End Interact.

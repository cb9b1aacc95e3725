(** Specification vocabulary: the sums and conditions in which the theorems about the single phases are stated. *)
From Coq Require Import ZifyBool.
From Verif Require Export S_Ppe S_Lattice.
Open Scope R_scope.

(** ** Matrices *)
(** Specification: product of matrices by components. *)
Definition mmul {d : dim} (a b : mat Rnum d) (i j : nat) : R := sum_n (dimn d) (fun k => mget a i k * mget b k j).
(** The unit matrix. *)
Definition kron (i j : nat) : R := if (i =? j)%nat then 1 else 0.
(** Leibniz determinants. *)
Definition determinant2 (m : mat Rnum D2) : R := mget m 0 0 * mget m 1 1 - mget m 0 1 * mget m 1 0.
Definition determinant3 (m : mat Rnum D3) : R :=
  mget m 0 0 * (mget m 1 1 * mget m 2 2 - mget m 1 2 * mget m 2 1)
  - mget m 0 1 * (mget m 1 0 * mget m 2 2 - mget m 1 2 * mget m 2 0)
  + mget m 0 2 * (mget m 1 0 * mget m 2 1 - mget m 1 1 * mget m 2 0).
(** ... in either dimension. *)
Definition determinant {d : dim} : mat Rnum d -> R := match d with D2 => determinant2 | D3 => determinant3 end.

Section Vectors.
  Context {d : dim}.
  Notation V := (vec Rnum d).
  Implicit Types dx : V.
  (** The part of [dx] perpendicular to the direction of [dx0]. *)
  Definition perpendicular dx dx0 : V := dx -^ (inner dx dx0 / inner dx0 dx0 : Rnum) *^ dx0.
End Vectors.

Section Terms.
  Context {cfg : config} {wm : wallmotion Rnum (cDim cfg)}.
  Notation d := (cDim cfg).
  Notation V := (vec Rnum d).
  Notation part := (particle Rnum d).
  Notation computer := (computer cfg wm).
  Implicit Types (s : computer) (p q v : part) (env : environment Rnum cfg).

  (** Particles of the fluid, as opposed to walls, dummies and disabled particles. *)
  Definition fluid (p : part) : Prop := pT p = Newton.
  Global Instance fluid_dec p : Decision (fluid p). Proof. unfold fluid. apply _. Defined.
  (** No enabled particle is further than [r] from where it was. *)
  Definition moved_at_most (r : R) s s' : Prop :=
    forall i p p', cParts s !! i = Some p -> cParts s' !! i = Some p' -> enabled p' -> edist (pX p) (pX p') <= r.
  (** Position [x] is outside along axis [k]: below the lower corner, or not below the upper end of the
      blocks. *)
  Definition outside_axis env (x : V) (k : nat) : Prop :=
    coord x k < coord (eMinX env) k \/
    coord (eMinX env) k + (IZR (Zceil ((coord (eMaxX env) k - coord (eMinX env) k) / eNL env)) + 2) * eNL env <= coord x k.
  Definition outside env (x : V) : Prop := exists k, (k < dimn d)%nat /\ outside_axis env x k.
  (** The enabled particles are at different points of the lattice [a + l Z^D]. *)
  Definition on_lattice (a : V) (l : R) (s : computer) : Prop :=
    exists z : nat -> nat -> Z,
      (forall i p k, cParts s !! i = Some p -> enabled p -> (k < dimn d)%nat -> coord (pX p) k = coord a k + l * IZR (z i k)) /\
      (forall i j p q, cParts s !! i = Some p -> enabled p -> cParts s !! j = Some q -> enabled q ->
         (forall k, (k < dimn d)%nat -> z i k = z j k) -> i = j).
  (** The enabled particles within the radius of particle [i] form the lattice [x_i + l Z^D]: every one sits on a
      lattice point other than [x_i], no two on the same, and every lattice point within the radius is taken. *)
  Definition in_lattice (l r : R) s i p : Prop :=
    exists site : nat -> list Z,
      (forall j q, close r s i j -> cParts s !! j = Some q ->
         length (site j) = dimn d /\ znorm (site j) <> 0 /\ pX q = pX p +^ lattice_vec d l (site j)) /\
      (forall j k, close r s i j -> close r s i k -> site j = site k -> j = k) /\
      (forall z, length z = dimn d -> znorm z <> 0 -> l * znorm z < r -> exists j, close r s i j /\ site j = z).
  (** The viscous coupling of a pair at distance [r]. *)
  Definition viscosity env (r : R) : R :=
    if cHL cfg then eNu env * (5 - INR (dimn d)) * eRe env / eN0 env / (r * r * r)
    else 2 * eNu env * INR (dimn d) / (eLambda env * eN0 env) * wt r (eRe env).
  (** Viscous acceleration: the velocity differences to the fluid and wall particles within the radius. *)
  Definition viscous s i p : V :=
    close_vsum (eRe (cEnv s)) s i (fun j q =>
      if decide (pT q = Dummy) then vzero else (viscosity (cEnv s) (edist (pX p) (pX q)) : Rnum) *^ (pU q -^ pU p)).
  (** Sum of [f p] over the fluid particles, and their number. *)
  Definition fluid_sum s (f : part -> V) : V :=
    vsum_n (psize s) (fun i => at_part s i vzero (fun p => if decide (fluid p) then f p else vzero)).
  Definition fluid_count s : R :=
    sum_n (psize s) (fun i => at_part s i 0 (fun p => if decide (fluid p) then 1 else 0)).
  (** No wall within the radius of a fluid particle. *)
  Definition no_walls_near_fluid s : Prop :=
    forall i j p q, cParts s !! i = Some p -> fluid p -> close (eRe (cEnv s)) s i j -> cParts s !! j = Some q ->
      fluid q \/ pT q = Dummy.
  (** The density of particle [i] if all enabled particles move on with their velocities for time [t]. *)
  Definition moving_density s i p (t : R) : R :=
    sum_n (psize s) (fun j =>
      if decide (j = i) then 0
      else at_part s j 0 (fun q =>
        if decide (pT q = Disabled) then 0
        else wt (edist (pX p +^ (t : Rnum) *^ pU p) (pX q +^ (t : Rnum) *^ pU q)) (eRe (cEnv s)))).
  (** All enabled particles move as one rigid body: a common velocity plus an infinitesimal rotation (an
      antisymmetric linear map applied to the position). *)
  Definition rigid_motion s : Prop :=
    exists (c : V) (A : nat -> nat -> R),
      (forall k l, A k l = - A l k) /\
      forall i p, cParts s !! i = Some p -> enabled p ->
        pU p = c +^ tmk d (fun k => sum_n (dimn d) (fun l => A k l * coord (pX p) l)).
  (** Adding a common velocity to all particles. *)
  Definition boosted (c : V) s : computer := with_parts s (map (fun p => set_U (pU p +^ c) p) (cParts s)).
  (** What the diagonal gets on top of the couplings: surface particles that are no unknowns, and
      the virtual surface particle. *)
  Definition leak s (i : nat) p : R :=
    close_sum (eRe (cEnv s)) s i (fun j q =>
      if decide (fluid_or_wall q /\ ~ unknown (cEnv s) q) then laplacian (cEnv s) (edist (pX p) (pX q)) else 0)
    + of_virtual s i p 0 (fun v => laplacian (cEnv s) (edist (pX p) (pX v))).
  (** The conditions under which the coefficients make sense. *)
  Definition positive_constants env : Prop := 0 < eN0 env /\ (cHL cfg = false -> 0 < eLambda env).
  (** The vector [x] is 0 in the rows of the particles that are no unknowns. *)
  Definition vanishes s (x : list R) : Prop :=
    forall i p, cParts s !! i = Some p -> ~ unknown (cEnv s) p -> el x i = 0.
  (** The equation of state. *)
  Definition state_pressure env (n : R) : R := eC env ^ 2 * Rmax 0 (eRho env * n / eN0 env - eRho env).
  (** Contribution of a particle with position [xq] and pressure [pq] to the gradient at [xp], where the pressure is [pp]. *)
  Definition grad_term env (xp : V) (pp : R) (xq : V) (pq : R) : V :=
    ((pq + pp) / edist xp xq ^ 2 * wt (edist xp xq) (eRe env) : Rnum) *^ (xq -^ xp).
  (** The pressure gradient at particle [i]: the contributions of the fluid and wall particles within the radius. *)
  Definition pressure_sum s i p : V :=
    close_vsum (eRe (cEnv s)) s i (fun j q => if decide (pT q = Dummy) then vzero else grad_term (cEnv s) (pX p) (pP p) (pX q) (pP q)).
  (** ... of the virtual particle, whose pressure is 0. *)
  Definition virtual_push s i p : V := of_virtual s i p vzero (fun v => grad_term (cEnv s) (pX p) (pP p) (pX v) 0).
  Definition grad_factor env : R := - (eDt env / eRho env * INR (dimn d) / eN0 env).
  (** The corrective matrix: sum of w/r^2 dx dx^T over the particles within the radius (dummies included). *)
  Definition moment s i p (a b : nat) : R :=
    close_sum (eRe (cEnv s)) s i (fun j q => wt (edist (pX p) (pX q)) (eRe (cEnv s)) / edist (pX p) (pX q) ^ 2
      * (coord (pX q -^ pX p) a * coord (pX q -^ pX p) b)).
  (** Position saved before the implicit phase. *)
  Definition saved s (j : nat) : V := match cOrigX s !! j with Some x => x | None => vzero end.
  (** Squared distance below which two particles overlap: L_0 - MaxDx. *)
  Definition limit2 env : R := (eL0 env - eMaxDx env) ^ 2.
  Definition overlapping env p q : Prop := pT q <> Dummy /\ edist (pX p) (pX q) ^ 2 < limit2 env.
  Global Instance overlapping_dec env p q : Decision (overlapping env p q).
  Proof. unfold overlapping. destruct (decide (pT q = Dummy)); [right; tauto|]. destruct (Rlt_dec (edist (pX p) (pX q) ^ 2) (limit2 env)); [left|right]; tauto. Defined.
  (** The displacement of the particle stabilization: one term for each overlapping particle. *)
  Definition stab_sum s i p : V :=
    close_vsum (eRe (cEnv s)) s i (fun j q =>
      if decide (overlapping (cEnv s) p q) then ds_term (limit2 (cEnv s) : Rnum) (pX q -^ pX p) (saved s j -^ saved s i) else vzero).
  (** The constants and the time during the step. *)
  Definition step_env (dt : R) s : environment Rnum cfg := set_next_t (set_dt (dt : Rnum) (cEnv s)).
End Terms.

(** Specification vocabulary: the pressure equation. *)
From Verif Require Export S_Real P_Cg.
Open Scope R_scope.

Section Sparse.
  Context {N : num}.
  (** Value stored for column [j] (0 if there is none). *)
  Fixpoint row_at (row : mrow (N := N)) (j : nat) : N :=
    match row with
    | [] => nofZ 0
    | (k, v) :: row => if (k =? j)%nat then v else row_at row j
    end.
  (** Element (i,j) of a sparse matrix. *)
  Definition elem (A : list (mrow (N := N))) (i j : nat) : N :=
    match A !! i with Some row => row_at row j | None => nofZ 0 end.
  (** An [n] times [n] matrix in sparse form: in each row, every column at most once. *)
  Definition sparse (n : nat) (A : list (mrow (N := N))) : Prop :=
    length A = n /\ forall row, row ∈ A -> NoDup (map fst row) /\ forall e, e ∈ row -> (e.1 < n)%nat.
End Sparse.

(** Matrix times vector, and the squared length of [b - A x]. *)
Definition mat_vec (n : nat) (A : list (mrow (N := Rnum))) (x : list R) (i : nat) : R :=
  sum_n n (fun j => elem A i j * el x j).
Definition res2 (n : nat) (A : list (mrow (N := Rnum))) (b x : list R) : R :=
  sum_n n (fun i => (el b i - mat_vec n A x i) ^ 2).
(** Quadratic form. *)
Definition quad (n : nat) (A : list (mrow (N := Rnum))) (x : list R) : R :=
  sum_n n (fun i => el x i * mat_vec n A x i).

Section Ppe.
  Context {cfg : config} {wm : wallmotion Rnum (cDim cfg)}.
  Notation d := (cDim cfg).
  Notation part := (particle Rnum d).
  Notation computer := (computer cfg wm).
  Implicit Types (s : computer) (p q : part) (env : environment Rnum cfg).

  (** Particles whose pressure is an unknown: fluid and wall; without virtual surface particles
      only those not on the free surface. *)
  Definition unknown env p : Prop := fluid_or_wall p /\ (cSPP cfg = true \/ eSurf env <= pN p / eN0 env).
  Global Instance unknown_dec env p : Decision (unknown env p).
  Proof.
    unfold unknown, fluid_or_wall. destruct (decide (pT p = Disabled)); [right; tauto|]. destruct (decide (pT p = Dummy)); [right; tauto|].
    destruct (cSPP cfg); [left; tauto|]. destruct (Rle_dec (eSurf env) (pN p / eN0 env)); [left; tauto|].
    right. intros (_ & [?|?]); done.
  Defined.
  (** Coefficient of the discrete Laplacian at distance [r]. *)
  Definition laplacian env (r : R) : R :=
    if cHL cfg then (5 - INR (dimn d)) * eRe env / (eN0 env * r ^ 3)
    else 2 * INR (dimn d) / (eLambda env * eN0 env) * wt r (eRe env).
End Ppe.

(** Who is coupled to whom in the pressure equation. *)
Section Coupling.
  Context {cfg : config} {wm : wallmotion Rnum (cDim cfg)}.
  Notation d := (cDim cfg).
  Notation part := (particle Rnum d).
  Notation computer := (computer cfg wm).
  Implicit Types (s : computer) (p q : part) (env : environment Rnum cfg).

  (** Particle [j] is an unknown within the radius of [i]. *)
  Definition coupled s (i j : nat) : Prop :=
    close (eRe (cEnv s)) s i j /\ at_part s j False (unknown (cEnv s)).
  Global Instance coupled_dec s i j : Decision (coupled s i j).
  Proof. unfold coupled, at_part. destruct (cParts s !! j); apply _. Defined.
  (** No two enabled particles are at the same place. *)
  Definition apart s : Prop :=
    forall i j p q, i <> j -> cParts s !! i = Some p -> cParts s !! j = Some q -> enabled p -> enabled q -> pX p <> pX q.
  (** Unknown [i] is at the free surface: it has a virtual surface particle, or a fluid or wall particle that is no unknown
      (a surface particle) in its radius. *)
  Definition at_surface s (i : nat) p : Prop :=
    virtual s i p <> None \/
    exists j q, close (eRe (cEnv s)) s i j /\ cParts s !! j = Some q /\ fluid_or_wall q /\ ~ unknown (cEnv s) q.
  (** ... or connected with one that is. *)
  Inductive surface_connected s : nat -> Prop :=
  | sc_here i p : cParts s !! i = Some p -> unknown (cEnv s) p -> at_surface s i p -> surface_connected s i
  | sc_next i p j : cParts s !! i = Some p -> unknown (cEnv s) p -> coupled s i j -> surface_connected s j -> surface_connected s i.
End Coupling.

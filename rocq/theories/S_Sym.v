(** Specification vocabulary: the same computation after a rotation, reflection or shift of space and a renumbering of the
    particles (C63). *)
From Verif Require Export S_Scheme S_Reach.
Open Scope R_scope.

(** [Q] is an orthogonal matrix: Q^T Q = Q Q^T = 1. *)
Definition one_if_same (a b : nat) : R := if (a =? b)%nat then 1 else 0.
Definition orthogonal (n : nat) (Q : nat -> nat -> R) : Prop :=
  forall a b, (a < n)%nat -> (b < n)%nat ->
    sum_n n (fun k => Q k a * Q k b) = one_if_same a b /\ sum_n n (fun k => Q a k * Q b k) = one_if_same a b.
(** [f] renumbers [n] things. *)
Definition renumbering (n : nat) (f : nat -> nat) : Prop :=
  (forall i, (i < n)%nat -> (f i < n)%nat) /\ (forall i j, (i < n)%nat -> (j < n)%nat -> f i = f j -> i = j).

Section Sym.
  Context {cfg : config}.
  Notation d := (cDim cfg).
  Notation V := (vec Rnum d).
  Notation part := (particle Rnum d).

  (** Vectors are rotated, points also shifted. *)
  Definition rotate (Q : nat -> nat -> R) (x : V) : V := tmk d (fun a => sum_n (dimn d) (fun k => Q a k * coord x k)).
  Definition carry (Q : nat -> nat -> R) (b : V) (x : V) : V := rotate Q x +^ b.
  Definition carry_part Q b (p : part) : part := mkParticle (carry Q b (pX p)) (rotate Q (pU p)) (pP p) (pN p) (pT p).

  (** Frame [qs] is frame [ps] rotated and shifted, with particle [i] under the number [f i]. *)
  Definition same_frame Q b (f : nat -> nat) (ps qs : list part) : Prop :=
    length qs = length ps /\ renumbering (length ps) f /\
    forall i p, ps !! i = Some p -> qs !! f i = Some (carry_part Q b p).

  (** The same constants, clock and step; gravity rotated. The domain may be any. *)
  Record same_world Q b (e e' : environment Rnum cfg) : Prop := {
    sw_t : eT e' = eT e; sw_dt : eDt e' = eDt e; sw_n0 : eN0 e' = eN0 e; sw_lambda : eLambda e' = eLambda e; sw_c : eC e' = eC e;
    sw_maxdt : eMaxDt e' = eMaxDt e; sw_maxdx : eMaxDx e' = eMaxDx e; sw_l0 : eL0 e' = eL0 e; sw_re : eRe e' = eRe e;
    sw_rho : eRho e' = eRho e; sw_nu : eNu e' = eNu e; sw_surf : eSurf e' = eSurf e; sw_nl : eNL e' = eNL e;
    sw_g : forall x, gravity_at e' (carry Q b x) = rotate Q (gravity_at e x)
  }.

  (** The prescribed motions of walls (and particles out of use) correspond, from corresponding states of the motion onwards. *)
  Definition walls_correspond Q b f (n : nat) (wm wm' : wallmotion Rnum d) (rel : wS wm -> wS wm' -> Prop) : Prop :=
    forall w w' t dt, rel w w' ->
      let v := wPre wm w t dt in let v' := wPre wm' w' t dt in
      rel v v' /\ forall i, (i < n)%nat -> wPos wm' v' (f i) t dt = carry Q b (wPos wm v i t dt).

  (** States that correspond. *)
  Record corresponding Q b f {wm wm' : wallmotion Rnum d} (rel : wS wm -> wS wm' -> Prop) (s : computer cfg wm) (t : computer cfg wm') : Prop := {
    co_frame : same_frame Q b f (cParts s) (cParts t);
    co_world : same_world Q b (cEnv s) (cEnv t);
    co_eps : cEps t = cEps s;
    co_wall : rel (cWall s) (cWall t)
  }.
End Sym.

(** The step ends, normally or because the pressure equation could not be solved. *)
Definition ended {S} (o : outcome S) (s' : S) : Prop := o = Done s' \/ o = Throw CgNotConverged s'.

(** Calls of ForwardTime(dt) made on two computers alongside each other; after each the same particles are out of use. *)
Section Alongside.
  Context {cfg : config} {wm wm' : wallmotion Rnum (cDim cfg)}.
  Definition same_losses (f : nat -> nat) (s : computer cfg wm) (t : computer cfg wm') : Prop :=
    forall i p q, cParts s !! i = Some p -> cParts t !! f i = Some q -> (enabled p <-> enabled q).
  Inductive alongside (f : nat -> nat) : list R -> computer cfg wm -> computer cfg wm' -> computer cfg wm -> computer cfg wm' -> Prop :=
    | al_none s t : alongside f [] s t s t
    | al_step dt dts s t s1 t1 s' t' :
        ended (forward_dt (dt : Rnum) s) s1 -> ended (forward_dt (dt : Rnum) t) t1 -> same_losses f s1 t1 ->
        alongside f dts s1 t1 s' t' -> alongside f (dt :: dts) s t s' t'.
End Alongside.

(** Specification: what the benchmark scenes look like, and lattice scenes in general (C73). *)
From Verif Require Export S_Real S_Main M_Bench.
Open Scope Z_scope.

(** A cell of the lattice holds a particle of the type. *)
Notation cell := (Z * Z)%type.
Definition holds (sites : list site) (t : ptype) (a b : Z) : Prop := (t, a, b) ∈ sites.

(** ** Shapes *)
(** Water: [w] columns from [x0] on, [h] rows from the floor on. *)
Definition water (x0 w h a b : Z) : Prop := x0 <= a < x0 + w /\ 0 <= b < h.
(** The floor and the two sides of a tank of width [w] up to row [top], one layer. *)
Definition inner_wall (w top a b : Z) : Prop := (b = -1 /\ -1 <= a <= w) \/ ((a = -1 \/ a = w) /\ 0 <= b <= top).
(** Three layers behind it. *)
Definition behind_wall (w top a b : Z) : Prop :=
  (-4 <= b <= -2 /\ -4 <= a <= w + 3) \/ (-1 <= b <= top /\ (-4 <= a <= -2 \/ w + 1 <= a <= w + 3)).
(** The rim: the upper ends of the sides, in the row above. *)
Definition rim (w row a b : Z) : Prop := b = row /\ (-4 <= a <= -1 \/ w <= a <= w + 3).

(** The water column of the static pressure scene, open at the top. *)
Definition static_shape (w h : Z) (t : ptype) (a b : Z) : Prop :=
  (t = Newton /\ water 0 w h a b) \/ (t = Wall /\ inner_wall w h a b) \/ (t = Dummy /\ behind_wall w h a b).
(** Water [l] wide and [hw] high, from column [x0] on, in a tank of width [w]; the walls are [h] high, the top one being the rim. *)
Definition dam_shape (x0 l hw w h : Z) (t : ptype) (a b : Z) : Prop :=
  (t = Newton /\ water x0 l hw a b) \/ (t = Wall /\ (inner_wall w (h - 2) a b \/ rim w (h - 1) a b)) \/ (t = Dummy /\ behind_wall w (h - 2) a b).
(** A block of fluid around the origin. *)
Definition block_shape (w h : Z) (t : ptype) (a b : Z) : Prop := t = Newton /\ - w <= a <= w /\ - h <= b <= h.

(** ** Scenes on a lattice *)
(** Every cell holds at most one particle, and all are fluid, walls or dummies. *)
Definition one_each (sites : list site) : Prop :=
  NoDup (map (fun s : site => (s.1.2, s.2)) sites) /\ forall t a b, holds sites t a b -> t = Newton \/ t = Wall \/ t = Dummy.
(** The particle of a cell: at rest, pressure and density 0. *)
Definition stands {N : num} (l_0 : N) (s : site) (p : particle N D2) : Prop :=
  pT p = s.1.1 /\ pX p = ((nofZ s.1.2 ×. l_0, nofZ s.2 ×. l_0) : vec N D2) /\ pU p = ((nofZ 0, nofZ 0) : vec N D2) /\ pP p = nofZ 0 /\ pN p = nofZ 0.
(** The particles are those of the shape, one per cell, on a lattice of width [l_0]. *)
Definition laid_out {N : num} (l_0 : N) (parts : list (particle N D2)) (shape : ptype -> Z -> Z -> Prop) : Prop :=
  exists sites, Forall2 (stands l_0) sites parts /\ one_each sites /\ forall t a b, holds sites t a b <-> shape t a b.
(** Fluid or wall at a cell. *)
Definition solid_or_fluid (sites : list site) (a b : Z) : Prop := holds sites Newton a b \/ holds sites Wall a b.
(** Nothing in the rows above, as far as the radius (2.4 lattice widths) may reach, and something directly below. *)
Definition uncovered (sites : list site) (a b : Z) : Prop :=
  (forall t a' b', holds sites t a' b' -> b < b' -> Z.abs (a' - a) <= 2 -> b + 3 <= b') /\ exists t, holds sites t a (b - 1).
(** From the cell one gets to an uncovered one, from neighbour to neighbour through fluid and walls. *)
Inductive open_above (sites : list site) : Z -> Z -> Prop :=
| oa_here a b : solid_or_fluid sites a b -> uncovered sites a b -> open_above sites a b
| oa_next a b a' b' : solid_or_fluid sites a b -> Z.abs (a - a') + Z.abs (b - b') = 1 -> open_above sites a' b' -> open_above sites a b.
Definition tank (sites : list site) : Prop :=
  one_each sites /\ forall a b, solid_or_fluid sites a b -> open_above sites a b.

(** ** Running a scene, in exact arithmetic *)
Section Run.
  (** Two-dimensional, implicit, with surface particles and uniform gravity; everything else as you like. *)
  Context (hs hl ecs gc ds mid : bool).
  Definition bench_config : config := mkConfig D2 false hs hl ecs gc ds true mid false.
  Open Scope R_scope.
  (** The environment with the constants all scripts use: Courant number 0.1, r_e/l_0 = 2.4. *)
  Definition bench_env (maxDt g rho nu surf c l_0 : R) (minX maxX : vec Rnum D2) : option (environment Rnum bench_config) :=
    new_env (N := Rnum) bench_config maxDt (1/10) g rho nu surf (24/10) c l_0 minX maxX.
  (** All particles are in the domain, or beyond its upper end by less than twice the block size. *)
  Definition in_domain (l_0 : R) (sites : list site) (minX maxX : vec Rnum D2) : Prop :=
    forall t a b, holds sites t a b ->
      coord minX 0 <= IZR a * l_0 < coord maxX 0 + 5.76 * l_0 /\ coord minX 1 <= IZR b * l_0 < coord maxX 1 + 5.76 * l_0.
  (** The domain is not wider or higher than 10^9 lattice widths. *)
  Definition small_domain (l_0 : R) (minX maxX : vec Rnum D2) : Prop :=
    coord maxX 0 - coord minX 0 <= 10 ^ 9 * l_0 /\ coord maxX 1 - coord minX 1 <= 10 ^ 9 * l_0.

  (** The scene can be loaded, and the first call of ForwardTime() succeeds: the time is one MaxDt later, nobody has been taken
      out of use, walls and dummies are in place. *)
  Definition first_step (cond : condition (N := Rnum)) (env : environment Rnum bench_config) (parts : list (particle Rnum D2))
      (s' : computer bench_config (fixed_walls bench_config (map pX parts))) : Prop :=
    exists s : computer bench_config (fixed_walls bench_config (map pX parts)), initial cond env parts s /\ forward s = Done s'.
  Definition first_step_succeeds (cond : condition (N := Rnum)) (env : environment Rnum bench_config) (parts : list (particle Rnum D2)) : Prop :=
    exists s', first_step cond env parts s' /\ eT (cEnv s') = eMaxDt env /\
      Forall2 (fun p p' : particle Rnum D2 => pT p' = pT p /\ (pT p <> Newton -> pX p' = pX p)) parts (cParts s').
End Run.
(** Fluid as far as the radius reaches. *)
Definition deep (sites : list site) (a b : Z) : Prop :=
  forall x y, Z.abs x <= 2 -> Z.abs y <= 2 -> holds sites Newton (a + x) (b + y).

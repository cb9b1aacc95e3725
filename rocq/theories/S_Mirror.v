(** Specification: scenes with a symmetry (C75). *)
From Verif Require Export S_Bench S_Sym.
Open Scope R_scope.

(** Mirror images of a particle: in the vertical line halfway between 0 and [c], in the horizontal line through the origin, in the diagonal. *)
Definition left_right (c : R) (p : particle Rnum D2) : particle Rnum D2 :=
  mkParticle ((c - coord (pX p) 0, coord (pX p) 1) : vec Rnum D2) ((- coord (pU p) 0, coord (pU p) 1) : vec Rnum D2) (pP p) (pN p) (pT p).
Definition upside_down (p : particle Rnum D2) : particle Rnum D2 :=
  mkParticle ((coord (pX p) 0, - coord (pX p) 1) : vec Rnum D2) ((coord (pU p) 0, - coord (pU p) 1) : vec Rnum D2) (pP p) (pN p) (pT p).
Definition diagonal (p : particle Rnum D2) : particle Rnum D2 :=
  mkParticle ((coord (pX p) 1, coord (pX p) 0) : vec Rnum D2) ((coord (pU p) 1, coord (pU p) 0) : vec Rnum D2) (pP p) (pN p) (pT p).
(** The particles as a whole are their own mirror image (the order apart). *)
Definition looks_the_same (image : particle Rnum D2 -> particle Rnum D2) (ps : list (particle Rnum D2)) : Prop := map image ps ≡ₚ ps.

(** All builds in two dimensions. *)
Definition plane (explicit hs hl ecs gc ds spp mid central : bool) : config := mkConfig D2 explicit hs hl ecs gc ds spp mid central.
(** The particles [parts] have been loaded, and after some steps the state is [s']; nobody has been taken out of use. *)
Definition after_some_steps {cfg : config} (cond : M_Main.condition (N := Rnum)) (env : environment Rnum cfg) (parts : list (particle Rnum (cDim cfg)))
    (s' : computer cfg (fixed_walls cfg (map pX parts))) : Prop :=
  exists s n, initial cond env parts s /\ stepped s n s' /\ forall p, p ∈ cParts s' -> pT p <> Disabled.
(** Sum over the fluid. *)
Definition over_fluid (f : particle Rnum D2 -> R) (ps : list (particle Rnum D2)) : R := rsum (map f (filter (fun p => pT p = Newton) ps)).

(** The scene can be loaded, and the first call of ForwardTime() succeeds: the time is one MaxDt later, nobody has changed type. *)
Definition one_step_succeeds {cfg : config} (cond : M_Main.condition (N := Rnum)) (env : environment Rnum cfg) (parts : list (particle Rnum (cDim cfg))) : Prop :=
  exists s s' : computer cfg (fixed_walls cfg (map pX parts)), initial cond env parts s /\ forward s = Done s' /\ eT (cEnv s') = eMaxDt env /\
    Forall2 (fun p p' => pT p' = pT p) parts (cParts s').

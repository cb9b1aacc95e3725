(** Specification: one time step of the MPS scheme, written down on plain lists of particles.

    Nothing here refers to the program: a frame is a list of particles, sums range over all enabled particles within the
    interaction radius, the pressure equation is stated as an equation between sums.  [env] holds the constants and the
    time step; the build switches select the variants of the method. *)
From Verif Require Export S_Real.
Open Scope R_scope.

Section Scheme.
  Context {cfg : config} (env : environment Rnum cfg).
  Notation d := (cDim cfg).
  Notation V := (vec Rnum d).
  Notation part := (particle Rnum d).
  Implicit Types (ps : list part) (p q : part) (i j : nat).

  Notation dt := (eDt env).
  Notation r_e := (eRe env).
  Notation n0 := (eN0 env).
  Notation D := (INR (dimn d)).

  (** ** Sums over neighbours *)

  (** [j] is an enabled particle other than [i], closer to [i] than [r]. *)
  Definition near_to (r : R) ps i j : Prop :=
    i <> j /\ exists p q, ps !! i = Some p /\ ps !! j = Some q /\ enabled q /\ edist (pX p) (pX q) < r.
  Global Instance near_to_dec r ps i j : Decision (near_to r ps i j).
  Proof.
    unfold near_to. destruct (decide (i = j)); [right; tauto|].
    destruct (ps !! i) as [p|]; [|right; intros (_ & p & q & H & _); discriminate].
    destruct (ps !! j) as [q|]; [|right; intros (_ & p' & q & _ & H & _); discriminate].
    destruct (decide (pT q = Disabled)) as [E1|E1]; [right; intros (_ & ? & ? & _ & [= <-] & He & _); by apply He|].
    destruct (Rlt_dec (edist (pX p) (pX q)) r); [left; eauto 10|].
    right. intros (_ & ? & ? & [= <-] & [= <-] & _ & Hc). done.
  Defined.
  Definition nsum ps i (f : nat -> part -> R) : R :=
    sum_n (length ps) (fun j => if decide (near_to r_e ps i j) then match ps !! j with Some q => f j q | None => 0 end else 0).
  Definition nvsum ps i (f : nat -> part -> V) : V :=
    vsum_n (length ps) (fun j => if decide (near_to r_e ps i j) then match ps !! j with Some q => f j q | None => vzero end else vzero).

  (** ** Number density and the virtual surface particle *)
  Definition density ps i p : R := nsum ps i (fun j q => wt (edist (pX p) (pX q)) r_e).

  (** Where the density is below n0, a virtual particle of the weight that is missing is placed opposite to the centroid of
      the neighbours (unless they are balanced up to the machine precision); the particle's velocity, pressure 0. *)
  Definition centre ps i p : V := nvsum ps i (fun j q => (wt (edist (pX p) (pX q)) r_e / n0 : Rnum) *^ (pX q -^ pX p)).
  Definition surface_particle ps i p : option part :=
    if cSPP cfg then
      if Rlt_dec (density ps i p) n0 then
        if Rlt_dec (/ 2 ^ 52) (len (centre ps i p)) then
          let r := r_e / (n0 - density ps i p + 1) in
          Some (mkParticle (pX p -^ (r / len (centre ps i p) : Rnum) *^ centre ps i p) (pU p) 0 0 Newton)
        else None
      else None
    else None.
  Definition surface_term {A} ps i p (none : A) (f : part -> A) : A :=
    match surface_particle ps i p with Some v => f v | None => none end.

  Definition below (a b : R) : bool := if Rlt_dec a b then true else false.
  (** Rate of change of the density: from the velocities (zero at the free surface), or from the deviation from n0. *)
  Definition rate ps i p : R :=
    if cHS cfg then
      if (cSPP cfg && below (density ps i p) n0)%bool then 0
      else - r_e * nsum ps i (fun j q => inner (pX q -^ pX p) (pU q -^ pU p) / edist (pX p) (pX q) ^ 3)
    else (pN p - n0) / dt.
  (** Compensation of accumulated density errors. *)
  Definition compensation ps i p : R :=
    if cECS cfg then
      let e := (pN p - n0) / n0 in Rabs e * rate ps i p + Rabs (rate ps i p) * e
    else 0.

  (** ** The phases *)
  (** Every particle of [ps'] is related to the one of the same number in [ps]. *)
  Definition pointwise (rel : nat -> part -> part -> Prop) ps ps' : Prop :=
    length ps' = length ps /\ forall i p, ps !! i = Some p -> exists p', ps' !! i = Some p' /\ rel i p p'.

  (** Particles that left the domain of the grid are taken out of use. *)
  Definition outside_grid (x : V) : Prop :=
    exists k, (k < dimn d)%nat /\
      (coord x k < coord (eMinX env) k \/
       exists n, IZR n - 1 < (coord (eMaxX env) k - coord (eMinX env) k) / eNL env <= IZR n /\
         coord (eMinX env) k + (IZR n + 2) * eNL env <= coord x k).
  Definition removal ps ps' : Prop :=
    pointwise (fun i p p' =>
      (outside_grid (pX p) -> p' = mkParticle (pX p) (pU p) (pP p) (pN p) Disabled) /\
      (~ outside_grid (pX p) -> p' = p)) ps ps'.

  (** Densities of fluid and walls. *)
  Definition densities ps ps' : Prop :=
    pointwise (fun i p p' =>
      (fluid_or_wall p -> p' = mkParticle (pX p) (pU p) (pP p) (if cSPP cfg then Rmax n0 (density ps i p) else density ps i p) (pT p)) /\
      (~ fluid_or_wall p -> p' = p)) ps ps'.

  (** Viscosity, gravity, prescribed motion ([wall i]: the position prescribed for particle [i]). *)
  Definition viscous_coefficient (r : R) : R :=
    if cHL cfg then eNu env * (5 - D) * r_e / (n0 * r ^ 3) else 2 * eNu env * D / (eLambda env * n0) * wt r r_e.
  Definition friction ps i p : V :=
    nvsum ps i (fun j q => if decide (pT q = Dummy) then vzero
      else (viscous_coefficient (edist (pX p) (pX q)) : Rnum) *^ (pU q -^ pU p)).
  (** Uniform, or of constant strength towards the origin. *)
  Definition gravity_at (x : V) : V :=
    if cCentral cfg then
      if Rlt_dec (len x) (eL0 env / 100) then vzero
      else (coord (eG env) (dimn d - 1) / len x : Rnum) *^ x
    else eG env.
  Definition movement (wall : nat -> V) ps ps' : Prop :=
    pointwise (fun i p p' =>
      (pT p = Newton ->
        let u := pU p +^ (dt : Rnum) *^ (friction ps i p +^ gravity_at (pX p)) in
        p' = mkParticle (pX p +^ (dt : Rnum) *^ u) u (pP p) (pN p) (pT p)) /\
      (pT p <> Newton -> p' = mkParticle (wall i) ((1 / dt : Rnum) *^ (wall i -^ pX p)) (pP p) (pN p) (pT p))) ps ps'.

  (** ** The pressure equation *)
  Definition has_pressure p : Prop := fluid_or_wall p /\ (cSPP cfg = true \/ eSurf env <= pN p / n0).
  Global Instance has_pressure_dec p : Decision (has_pressure p).
  Proof.
    unfold has_pressure, fluid_or_wall. destruct (decide (pT p = Disabled)) as [E1|E1]; [right; tauto|]. destruct (decide (pT p = Dummy)) as [E2|E2]; [right; tauto|].
    destruct (cSPP cfg); [left; tauto|]. destruct (Rle_dec (eSurf env) (pN p / n0)) as [E3|E3]; [left; tauto|].
    right. intros (_ & [?|?]); done.
  Defined.
  Definition laplacian_coefficient (r : R) : R :=
    if cHL cfg then (5 - D) * r_e / (n0 * r ^ 3) else 2 * D / (eLambda env * n0) * wt r r_e.
  (** The discrete Laplacian of the pressures [x] at [i]: over fluid and walls, which have pressure 0 unless it is an unknown,
      and the virtual particle, which has pressure 0. *)
  Definition pressure_laplacian ps (x : nat -> R) i p : R :=
    nsum ps i (fun j q => if decide (pT q = Dummy) then 0
      else laplacian_coefficient (edist (pX p) (pX q)) * ((if decide (has_pressure q) then x j else 0) - x i))
    + surface_term ps i p 0 (fun v => laplacian_coefficient (edist (pX p) (pX v)) * (0 - x i)).
  (** Residual of the equation of particle [i] ([c]: the compensation). *)
  Definition residual (c : nat -> R) ps (x : nat -> R) i p : R :=
    - (eRho env / (n0 * dt)) * (rate ps i p + c i) - pressure_laplacian ps x i p.
  Definition residual2 c ps (x : nat -> R) : R :=
    sum_n (length ps) (fun i => match ps !! i with
                                | Some p => if decide (has_pressure p) then residual c ps x i p ^ 2 else 0
                                | None => 0
                                end).
  (** [x] solves the equation with accuracy [eps] relative to the pressures of before ([x] is those, if they are exact or no
      accuracy is asked for). *)
  Definition old_pressures ps (i : nat) : R := match ps !! i with Some p => pP p | None => 0 end.
  Definition solved (eps : R) c ps (x : nat -> R) : Prop :=
    ((forall i p, ps !! i = Some p -> has_pressure p -> x i = pP p) /\ (eps = 0 \/ residual2 c ps (old_pressures ps) = 0))
    \/ residual2 c ps x < eps ^ 2 * residual2 c ps (old_pressures ps).
  (** Negative pressures are set to 0; dummies and particles out of use keep theirs. *)
  Definition pressures (eps : R) c ps ps' : Prop :=
    if cExplicit cfg then
      pointwise (fun i p p' => p' = mkParticle (pX p) (pU p) (eC env ^ 2 * Rmax 0 (eRho env * pN p / n0 - eRho env)) (pN p) (pT p)) ps ps'
    else
      exists x, solved eps c ps x /\
      pointwise (fun i p p' =>
        (fluid_or_wall p -> p' = mkParticle (pX p) (pU p) (if decide (has_pressure p) then Rmax 0 (x i) else 0) (pN p) (pT p)) /\
        (~ fluid_or_wall p -> p' = p)) ps ps'.

  (** ** Acceleration by the pressure gradient *)
  Definition push_term p q (pij : R) : V :=
    (pij / edist (pX p) (pX q) ^ 2 * wt (edist (pX p) (pX q)) r_e : Rnum) *^ (pX q -^ pX p).
  Definition push ps i p : V :=
    nvsum ps i (fun j q => if decide (pT q = Dummy) then vzero else push_term p q (pP q + pP p))
    +^ surface_term ps i p vzero (fun v => push_term p v (pP p)).
  (** Gradient correction: the sums of dx dx^T w / r^2 and their inverse (if there is one). *)
  Definition moments ps i p (a b : nat) : R :=
    let term q := wt (edist (pX p) (pX q)) r_e / edist (pX p) (pX q) ^ 2 * (coord (pX q -^ pX p) a * coord (pX q -^ pX p) b) in
    nsum ps i (fun j q => term q) + surface_term ps i p 0 term.
  Definition unit_matrix (a b : nat) : R := if (a =? b)%nat then 1 else 0.
  Definition regular (M : nat -> nat -> R) : Prop :=
    match d with
    | D2 => M 0%nat 0%nat * M 1%nat 1%nat - M 0%nat 1%nat * M 1%nat 0%nat
    | D3 => M 0%nat 0%nat * (M 1%nat 1%nat * M 2%nat 2%nat - M 1%nat 2%nat * M 2%nat 1%nat)
            - M 0%nat 1%nat * (M 1%nat 0%nat * M 2%nat 2%nat - M 1%nat 2%nat * M 2%nat 0%nat)
            + M 0%nat 2%nat * (M 1%nat 0%nat * M 2%nat 1%nat - M 1%nat 1%nat * M 2%nat 0%nat)
    end <> 0.
  Definition correction (M C : nat -> nat -> R) : Prop :=
    forall a b, (a < dimn d)%nat -> (b < dimn d)%nat ->
      (regular M -> sum_n (dimn d) (fun k => C a k * M k b) = unit_matrix a b) /\
      (~ regular M -> C a b = D / n0 * unit_matrix a b).
  Definition apply_matrix (C : nat -> nat -> R) (v : V) : V := tmk d (fun a => sum_n (dimn d) (fun k => C a k * coord v k)).
  Definition corrected_push ps i p (C : nat -> nat -> R) : V :=
    let pair q (pq : R) := if cMidpoint cfg then pq + pP p else pq - pP p in
    nvsum ps i (fun j q => if decide (pT q = Dummy) then vzero else apply_matrix C (push_term p q (pair q (pP q))))
    +^ surface_term ps i p vzero (fun v => apply_matrix C (push_term p v (pair v 0))).
  (** [kick p du]: particle [p] after a change of velocity. *)
  Definition kick p (du : V) : part := mkParticle (pX p +^ (dt : Rnum) *^ du) (pU p +^ du) (pP p) (pN p) (pT p).
  Definition acceleration ps ps' : Prop :=
    pointwise (fun i p p' =>
      (pT p = Newton ->
        if cGC cfg then exists C, correction (moments ps i p) C /\
          p' = kick p ((- (dt * pN p / (eRho env * n0)) : Rnum) *^ corrected_push ps i p C)
        else p' = kick p ((- (dt / eRho env * D / n0) : Rnum) *^ push ps i p)) /\
      (pT p <> Newton -> p' = p)) ps ps'.

  (** ** Stabilisation: fluid and wall particles nearer to each other than L_0 - MaxDx are pushed apart along the line that
      joined them before the pressure correction ([ps0]), by the velocity that would bring them to that distance, divided by
      2 n0. *)
  Definition spread (dx dx0 : V) : V :=
    let limit := eL0 env - eMaxDx env in
    let perp := dx -^ (inner dx dx0 / inner dx0 dx0 : Rnum) *^ dx0 in
    ((R_sqrt.sqrt (limit ^ 2 - inner perp perp) - inner dx dx0 / len dx0) / len dx0 : Rnum) *^ dx0.
  Definition place ps j : V := match ps !! j with Some p => pX p | None => vzero end.
  Definition stabilisation ps0 ps ps' : Prop :=
    pointwise (fun i p p' =>
      (pT p = Newton ->
        p' = kick p ((- (1 / (2 * dt * n0)) : Rnum) *^
          nvsum ps i (fun j q => if decide (pT q = Dummy) then vzero
                                 else if Rlt_dec (edist (pX p) (pX q) ^ 2) ((eL0 env - eMaxDx env) ^ 2)
                                 then spread (pX q -^ pX p) (place ps0 j -^ place ps0 i) else vzero))) /\
      (pT p <> Newton -> p' = p)) ps ps'.

  (** ** A whole step *)
  (** First part: everything up to the densities after the movement ([ps2]); [ps1]: the frame from which forces are taken. *)
  Definition first_half (wall : nat -> V) ps ps1 ps2 : Prop :=
    exists ps0 ps', removal ps ps0 /\ densities ps0 ps1 /\ movement wall ps1 ps' /\ densities ps' ps2.
  (** Second part: pressures and their effect. *)
  Definition compensations ps1 (i : nat) : R := match ps1 !! i with Some p => compensation ps1 i p | None => 0 end.
  Definition second_half (eps : R) ps1 ps2 ps4 : Prop :=
    exists ps3, pressures eps (compensations ps1) ps2 ps3 /\ acceleration ps3 ps4.
  (** No enabled particle is displaced by more than [r]. *)
  Definition displaced_at_most (r : R) ps ps' : Prop :=
    forall i p p', ps !! i = Some p -> ps' !! i = Some p' -> enabled p' -> edist (pX p) (pX p') <= r.
  (** The displacements in the step of the scheme that starts from [ps]: by the movement and, if positions are stabilised
      afterwards, by the pressure. *)
  Definition displacements_at_most (r : R) (wall : nat -> V) (eps : R) ps : Prop :=
    (forall ps0 ps1 ps', removal ps ps0 -> densities ps0 ps1 -> movement wall ps1 ps' -> displaced_at_most r ps ps') /\
    (cDS cfg = true -> forall ps1 ps2 ps4, first_half wall ps ps1 ps2 -> second_half eps ps1 ps2 ps4 -> displaced_at_most r ps ps4).
  Definition mps_step (wall : nat -> V) (eps : R) ps ps' : Prop :=
    exists ps1 ps2 ps4, first_half wall ps ps1 ps2 /\ second_half eps ps1 ps2 ps4 /\
      if cDS cfg then stabilisation ps2 ps4 ps' else ps' = ps4.
End Scheme.

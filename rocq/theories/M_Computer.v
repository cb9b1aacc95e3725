(** Computer.hpp: one MPS computation. *)
From Verif Require Export M_Env M_Grid.

(** The user-supplied wall motion (template parameters POSITION_WALL and POSITION_WALL_PRE,
    Computer.hpp:434, 558-562).  The callbacks may share a hidden state [wS], which
    only the pre-hook changes. *)
Record wallmotion (N : num) (d : dim) := mkWall {
  wS : Type;
  wPre : wS -> N -> N -> wS;              (* positionWallPre(t, dt) *)
  wPos : wS -> nat -> N -> N -> vec N d;  (* positionWall(i, t, dt) *)
}.
Arguments wS {N d}. Arguments wPre {N d}. Arguments wPos {N d}.

(** Computer.hpp:568-572 [R]. *)
Definition dist {N : num} {d : dim} (x1 x2 : vec N d) : N := let r := x1 -^ x2 in nsqrt (vdot r r).

(** Computer.hpp:1602-1620: the stabilising term for an overlapping pair, from current and saved
    relative position. *)
Definition ds_term {N : num} {d : dim} (d2 : N) (dx dx0 : vec N d) : vec N d :=
  let e := dx0 /^ vnorm dx0 in
  let r_parallel := vdot dx e in
  let perp := dx -^ r_parallel *^ e in
  let r_perp2 := vdot perp perp in
  (nsqrt (d2 -. r_perp2) -. r_parallel) *^ e.

Section Computer.
  Context {N : num} (cfg : config) (wm : wallmotion N (cDim cfg)).
  Notation d := (cDim cfg).
  Notation V := (vec N d).
  Notation part := (particle N d).

  (** A row of the sparse matrix: (column, value), sorted by column, as in
      compressed_matrix (Computer.hpp:483-498). *)
  Definition mrow : Type := list (nat * N).

  (** Computer.hpp:462-562.  The scratch vectors of the solver ([ppe.cg]), [ppe.tempA] and
      [ppe.a_ij] are overwritten before each use and not part of the state. *)
  Record computer := mkComputer {
    cParts : list part;
    cEnv : environment N cfg;
    cGrid : grid N d;
    cNeighbor : list (list nat);      (* row i: count, then particle numbers *)
    cA : list mrow; cXv : list N; cBv : list N; cEps : N;   (* ppe *)
    cDu : list V;
    cEcs : list N;
    cOrigX : list V;
    cNws : list N;                    (* nWithoutSpp *)
    cWall : wS wm
  }.

  Definition with_parts (s : computer) l := mkComputer l (cEnv s) (cGrid s) (cNeighbor s) (cA s) (cXv s) (cBv s) (cEps s) (cDu s) (cEcs s) (cOrigX s) (cNws s) (cWall s).
  Definition with_env (s : computer) e := mkComputer (cParts s) e (cGrid s) (cNeighbor s) (cA s) (cXv s) (cBv s) (cEps s) (cDu s) (cEcs s) (cOrigX s) (cNws s) (cWall s).
  Definition with_grid (s : computer) g := mkComputer (cParts s) (cEnv s) g (cNeighbor s) (cA s) (cXv s) (cBv s) (cEps s) (cDu s) (cEcs s) (cOrigX s) (cNws s) (cWall s).
  Definition with_neighbor (s : computer) l := mkComputer (cParts s) (cEnv s) (cGrid s) l (cA s) (cXv s) (cBv s) (cEps s) (cDu s) (cEcs s) (cOrigX s) (cNws s) (cWall s).
  Definition with_ppe (s : computer) a x b := mkComputer (cParts s) (cEnv s) (cGrid s) (cNeighbor s) a x b (cEps s) (cDu s) (cEcs s) (cOrigX s) (cNws s) (cWall s).
  Definition with_du (s : computer) l := mkComputer (cParts s) (cEnv s) (cGrid s) (cNeighbor s) (cA s) (cXv s) (cBv s) (cEps s) l (cEcs s) (cOrigX s) (cNws s) (cWall s).
  Definition with_ecs (s : computer) l := mkComputer (cParts s) (cEnv s) (cGrid s) (cNeighbor s) (cA s) (cXv s) (cBv s) (cEps s) (cDu s) l (cOrigX s) (cNws s) (cWall s).
  Definition with_origx (s : computer) l := mkComputer (cParts s) (cEnv s) (cGrid s) (cNeighbor s) (cA s) (cXv s) (cBv s) (cEps s) (cDu s) (cEcs s) l (cNws s) (cWall s).
  Definition with_nws (s : computer) l := mkComputer (cParts s) (cEnv s) (cGrid s) (cNeighbor s) (cA s) (cXv s) (cBv s) (cEps s) (cDu s) (cEcs s) (cOrigX s) l (cWall s).
  Definition with_wall (s : computer) w := mkComputer (cParts s) (cEnv s) (cGrid s) (cNeighbor s) (cA s) (cXv s) (cBv s) (cEps s) (cDu s) (cEcs s) (cOrigX s) (cNws s) w.

  (** particles.size() *)
  Definition psize (s : computer) : nat := length (cParts s).

  (** Computer.hpp:1674-1691: constructor.  The wall callbacks' initial state is supplied. *)
  Definition new_computer (eps : N) (env : environment N cfg) (w : wS wm) : option computer :=
    g ← new_grid d (eNL env) (eL0 env) (eMinX env) (eMaxX env);
    Some (mkComputer [] env g [] [] [] [] eps [] [] [] [] w).

  (** Length of a neighbour row: Computer.hpp:1765. *)
  Definition row_len (s : computer) : nat := 1 + g_cap d (cGrid s) * LAST_NEIGHBOR d.

  (** Computer.hpp:1755-1777 [AddParticles].  New elements of the arrays are
      value-initialised; for the vectors (uninitialised in C++) zero stands for an
      arbitrary value - they are written before being read.  The arrays
      that exist only in some builds are resized in all. *)
  Definition add_particles (src : list part) (s : computer) : computer :=
    let ps := cParts s ++ src in
    let n := length ps in
    mkComputer ps (cEnv s) (cGrid s)
      (resize n (replicate (row_len s) 0%nat) (cNeighbor s))
      (cA s) (cXv s) (cBv s) (cEps s)
      (resize n vzero (cDu s)) (resize n (nofZ 0) (cEcs s))
      (resize n vzero (cOrigX s)) (resize n (nofZ 0) (cNws s)) (cWall s).

  (** Computer.hpp:586-589 [IsSurface]. *)
  Definition is_surface (n n0 ratio : N) : bool := n /. n0 <?. ratio.

  (** Computer.hpp:592-612 [NeighborCount], [Neighbor]: the current neighbour list of [i]. *)
  Definition neighbor_list (s : computer) (i : nat) : option (list nat) :=
    row ← cNeighbor s !! i;
    n ← row !! 0%nat;
    mapM (fun idx => row !! (1 + idx)%nat) (seq 0 n).

  (** Computer.hpp:643-662: one step of the loop over the neighbours; the state is
      ([sum], [dx_g]). *)
  Definition acc_step {A} (s : computer) (i : nat) (thisX : V) (plus : A -> A -> A)
      (func : Z -> part -> A) (st : A * V) (j : nat) : option (A * V) :=
    if (j =? i)%nat then Some st
    else
      q ← cParts s !! j;
      let r_e := eRe (cEnv s) in
      let dx := pX q -^ thisX in
      let r2 := vdot dx dx in
      if r2 <?. r_e ×. r_e then
        Some (plus st.1 (func (Z.of_nat j) q), st.2 +^ weight (nsqrt r2) r_e *^ dx)
      else Some st.

  (** Computer.hpp:680-684: the virtual particle (number -1) of particle [p]. *)
  Definition spp_particle (p : part) (x_spp : V) : part :=
    mkParticle x_spp (pU p) (nofZ 0) (nofZ 0) Newton.

  (** Computer.hpp:664-693: adds the virtual surface particle's contribution. *)
  Definition acc_spp {A} (s : computer) (i : nat) (p : part) (plus : A -> A -> A)
      (func : Z -> part -> A) (st : A * V) : option A :=
    thisN ← cNws s !! i;
    let r_e := eRe (cEnv s) in
    let n0 := eN0 (cEnv s) in
    let dx_g := st.2 /^ n0 in
    if thisN <?. n0 then
      let r_g := nsqrt (vdot dx_g dx_g) in
      if neps <?. r_g then
        let w_spp := n0 -. thisN in
        let r_spp := r_e /. (w_spp +. nofZ 1) in
        let x_spp := pX p -^ (r_spp /. r_g) *^ dx_g in
        Some (plus st.1 (func (-1)%Z (spp_particle p x_spp)))
      else Some st.1
    else Some st.1.

  (** Computer.hpp:614-695 [AccumulateNeighbor].  The field-selection machinery
      (Computer.hpp:56-213) is replaced by handing the whole particle to [func], together
      with its number (the field [ID]).  [plus] is the [+=] of the result type. *)
  Definition acc {A} (s : computer) (i : nat) (zero : A) (plus : A -> A -> A)
      (func : Z -> part -> A) : option A :=
    js ← neighbor_list s i;
    p ← cParts s !! i;
    st ← foldM (acc_step s i (pX p) plus func) (zero, vzero) js;
    if cSPP cfg then acc_spp s i p plus func st else Some st.1.

  (** Computer.hpp:703-717: registration of particle [i] in the grid. *)
  Definition store_one (s : computer) (i : nat) : outcome computer :=
    match cParts s !! i with
    | None => Undef
    | Some p =>
        if is_disabled (pT p) then Done s
        else match store d (cGrid s) (pX p) i with
             | Stored _ g => Done (with_grid s g)
             | Rejected _ => Done (with_parts s (<[i := disable p]> (cParts s)))
             | Overflow _ g => Throw TooManyParticles (with_grid s g)
             | StoreUndef _ => Undef
             end
    end.
  Fixpoint store_all (l : list nat) (s : computer) : outcome computer :=
    match l with [] => Done s | i :: l => store_one s i >>o store_all l end.

  (** Computer.hpp:736-751: of the particles found around [i], those that are enabled,
      different from [i] and closer than NeighborLength. *)
  Fixpoint near (s : computer) (i : nat) (p : part) (js : list nat) : option (list nat) :=
    match js with
    | [] => Some []
    | j :: js =>
        if (j =? i)%nat then near s i p js
        else
          q ← cParts s !! j;
          rest ← near s i p js;
          if is_disabled (pT q) then Some rest
          else if dist (pX p) (pX q) <?. eNL (cEnv s) then Some (j :: rest) else Some rest
    end.

  (** Computer.hpp:719-755: one row of the neighbour table ([None] inside: row untouched). *)
  Definition neighbor_loop : ploop computer (option (list nat)) := mkLoop
    (fun s i =>
       p ← cParts s !! i;
       if is_disabled (pT p) then Some None
       else
         js ← around d (cGrid s) (pX p);
         l ← near s i p js;
         row ← cNeighbor s !! i;
         if (1 + length l <=? length row)%nat then Some (Some l) else None)
    (fun i v s =>
       match v with
       | None => s
       | Some l => with_neighbor s
           (alter (fun row => length l :: l ++ drop (1 + length l) row) i (cNeighbor s))
       end).

  (** Computer.hpp:698-756 [SearchNeighbor]. *)
  Definition search_neighbor (s : computer) : outcome computer :=
    match clear d (cGrid s) with
    | None => Undef
    | Some g =>
        store_all (seq 0 (psize s)) (with_grid s g) >>o
        (fun s => of_opt (run_loop neighbor_loop (psize s) s))
    end.

  (** Computer.hpp:764-770: [std::max_element] by squared speed (first maximum). *)
  Definition max_u_step (base target : part) : part :=
    if vdot (pU base) (pU base) <?. vdot (pU target) (pU target) then target else base.

  (** Computer.hpp:759-777 [DetermineDt]; [None]: no particles, [*end] is dereferenced. *)
  Definition determine_dt (s : computer) : option N :=
    match cParts s with
    | [] => None
    | p :: ps =>
        let maxU := vnorm (pU (foldl max_u_step p ps)) in
        Some (if maxU =?. nofZ 0 then eMaxDt (cEnv s)
              else nmin (eMaxDx (cEnv s) /. maxU) (eMaxDt (cEnv s)))
    end.

  Definition upd_part (i : nat) (f : part -> part) (s : computer) : computer :=
    with_parts s (alter f i (cParts s)).

  (** Computer.hpp:811-823: the density summand. *)
  Definition dens_func (thisX : V) (r_e : N) (j : Z) (q : part) : N :=
    if cSPP cfg && (j <? 0)%Z then nofZ 0 else weight (dist thisX (pX q)) r_e.

  (** Computer.hpp:788-832; value: new nWithoutSpp[i] and new N (if any). *)
  Definition dens_loop : ploop computer (N * option N) := mkLoop
    (fun s i =>
       p ← cParts s !! i;
       let n0 := eN0 (cEnv s) in
       let r_e := eRe (cEnv s) in
       _ ← cNws s !! i;
       (* 800: nWithoutSpp[i] = n0 before the sum is formed *)
       let s1 := with_nws s (<[i := n0]> (cNws s)) in
       if is_active (pT p) then
         thisN ← acc s1 i (nofZ 0) nadd (dens_func (pX p) r_e);
         Some (thisN, Some (if cSPP cfg then nmax thisN n0 else thisN))
       else Some (n0, None))
    (fun i v s =>
       let s := with_nws s (<[i := v.1]> (cNws s)) in
       match v.2 with Some n => upd_part i (set_N n) s | None => s end).

  (** Computer.hpp:780-833 [ComputeNeighborDensities].  (Without MPS_SPP the array
      nWithoutSpp does not exist; the model still writes it, nothing reads it then.) *)
  Definition compute_densities (s : computer) : option computer :=
    run_loop dens_loop (psize s) s.

  (** Computer.hpp:855-862. *)
  Definition speed_func (thisX thisU : V) (j : Z) (q : part) : N :=
    let dx := pX q -^ thisX in
    let du := pU q -^ thisU in
    let r := vnorm dx in
    vdot dx du /. (r ×. r ×. r).

  (** Computer.hpp:838-872 [NeighborDensityVariationSpeed]. *)
  Definition density_speed (s : computer) (i : nat) : option N :=
    p ← cParts s !! i;
    let n0 := eN0 (cEnv s) in
    if cHS cfg then
      let sum :=
        a ← acc s i (nofZ 0) nadd (speed_func (pX p) (pU p));
        Some (nopp (eRe (cEnv s)) ×. a) in
      if cSPP cfg then
        thisN ← cNws s !! i;
        if thisN <?. n0 then Some (nofZ 0) else sum
      else sum
    else Some ((pN p -. n0) /. eDt (cEnv s)).

  (** Computer.hpp:884-909. *)
  Definition ecs_loop : ploop computer (option N) := mkLoop
    (fun s i =>
       p ← cParts s !! i;
       if is_active (pT p) then
         let n0 := eN0 (cEnv s) in
         speed ← density_speed s i;
         let error := (pN p -. n0) /. n0 in
         _ ← cEcs s !! i;
         Some (Some (nabs error ×. speed +. nabs speed ×. error))
       else Some None)
    (fun i v s => match v with Some e => with_ecs s (<[i := e]> (cEcs s)) | None => s end).

  (** Computer.hpp:877-910 [ComputeErrorCorrection]. *)
  Definition compute_ecs (s : computer) : option computer := run_loop ecs_loop (psize s) s.

  (** Computer.hpp:953-977: viscous acceleration caused by one neighbour. *)
  Definition vis_func (env : environment N cfg) (thisX thisU : V) (j : Z) (q : part) : V :=
    if is_dummy (pT q) then vzero
    else
      let r := dist thisX (pX q) in
      let r_e := eRe env in
      if cHL cfg then
        (eNu env ×. nofZ (5 - Z.of_nat (dimn d)) ×. r_e /. eN0 env /. (r ×. r ×. r))
          *^ (pU q -^ thisU)
      else
        let w := weight r r_e in
        (eNu env ×. nofZ 2 ×. nofZ (Z.of_nat (dimn d)) /. eLambda env /. eN0 env ×. w)
          *^ (pU q -^ thisU).

  (** Computer.hpp:925-930, 981-988: gravity acting on a particle at [x]. *)
  Definition gravity (env : environment N cfg) (x : V) : V :=
    if cCentral cfg then
      let r := vnorm x in
      let c := if r <?. eL0 env ×. (nofZ 1 /. nofZ 100) then vzero else x /^ r in
      tget d (eG env) (axis_z d) *^ c
    else eG env.

  (** Computer.hpp:935-990: accelerations. *)
  Definition accel_loop : ploop computer (option V) := mkLoop
    (fun s i =>
       p ← cParts s !! i;
       if is_newton (pT p) then
         vis ← acc s i vzero vadd (vis_func (cEnv s) (pX p) (pU p));
         _ ← cDu s !! i;
         Some (Some (vis +^ gravity (cEnv s) (pX p)))
       else Some None)
    (fun i v s => match v with Some a => with_du s (<[i := a]> (cDu s)) | None => s end).

  (** Computer.hpp:995-1020: new velocity and position. *)
  Definition move_loop : ploop computer (V * V) := mkLoop
    (fun s i =>
       p ← cParts s !! i;
       let t := eT (cEnv s) in
       let dt := eDt (cEnv s) in
       if is_newton (pT p) then
         a ← cDu s !! i;
         let u := pU p +^ vscalr a dt in
         Some (pX p +^ vscalr u dt, u)
       else
         let x := wPos wm (cWall s) i t dt in
         Some (x, (x -^ pX p) /^ dt))
    (fun i v s => upd_part i (fun p => set_U v.2 (set_X v.1 p)) s).

  (** Computer.hpp:914-1021 [ComputeExplicitForces]; 993 runs the wall pre-hook. *)
  Definition compute_explicit (s : computer) : option computer :=
    s1 ← run_loop accel_loop (psize s) s;
    let s2 := with_wall s1 (wPre wm (cWall s1) (eT (cEnv s1)) (eDt (cEnv s1))) in
    run_loop move_loop (psize s2) s2.

  (** Computer.hpp:1025-1039 [SaveX] (a sequential loop in the code). *)
  Definition savex_loop : ploop computer (option V) := mkLoop
    (fun s i =>
       p ← cParts s !! i;
       if is_active (pT p) then _ ← cOrigX s !! i; Some (Some (pX p)) else Some None)
    (fun i v s => match v with Some x => with_origx s (<[i := x]> (cOrigX s)) | None => s end).
  Definition save_x (s : computer) : option computer := run_loop savex_loop (psize s) s.

  (** Computer.hpp:1195-1200, 1246-1251: particles excluded from the pressure equation. *)
  Definition ppe_excluded (env : environment N cfg) (p : part) : bool :=
    negb (is_active (pT p))
    || (negb (cSPP cfg) && is_surface (pN p) (eN0 env) (eSurf env)).

  (** Computer.hpp:1185-1221: right-hand side and start value (b_i, x_i). *)
  Definition rhs_loop : ploop computer (N * N) := mkLoop
    (fun s i =>
       p ← cParts s !! i;
       _ ← cBv s !! i; _ ← cXv s !! i;
       if ppe_excluded (cEnv s) p then Some (nofZ 0, nofZ 0)
       else
         speed ← density_speed s i;
         let k := nopp (eRho (cEnv s)) /. (eN0 (cEnv s) ×. eDt (cEnv s)) in
         if cECS cfg then
           e ← cEcs s !! i;
           Some (k ×. (speed +. e), pP p)
         else Some (k ×. speed, pP p))
    (fun i v s => with_ppe s (cA s) (<[i := v.2]> (cXv s)) (<[i := v.1]> (cBv s))).

  (** Computer.hpp:1288-1297: coefficient a_ij at distance r. *)
  Definition ppe_coef (env : environment N cfg) (r : N) : N :=
    if cHL cfg then
      nofZ (5 - Z.of_nat (dimn d)) ×. eRe env /. eN0 env /. (r ×. r ×. r)
    else
      nofZ (2 * Z.of_nat (dimn d)) /. eLambda env /. eN0 env ×. weight r (eRe env).

  (** Computer.hpp:1267-1320: contribution of one neighbour: entries pushed to the row and
      summand of the diagonal. *)
  Definition ppe_func (env : environment N cfg) (thisX : V) (j : Z) (q : part) : mrow * N :=
    if is_dummy (pT q) then ([], nofZ 0)
    else
      let a_ij := ppe_coef env (dist thisX (pX q)) in
      let keep := if cSPP cfg then (0 <=? j)%Z
                  else negb (is_surface (pN q) (eN0 env) (eSurf env)) in
      (if keep then [(Z.to_nat j, a_ij)] else [], nopp a_ij).
  Definition ppe_zero : mrow * N := ([], nofZ 0).
  Definition ppe_plus (a b : mrow * N) : mrow * N := (a.1 ++ b.1, a.2 +. b.2).

  (** compressed_matrix assignment [A(i, j) = v] within one row: sorted by column,
      an existing entry is overwritten. *)
  Fixpoint row_set (j : nat) (v : N) (row : mrow) : mrow :=
    match row with
    | [] => [(j, v)]
    | (k, w) :: row' =>
        if (j <? k)%nat then (j, v) :: row
        else if (j =? k)%nat then (j, v) :: row'
        else (k, w) :: row_set j v row'
    end.

  (** Computer.hpp:1231-1350: the row assignments of particle [i] in program order,
      stored into row [i] (the OpenMP build collects them in a_ij[i] first and copies them
      afterwards, 1330-1349; the other build assigns directly: same assignments, same order). A
      column outside the matrix would be out of bounds. *)
  Definition matrix_loop : ploop computer mrow := mkLoop
    (fun s i =>
       p ← cParts s !! i;
       _ ← cA s !! i;
       entries ←
         (if ppe_excluded (cEnv s) p then Some [(i, nofZ 1)]
          else
            a ← acc s i ppe_zero ppe_plus (ppe_func (cEnv s) (pX p));
            Some (a.1 ++ [(i, a.2)]));
       if forallb (fun e : nat * N => (e.1 <? length (cA s))%nat) entries
       then Some (foldl (fun row e => row_set e.1 e.2 row) [] entries)
       else None)
    (fun i v s => with_ppe s (<[i := v]> (cA s)) (cXv s) (cBv s)).

  (** Computer.hpp:1145-1356 [SetPressurePoissonEquation].  1162-1183: the system is
      re-created when the number of particles has changed. *)
  Definition set_ppe (s : computer) : option computer :=
    let n := psize s in
    let s0 := if (n =? length (cBv s))%nat then s
              else with_ppe s (replicate n []) (replicate n (nofZ 0)) (replicate n (nofZ 0)) in
    s1 ← run_loop rhs_loop n s0;
    run_loop matrix_loop n s1.

  (** Sparse matrix times vector, vector expressions and inner product of the solver's
      library (sequential order).  The columns are in range by construction. *)
  Definition row_prod (row : mrow) (x : list N) : N :=
    foldl (fun t e => t +. e.2 ×. nth e.1 x (nofZ 0)) (nofZ 0) row.
  Definition lprod (A : list mrow) (x : list N) : list N := map (fun row => row_prod row x) A.
  Definition ldot (a b : list N) : N := foldl (fun t p => t +. p.1 ×. p.2) (nofZ 0) (zip a b).
  Definition ladd (a b : list N) : list N := zip_with nadd a b.
  Definition lsub (a b : list N) : list N := zip_with nsub a b.
  Definition lscal (c : N) (a : list N) : list N := map (nmul c) a.

  (** Computer.hpp:1392-1421: at most [fuel] further iterations; result: x and [isConverged]. *)
  Fixpoint cg_loop (A : list mrow) (residual0 : N) (fuel : nat) (x r p : list N) (rr : N)
    : list N * bool :=
    match fuel with
    | O => (x, false)
    | S fuel =>
        let Ap := lprod A p in
        let alpha := rr /. ldot p Ap in
        let x' := ladd x (lscal alpha p) in
        let r' := lsub r (lscal alpha Ap) in
        let rrNew := ldot r' r' in
        if rrNew <?. residual0 then (x', true)
        else
          let beta := rrNew /. rr in
          cg_loop A residual0 fuel x' r' (ladd r' (lscal beta p)) rrNew
    end.

  (** Computer.hpp:1359-1429 [SolvePressurePoissonEquation] on plain data. *)
  Definition cg_solve (A : list mrow) (x b : list N) (eps : N) : list N * bool :=
    let r := lsub b (lprod A x) in
    let rr := ldot r r in
    let residual0 := rr ×. eps ×. eps in
    if residual0 =?. nofZ 0 then (x, true)
    else cg_loop A residual0 (length x) x r r rr.

  Definition solve_ppe (s : computer) : outcome computer :=
    let res := cg_solve (cA s) (cXv s) (cBv s) (cEps s) in
    let s' := with_ppe s (cA s) res.1 (cBv s) in
    if res.2 then Done s' else Throw CgNotConverged s'.

  (** Computer.hpp:1075-1097: pressures from the solution. *)
  Definition assign_loop : ploop computer (option N) := mkLoop
    (fun s i =>
       q ← cParts s !! i;
       if is_active (pT q) then
         p ← cXv s !! i;
         Some (Some (if (p <?. nofZ 0)
                        || (negb (cSPP cfg)
                            && is_surface (pN q) (eN0 (cEnv s)) (eSurf (cEnv s)))
                     then nofZ 0 else p))
       else Some None)
    (fun i v s => match v with Some p => upd_part i (set_P p) s | None => s end).

  (** Computer.hpp:1046-1067: explicit pressure. *)
  Definition explicit_pressure (env : environment N cfg) (n : N) : N :=
    let rho0 := eRho env in
    let rho := rho0 /. eN0 env ×. n in
    if rho <=?. rho0 then nofZ 0 else eC env ×. eC env ×. (rho -. rho0).
  Definition explicit_loop : ploop computer N := mkLoop
    (fun s i => p ← cParts s !! i; Some (explicit_pressure (cEnv s) (pN p)))
    (fun i v s => upd_part i (set_P v) s).

  (** Computer.hpp:1460-1470: summand of the corrective matrix. *)
  Definition gc_matrix_func (thisX : V) (r_e : N) (j : Z) (q : part) : mat N d :=
    let dx := pX q -^ thisX in
    let r2 := vdot dx dx in
    let w := weight (dist (pX q) thisX) r_e in
    mscal (w /. r2) (mouter dx dx).

  (** Computer.hpp:1476-1499. *)
  Definition gc_func (thisP : N) (thisX : V) (r_e : N) (C : mat N d) (j : Z) (q : part) : V :=
    if is_dummy (pT q) then vzero
    else
      let p_ij := if cMidpoint cfg then pP q +. thisP else pP q -. thisP in
      let dx := pX q -^ thisX in
      let r2 := vdot dx dx in
      (p_ij /. r2 ×. weight (dist (pX q) thisX) r_e) *^ mprod C dx.

  (** Computer.hpp:1505-1521. *)
  Definition grad_func (thisP : N) (thisX : V) (r_e : N) (j : Z) (q : part) : V :=
    if is_dummy (pT q) then vzero
    else
      let dx := pX q -^ thisX in
      let r2 := vdot dx dx in
      ((pP q +. thisP) /. r2 ×. weight (nsqrt r2) r_e) *^ dx.

  (** Computer.hpp:1435-1541: velocity change by the pressure gradient. *)
  Definition grad_loop : ploop computer (option V) := mkLoop
    (fun s i =>
       p ← cParts s !! i;
       if is_newton (pT p) then
         let env := cEnv s in
         let r_e := eRe env in
         let dt := eDt env in
         let rho := eRho env in
         let n0 := eN0 env in
         res ← (if cGC cfg then
                invC ← acc s i mzero madd (gc_matrix_func (pX p) r_e);
                let C := minvert invC (nofZ (Z.of_nat (dimn d)) /. n0) in
                a ← acc s i vzero vadd (gc_func (pP p) (pX p) r_e C);
                Some ((nopp dt ×. pN p /. (rho ×. n0)) *^ a)
              else
                a ← acc s i vzero vadd (grad_func (pP p) (pX p) r_e);
                Some ((nopp dt /. rho ×. nofZ (Z.of_nat (dimn d)) /. n0) *^ a));
         _ ← cDu s !! i;
         Some (Some res)
       else Some None)
    (fun i v s => match v with Some a => with_du s (<[i := a]> (cDu s)) | None => s end).

  (** Computer.hpp:1543-1563 and, identically, 1637-1655: apply du. *)
  Definition kick_loop : ploop computer (option V) := mkLoop
    (fun s i =>
       p ← cParts s !! i;
       if is_newton (pT p) then a ← cDu s !! i; Some (Some a) else Some None)
    (fun i v s =>
       match v with
       | Some a => upd_part i (fun p =>
           set_X (pX p +^ vscalr a (eDt (cEnv s))) (set_U (pU p +^ a) p)) s
       | None => s
       end).

  (** Computer.hpp:1433-1564 [ModifyByPressureGradient]. *)
  Definition modify_by_gradient (s : computer) : option computer :=
    s1 ← run_loop grad_loop (psize s) s; run_loop kick_loop (psize s1) s1.

  (** Computer.hpp:1043-1102 [ComputeImplicitForces]. *)
  Definition compute_implicit (s : computer) : outcome computer :=
    (if cExplicit cfg then of_opt (run_loop explicit_loop (psize s) s)
     else of_opt (set_ppe s) >>o solve_ppe >>o
          (fun s => of_opt (run_loop assign_loop (psize s) s)))
    >>o (fun s => of_opt (modify_by_gradient s)).

  (** Computer.hpp:1593-1631.  [None]: originalX[j] out of bounds. *)
  Definition ds_func (s : computer) (x0 thisX : V) (d2 : N) (j : Z) (q : part) : option V :=
    if negb (is_dummy (pT q)) && (negb (cSPP cfg) || (0 <=? j)%Z) then
      let dx := pX q -^ thisX in
      let r2 := vdot dx dx in
      if r2 <?. d2 then
        xx0 ← cOrigX s !! Z.to_nat j;
        Some (ds_term d2 dx (xx0 -^ x0))
      else Some vzero
    else Some vzero.
  Definition ds_plus (a b : option V) : option V :=
    x ← a; y ← b; Some (x +^ y).

  (** Computer.hpp:1570-1635. *)
  Definition ds_loop : ploop computer (option V) := mkLoop
    (fun s i =>
       p ← cParts s !! i;
       if is_newton (pT p) then
         let env := cEnv s in
         let d := eL0 env -. eMaxDx env in
         x0 ← cOrigX s !! i;
         a ← acc s i (Some vzero) ds_plus (ds_func s x0 (pX p) (d ×. d));
         a ← a;
         _ ← cDu s !! i;
         Some (Some ((nofZ (-1) /. (nofZ 2 ×. eDt env ×. eN0 env)) *^ a))
       else Some None)
    (fun i v s => match v with Some a => with_du s (<[i := a]> (cDu s)) | None => s end).

  (** Computer.hpp:1568-1656 [DynamicStabilize]. *)
  Definition stabilize (s : computer) : option computer :=
    s1 ← run_loop ds_loop (psize s) s; run_loop kick_loop (psize s1) s1.

  (** Computer.hpp:1700-1742 [ForwardTime(dt)]. *)
  Definition forward_dt (dt : N) (s : computer) : outcome computer :=
    search_neighbor (with_env s (set_next_t (set_dt dt (cEnv s)))) >>o
    (fun s => of_opt (compute_densities s)) >>o
    (fun s => if cECS cfg then of_opt (compute_ecs s) else Done s) >>o
    (fun s => of_opt (compute_explicit s)) >>o
    (fun s => of_opt (compute_densities s)) >>o
    (fun s => if cDS cfg then of_opt (save_x s) else Done s) >>o
    compute_implicit >>o
    (fun s => if cDS cfg then of_opt (stabilize s) else Done s).

  (** Computer.hpp:1745-1751 [ForwardTime()]. *)
  Definition forward (s : computer) : outcome computer :=
    match determine_dt s with None => Undef | Some dt => forward_dt dt s end.

  (** The public mutating API (Computer.hpp:1699-1777) and histories of calls: an
      exception is observed by the caller, who may go on using the object. *)
  Inductive api := AddParticles (src : list part) | ForwardTimeBy (dt : N) | ForwardTime.
  Definition api_step (o : api) (s : computer) : outcome computer :=
    match o with
    | AddParticles src => Done (add_particles src s)
    | ForwardTimeBy dt => forward_dt dt s
    | ForwardTime => forward s
    end.
  (** State after a history; [None] once undefined behaviour has occurred. *)
  Fixpoint api_run (ops : list api) (s : computer) : option computer :=
    match ops with
    | [] => Some s
    | o :: ops => match api_step o s with
                  | Done s' | Throw _ s' => api_run ops s'
                  | Undef => None
                  end
    end.
End Computer.

Arguments cParts {N cfg wm}.
Arguments cEnv {N cfg wm}.
Arguments cGrid {N cfg wm}.
Arguments cNeighbor {N cfg wm}.
Arguments cA {N cfg wm}.
Arguments cXv {N cfg wm}.
Arguments cBv {N cfg wm}.
Arguments cEps {N cfg wm}.
Arguments cDu {N cfg wm}.
Arguments cEcs {N cfg wm}.
Arguments cOrigX {N cfg wm}.
Arguments cNws {N cfg wm}.
Arguments cWall {N cfg wm}.
Arguments with_parts {N cfg wm}.
Arguments with_env {N cfg wm}.
Arguments with_grid {N cfg wm}.
Arguments with_neighbor {N cfg wm}.
Arguments with_ppe {N cfg wm}.
Arguments with_du {N cfg wm}.
Arguments with_ecs {N cfg wm}.
Arguments with_origx {N cfg wm}.
Arguments with_nws {N cfg wm}.
Arguments with_wall {N cfg wm}.
Arguments psize {N cfg wm}.
Arguments row_len {N cfg wm}.
Arguments add_particles {N cfg wm}.
Arguments neighbor_list {N cfg wm}.
Arguments acc_step {N cfg wm A}.
Arguments acc_spp {N cfg wm A}.
Arguments acc {N cfg wm A}.
Arguments store_one {N cfg wm}.
Arguments store_all {N cfg wm}.
Arguments near {N cfg wm}.
Arguments search_neighbor {N cfg wm}.
Arguments determine_dt {N cfg wm}.
Arguments upd_part {N cfg wm}.
Arguments compute_densities {N cfg wm}.
Arguments density_speed {N cfg wm}.
Arguments compute_ecs {N cfg wm}.
Arguments compute_explicit {N cfg wm}.
Arguments save_x {N cfg wm}.
Arguments set_ppe {N cfg wm}.
Arguments solve_ppe {N cfg wm}.
Arguments modify_by_gradient {N cfg wm}.
Arguments compute_implicit {N cfg wm}.
Arguments ds_func {N cfg wm}.
Arguments stabilize {N cfg wm}.
Arguments forward_dt {N cfg wm}.
Arguments forward {N cfg wm}.
Arguments api_step {N cfg wm}.
Arguments api_run {N cfg wm}.
Arguments vis_func {N cfg}.
Arguments ppe_coef {N cfg}.
Arguments gravity {N cfg}.
Arguments ppe_excluded {N cfg}.
Arguments ppe_func {N cfg}.
Arguments explicit_pressure {N cfg}.
Arguments gc_matrix_func {N cfg}.
Arguments grad_func {N cfg}.
Arguments spp_particle {N cfg}.
Arguments max_u_step {N cfg}.

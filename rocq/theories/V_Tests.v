(** Validation of the model: the repository's own unit tests (src/OpenMps/test), run on the model in binary64 with the
    build selected in the repository.  These are tests of the model, not properties of the program: they show that the functions of
    the model compute what the program's authors check the program for.  Left out: test_ComputerExplicitForces.cpp, whose
    cases are commented out, and what only concerns overloads of C++ (DistanceOverload). *)
From Verif Require Import M_NumF M_Main.

Notation tcfg := default_config.
Notation twall := (fixed_walls (N := F64num) tcfg []).
Notation tcomputer := (computer tcfg twall).
Notation tpart := (particle F64num D2).
(** A decimal literal a/b with a and b below 2^53: the division rounds correctly, as the compiler does. *)
Definition dec (a b : Z) : F64num := nofZ a /. nofZ b.
Definition near_by (x y tol : F64num) : bool := nabs (x -. y) <=?. tol.
Definition same (x y : F64num) : bool := x =?. y.
Definition size (n : nat) : F64num := nofZ (Z.of_nat n).

(** The fixtures: Environment, Dt and SetNextT if the fixture sets them, Computer, AddParticles with a lattice. *)
Definition fixture (dt_step courant g rho nu r_e l0 : F64num) (minX maxX : vec F64num D2) (eps : F64num) (step : bool) (ps : list tpart) : option tcomputer :=
  match new_env tcfg dt_step courant g rho nu (dec 95 100) r_e (dec 1 1) l0 minX maxX with
  | None => None
  | Some e =>
      let e := if step then set_next_t (set_dt dt_step e) else e in
      match new_computer tcfg twall eps e tt with
      | None => None
      | Some s => Some (add_particles (cfg := tcfg) (wm := twall) ps s)
      end
  end.
(** for j { for i { x = i l0; z = j l0 } } *)
Definition lattice_of (nx nz : nat) (l0 : F64num) (u : F64num -> F64num -> vec F64num D2) (p : nat -> nat -> F64num) : list tpart :=
  concat (map (fun j => map (fun i =>
    let x := size i ×. l0 in let z := size j ×. l0 in
    mkParticle (N := F64num) (d := D2) (x, z) (u x z) (p i j) (nofZ 0) Newton) (seq 0 nx)) (seq 0 nz)).
Definition at_rest (x z : F64num) : vec F64num D2 := (nofZ 0, nofZ 0).
Definition no_pressure (i j : nat) : F64num := nofZ 0.
Definition on (o : option tcomputer) (f : tcomputer -> bool) : bool := match o with Some s => f s | None => false end.
Definition searched_by (s : tcomputer) : option tcomputer := match search_neighbor s with Done s1 => Some s1 | _ => None end.
Definition prepared (o : option tcomputer) : option tcomputer := s ← o; s1 ← searched_by s; compute_densities s1.
Definition nb (s : tcomputer) (i : nat) : list nat := match neighbor_list s i with Some l => l | None => [] end.
Definition all_of (s : tcomputer) (f : nat -> tpart -> bool) : bool :=
  forallb (fun ip : nat * tpart => f ip.1 ip.2) (zip (seq 0 (psize s)) (cParts s)).
Definition entry (s : tcomputer) (i j : nat) : F64num :=
  match cA s !! i with
  | Some row => foldl (fun t e => if (e.1 =? j)%nat then e.2 else t) (nofZ 0) row
  | None => nofZ 0
  end.

(** ** test_ComputerConstructor.cpp *)
Definition dt_step : F64num := nofZ 1 /. nofZ 100.
Definition courant : F64num := dec 1 10.
Definition rho : F64num := dec 9982 10.
Definition nu : F64num := dec 1004 1000000000.
Definition c_l0 : F64num := dec 1 1000.
Definition c_state : option tcomputer :=
  fixture dt_step courant (dec 98 10) rho nu (dec 24 10) c_l0 (dec (-4) 1000, dec (-4) 1000) (dec 53 1000, dec 1 10) (dec 1 10000000000) false
    (lattice_of 7 9 c_l0 at_rest no_pressure).
(** 113-152 *)
Definition FieldEnvironment : bool := on c_state (fun s =>
  let env := cEnv s in
  let dx_courant := courant ×. c_l0 in
  same (eG env).1 (nofZ 0) && same (eG env).2 (nopp (dec 98 10)) && same (eRho env) rho && same (eNu env) nu && same (eL0 env) c_l0
  && same (eRe env) (dec 24 10 ×. c_l0) && same (eMinX env).1 (dec (-4) 1000) && same (eMinX env).2 (dec (-4) 1000)
  && same (eMaxX env).1 (dec 53 1000) && same (eMaxX env).2 (dec 1 10)
  && (eMaxDt env <=?. dt_step) && (eMaxDt env <=?. nsqrt (nofZ 2 ×. dx_courant /. dec 98 10))
  && (dx_courant <=?. eMaxDx env) && (dec 24 10 ×. c_l0 ×. (nofZ 1 +. courant) <=?. eNL env)).
(** 154-172 *)
Definition FieldParticles : bool := on c_state (fun s =>
  (psize s =? 7 * 9)%nat && all_of s (fun _ p =>
    ((pX p).1 <=?. size 6 ×. c_l0) && (nofZ 0 <=?. (pX p).1) && ((pX p).2 <=?. size 8 ×. c_l0) && (nofZ 0 <=?. (pX p).2))).
(** 174-180 *)
Definition FieldComputer : bool := on c_state (fun s => same (cEps s) (dec 1 10000000000)).

(** ** test_ComputerNumberDensity.cpp *)
Definition n_l0 : F64num := dec 1 10.
Definition n_state : option tcomputer :=
  fixture dt_step courant (dec 98 10) rho nu (dec 21 10) n_l0 (dec (-4) 1000, dec (-4) 1000) (dec 53 1000, dec 1 10) (dec 1 10000000000) false
    (lattice_of 7 7 n_l0 at_rest no_pressure).
Definition pt (x z : F64num) : vec F64num D2 := (x, z).
(** 141-152, 155-167, 185-204 *)
Definition DistanceValue : bool := same (dist (pt (nofZ 0) (nofZ 0)) (pt (nofZ 1) (nofZ 2))) (nsqrt (nofZ 1 ×. nofZ 1 +. nofZ 2 ×. nofZ 2)).
Definition P1 := pt (dec (-10) 1) (dec 1 10).
Definition P2 := pt (dec 15 10) (dec 28 10).
Definition P3 := pt (dec 100 1) (dec (-308) 10).
Definition DistanceSymmetry : bool := same (dist P1 P2) (dist P2 P1).
Definition DistanceTriangleInequality : bool :=
  (dist P1 P2 <=?. dist P1 P3 +. dist P2 P3) && (dist P2 P3 <=?. dist P1 P2 +. dist P1 P3) && (dist P3 P1 <=?. dist P1 P2 +. dist P2 P3).
(** 207-236 *)
Definition NeighborSymmetry : bool := on (s ← n_state; searched_by s) (fun s =>
  all_of s (fun i p => is_disabled (pT p) || forallb (fun j => existsb (Nat.eqb i) (nb s j)) (nb s i))).
(** 239-258 *)
Definition NeighborMyself : bool := on (s ← n_state; searched_by s) (fun s =>
  all_of s (fun i p => is_disabled (pT p) || negb (existsb (Nat.eqb i) (nb s i)))).
(** 261-276 *)
Definition NeighDensity : bool := on (prepared n_state) (fun s =>
  match cParts s !! (6 / 2 * 8)%nat with Some p => near_by (pN p) (dec 6539696962 1000000000) (dec 1 100000) | None => false end).

(** ** test_ComputerNeighborDensityVariation.cpp *)
Definition v_state (u : F64num -> F64num -> vec F64num D2) : option tcomputer :=
  prepared (fixture dt_step courant (nofZ 0) rho nu (dec 5 1) (dec 1 1) (dec (-50) 1, dec (-50) 1) (dec 50 1, dec 50 1) (dec 1 10000000000) true
    (lattice_of 35 35 (dec 1 1) u no_pressure)).
Definition inner_ids (n margin : nat) : list (nat * nat) :=
  concat (map (fun j => map (fun i => (i, j)) (seq margin (n - 2 * margin))) (seq margin (n - 2 * margin))).
Definition variation_ok (s : tcomputer) (analytic : F64num -> F64num -> F64num) : bool :=
  forallb (fun ij : nat * nat =>
    match density_speed s (ij.1 + 35 * ij.2), cParts s !! (ij.1 + 35 * ij.2)%nat with
    | Some v, Some p => let a := analytic (size ij.1 ×. dec 1 1) (size ij.2 ×. dec 1 1) in near_by (nabs ((v /. pN p -. a) /. a)) (nofZ 0) (dec 1 10)
    | _, _ => false
    end) (inner_ids 35 15).
(** 116-160 *)
Definition ValueTestLinear : bool :=
  on (v_state (fun x z => (dec 1 1 ×. x, dec (-3) 10 ×. z))) (fun s => variation_ok s (fun _ _ => nopp (dec 1 1 +. dec (-3) 10))).
(** 164-213 *)
Definition ValueTestPolynomial : bool :=
  on (v_state (fun x z => (nofZ 1 /. nofZ 2 ×. dec 1 1 ×. (x ×. x), nofZ 1 /. nofZ 3 ×. dec (-15) 10 ×. (z ×. z ×. z))))
    (fun s => variation_ok s (fun x z => nopp (dec 1 1 ×. x +. dec (-15) 10 ×. z ×. z))).

(** ** test_ComputerPressureGradient.cpp *)
Definition g_state (p : nat -> nat -> F64num) : option tcomputer :=
  s ← prepared (fixture dt_step courant (dec 98 10) rho nu (dec 15 10) (dec 1 1) (dec (-50) 1, dec (-50) 1) (dec 50 1, dec 50 1) (dec 1 10000000000) true
    (lattice_of 20 20 (dec 1 1) at_rest p));
  modify_by_gradient s.
Definition gradient_ok (s : tcomputer) (analytic : nat -> nat -> tpart -> vec F64num D2) : bool :=
  let prefact := nopp (eDt (cEnv s)) /. eRho (cEnv s) in
  let close_to a b := near_by (nabs ((a -. b) /. b)) (nofZ 0) (dec 5 100) in
  forallb (fun ij : nat * nat =>
    match cParts s !! (ij.1 + 20 * ij.2)%nat with
    | Some p =>
        let a := analytic ij.1 ij.2 p in
        close_to ((pU p).1 /. prefact) a.1 && close_to ((pU p).2 /. prefact) a.2
        && close_to ((pX p).1 -. size ij.1 ×. dec 1 1) (prefact ×. a.1 ×. eDt (cEnv s))
        && close_to ((pX p).2 -. size ij.2 ×. dec 1 1) (prefact ×. a.2 ×. eDt (cEnv s))
    | None => false
    end) (inner_ids 20 5).
(** 117-183 *)
Definition dl : F64num := dec 15 10 ×. nofZ 10.
Definition gradpx : F64num := nofZ 1 /. (dl ×. dl).
Definition gradpz : F64num := nopp (nofZ 1) /. (dl ×. dl).
Definition GradValuePolynomial : bool :=
  on (g_state (fun i j => let x := size i ×. dec 1 1 in let z := size j ×. dec 1 1 in
        nofZ 1 /. nofZ 2 ×. (x ×. x) ×. gradpx +. nofZ 1 /. nofZ 3 ×. (z ×. z ×. z) ×. gradpz))
    (fun s => gradient_ok s (fun i j _ => let x := size i ×. dec 1 1 in let z := size j ×. dec 1 1 in (gradpx ×. x, gradpz ×. z ×. z))).
(** 187-251.  cos (k i) and sin (k i) for i = 0 .. 19 are given as doubles (the model has no cos); the analytic value is taken at
    the lattice point instead of the particle's position, which is less than 10^-6 away. *)
Definition wavek : F64num := nofZ (7545853602163669) /. nofZ 18014398509481984.
Definition cosines : list F64num := [nofZ (1) /. nofZ 1;
  nofZ (8228485965250453) /. nofZ 9007199254740992;
  nofZ (753374087364987) /. nofZ 1125899906842624;
  nofZ (347922205179541) /. nofZ 1125899906842624;
  nofZ (-3766034785774513) /. nofZ 36028797018963968;
  nofZ (-2251799813685247) /. nofZ 4503599627370496;
  nofZ (-7286977268806823) /. nofZ 9007199254740992;
  nofZ (-8810370340356223) /. nofZ 9007199254740992;
  nofZ (-68831018284033) /. nofZ 70368744177664;
  nofZ (-7286977268806825) /. nofZ 9007199254740992;
  nofZ (-1125899906842625) /. nofZ 2251799813685248;
  nofZ (-7532069571549091) /. nofZ 72057594037927936;
  nofZ (1391688820718163) /. nofZ 4503599627370496;
  nofZ (1506748174729973) /. nofZ 2251799813685248;
  nofZ (4114242982625225) /. nofZ 4503599627370496;
  nofZ (1) /. nofZ 1;
  nofZ (8228485965250455) /. nofZ 9007199254740992;
  nofZ (3013496349459951) /. nofZ 4503599627370496;
  nofZ (5566755282872661) /. nofZ 18014398509481984;
  nofZ (-7532069571548993) /. nofZ 72057594037927936].
Definition sines : list F64num := [nofZ (0) /. nofZ 1;
  nofZ (457944748548525) /. nofZ 1125899906842624;
  nofZ (6693653518204609) /. nofZ 9007199254740992;
  nofZ (8566355544790271) /. nofZ 9007199254740992;
  nofZ (8957856874784711) /. nofZ 9007199254740992;
  nofZ (7800463371553963) /. nofZ 9007199254740992;
  nofZ (5294298886396511) /. nofZ 9007199254740992;
  nofZ (1872702026585665) /. nofZ 9007199254740992;
  nofZ (-1872702026585659) /. nofZ 9007199254740992;
  nofZ (-5294298886396509) /. nofZ 9007199254740992;
  nofZ (-975057921444245) /. nofZ 1125899906842624;
  nofZ (-4478928437392355) /. nofZ 4503599627370496;
  nofZ (-33462326346837) /. nofZ 35184372088832;
  nofZ (-6693653518204613) /. nofZ 9007199254740992;
  nofZ (-3663557988388207) /. nofZ 9007199254740992;
  nofZ (-4967757600021511) /. nofZ 20282409603651670423947251286016;
  nofZ (915889497097049) /. nofZ 2251799813685248;
  nofZ (6693653518204605) /. nofZ 9007199254740992;
  nofZ (8566355544790271) /. nofZ 9007199254740992;
  nofZ (8957856874784711) /. nofZ 9007199254740992].
Definition of_table (l : list F64num) (i : nat) : F64num := nth i l (nofZ 0).
Definition GradValueTrignometric : bool :=
  on (g_state (fun i j => dec 1 1 ×. of_table cosines i +. dec (-1) 1 ×. of_table sines j))
    (fun s => gradient_ok s (fun i j _ => (dec (-1) 1 ×. of_table sines i ×. wavek, dec (-1) 1 ×. of_table cosines j ×. wavek))).

(** ** test_ComputerImplicitForces.cpp *)
Definition i_state (n : nat) (u : F64num -> F64num -> vec F64num D2) : option tcomputer :=
  let half := dec 30 1 in
  match prepared (fixture dt_step courant (dec 98 10) rho nu (dec 5 1) (dec 1 1) (nopp half, nopp half) (half, half) (dec 1 10000000000) true
    (lattice_of n n (dec 1 1) u no_pressure)) with Some s => set_ppe s | None => None end.
Definition pairs (n : nat) : list (nat * nat) := concat (map (fun i => map (pair i) (seq 0 n)) (seq 0 n)).
Definition total (l : list F64num) : F64num := foldl (fun t x => t +. x) (nofZ 0) l.
Definition i_accuracy : F64num := dec 1 1000.
(** 161-208 *)
Definition MatrixSymmetry (s : tcomputer) : bool :=
  (length (cBv s) =? 36)%nat
  && near_by (nsqrt (total (map (fun ij : nat * nat => let dA := entry s ij.1 ij.2 -. entry s ij.2 ij.1 in dA ×. dA)
                         (filter (fun ij : nat * nat => (ij.2 < ij.1)%nat) (pairs 36))))) (nofZ 0) i_accuracy.
(** 257-324 *)
Definition MatrixNeighborNonzero (s : tcomputer) : bool :=
  forallb (fun ij : nat * nat => (ij.1 =? ij.2)%nat || existsb (Nat.eqb ij.2) (nb s ij.1) || near_by (entry s ij.1 ij.2) (nofZ 0) i_accuracy) (pairs 36).
(** 212-254 *)
Definition MatrixDiagIdentity (s : tcomputer) : bool :=
  let id := (7 * 16)%nat in
  let off := total (map (entry s id) (filter (fun j => j <> id) (seq 0 225))) in
  near_by (nabs ((entry s id id -. nopp off) /. entry s id id)) (nofZ 0) i_accuracy.
(** 327-381 *)
Definition VectorValue (s : tcomputer) : bool :=
  forallb (fun ij : nat * nat =>
    let id := (ij.1 + 15 * ij.2)%nat in
    match cParts s !! id, cBv s !! id with
    | Some p, Some b =>
        let drhodt := nopp (dec 1 1 +. dec (-3) 10) ×. pN p in
        let analytic := nopp (eRho (cEnv s)) /. (eDt (cEnv s) ×. eN0 (cEnv s)) ×. drhodt in
        near_by (nabs ((b -. analytic) /. analytic)) (nofZ 0) (dec 1 10)
    | _, _ => false
    end) (inner_ids 15 6).
(** 384-457 *)
Definition MatrixValue (s : tcomputer) : bool :=
  forallb (fun i : nat * nat => forallb (fun j : nat * nat =>
    let a := (i.1 + 15 * i.2)%nat in let b := (j.1 + 15 * j.2)%nat in
    (b <=? a)%nat || same (entry s a b) (nofZ 0) ||
    (let dx := (size i.1 -. size j.1) ×. dec 1 1 in let dz := (size i.2 -. size j.2) ×. dec 1 1 in
     let r := nsqrt (dx ×. dx +. dz ×. dz) in
     let analytic := nofZ 3 ×. eRe (cEnv s) /. eN0 (cEnv s) /. (r ×. r ×. r) in
     near_by (nabs ((entry s a b -. analytic) /. entry s a b)) (nofZ 0) i_accuracy)) (inner_ids 15 6)) (inner_ids 15 6).
Definition ImplicitSmall : bool := on (i_state 6 at_rest) (fun s => MatrixSymmetry s && MatrixNeighborNonzero s).
Definition ImplicitRest : bool := on (i_state 15 at_rest) MatrixDiagIdentity.
Definition ImplicitMoving : bool := on (i_state 15 (fun x z => (dec 1 1 ×. x, dec (-3) 10 ×. z))) (fun s => VectorValue s && MatrixValue s).

(** ** test_ComputerConjugateGradient.cpp *)
Definition solved (A : list (list F64num)) (b : list F64num) : option (list F64num) :=
  match cg_solve (map (fun row => zip (seq 0 (length row)) row) A) (map (fun _ => nofZ 0) b) b (dec 1 10000000) with
  | (x, true) => Some x
  | _ => None
  end.
Definition numbers (n : nat) (f : nat -> F64num) : list F64num := map f (seq 0 n).
(** 111-142 *)
Definition SolveIdentityMatrix : bool :=
  match solved (map (fun i => numbers 10 (fun j => if (i =? j)%nat then nofZ 1 else nofZ 0)) (seq 0 10)) (numbers 10 size) with
  | Some x => near_by (total (zip_with (fun i v => nabs (size i -. v)) (seq 0 10) x) /. nofZ 10) (nofZ 0) i_accuracy
  | None => false
  end.
(** 144-182 *)
Definition Solve4x4Matrix : bool :=
  let row := map (fun z => nofZ (n := F64num) z) in
  match solved [row [1;1;1;-1]; row [1;1;-1;1]; row [1;-1;1;1]; row [-1;1;1;1]]%Z (row [4;8;12;16]%Z) with
  | Some x => (length x =? 4)%nat && forallb (fun p : F64num * F64num => near_by p.1 p.2 i_accuracy) (zip x (row [2;4;6;8]%Z))
  | None => false
  end.
(** 186-234 *)
Definition Solve1dODE : bool :=
  let dx := nofZ 1 /. nofZ 11 in let dx2 := dx ×. dx in
  let A := map (fun i => numbers 10 (fun j => if (i =? j)%nat then nofZ (-2) /. dx2 else if (i =? S j)%nat || (j =? S i)%nat then nofZ 1 /. dx2 else nofZ 0)) (seq 0 10) in
  let b := numbers 10 (fun j => if (j =? 0)%nat then nofZ (-1) /. dx2 ×. nofZ 0 +. dx
                                else if (j =? 9)%nat then nofZ (-1) /. dx2 ×. nofZ 1 +. (nofZ 1 -. dx) else dx ×. size (S j)) in
  match solved A b with
  | Some f =>
      near_by (total (zip_with (fun j v => let x := dx ×. size (S j) in
         let analytic := nofZ 1 /. nofZ 6 ×. x ×. x ×. x +. (nofZ 1 -. nofZ 0 -. nofZ 1 /. nofZ 6) ×. x +. nofZ 0 in
         nabs ((v -. analytic) /. analytic)) (seq 0 10) f) /. nofZ 10) (nofZ 0) i_accuracy
  | None => false
  end.

(** ** test_ComputerMatrix.cpp (a build with MPS_GC) *)
Definition inverse_is (m im : list Z * Z) : bool :=
  let of l i := nofZ (n := F64num) (nth i l.1 0%Z) /. nofZ (snd l) in
  let v := invert2 (((of m 0, of m 1), (of m 2, of m 3)) : mat F64num D2)%nat (nofZ 1) in
  same v.1.1 (of im 0%nat) && same v.1.2 (of im 1%nat) && same v.2.1 (of im 2%nat) && same v.2.2 (of im 3%nat).
(** 19-67 *)
Definition InvertMatrixDiag : bool := inverse_is ([1;0;0;2], 1)%Z ([2;0;0;1], 2)%Z.
Definition InvertMatrixDiag2 : bool := inverse_is ([0;1;2;0], 1)%Z ([0;1;2;0], 2)%Z.
Definition InvertMatrixAsym : bool := inverse_is ([1;2;3;4], 1)%Z ([-4;2;3;-1], 2)%Z.

(** The model passes the tests.  The kernel's virtual machine evaluates each of them to [true]: the small ones below as lemmas; the ones on lattices (which
    take up to four minutes there, and hours in coqchk, which does not use it) with
      [Eval vm_compute in (NeighborSymmetry, NeighborMyself, NeighDensity, GradValuePolynomial, GradValueTrignometric, ImplicitSmall, ImplicitRest,
         ImplicitMoving, ValueTestLinear, ValueTestPolynomial).] *)
Lemma unit_test_FieldEnvironment : FieldEnvironment = true.
Proof. vm_cast_no_check (@eq_refl bool true). Qed.
Lemma unit_test_FieldParticles : FieldParticles = true.
Proof. vm_cast_no_check (@eq_refl bool true). Qed.
Lemma unit_test_FieldComputer : FieldComputer = true.
Proof. vm_cast_no_check (@eq_refl bool true). Qed.
Lemma unit_test_DistanceValue : DistanceValue = true.
Proof. vm_cast_no_check (@eq_refl bool true). Qed.
Lemma unit_test_DistanceSymmetry : DistanceSymmetry = true.
Proof. vm_cast_no_check (@eq_refl bool true). Qed.
Lemma unit_test_DistanceTriangleInequality : DistanceTriangleInequality = true.
Proof. vm_cast_no_check (@eq_refl bool true). Qed.
Lemma unit_test_SolveIdentityMatrix : SolveIdentityMatrix = true.
Proof. vm_cast_no_check (@eq_refl bool true). Qed.
Lemma unit_test_Solve4x4Matrix : Solve4x4Matrix = true.
Proof. vm_cast_no_check (@eq_refl bool true). Qed.
Lemma unit_test_Solve1dODE : Solve1dODE = true.
Proof. vm_cast_no_check (@eq_refl bool true). Qed.
Lemma unit_test_InvertMatrixDiag : InvertMatrixDiag = true.
Proof. vm_cast_no_check (@eq_refl bool true). Qed.
Lemma unit_test_InvertMatrixDiag2 : InvertMatrixDiag2 = true.
Proof. vm_cast_no_check (@eq_refl bool true). Qed.
Lemma unit_test_InvertMatrixAsym : InvertMatrixAsym = true.
Proof. vm_cast_no_check (@eq_refl bool true). Qed.

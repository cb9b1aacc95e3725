(** Parallel execution: the OpenMP loops of Computer.hpp and concurrent calls of Grid::Store. *)
From stdpp Require Export relations.
From Verif Require Export M_Computer.

(** The locations of shared memory the threads of a parallel loop of Computer.hpp may compete for: the
    elements of the per-particle arrays (Particle.hpp:31-45, Computer.hpp:462-562).  All other data
    is written by no parallel loop and taken together as [LRest]. *)
Inductive loc :=
  | LX (j : nat) | LU (j : nat) | LP (j : nat) | LN (j : nat) | LT (j : nat)   (* particles[j] *)
  | LRow (j : nat)                                                              (* neighbor[j] *)
  | LA (j : nat) | LXv (j : nat) | LBv (j : nat)                                (* ppe *)
  | LDu (j : nat) | LEcs (j : nat) | LOrig (j : nat) | LNws (j : nat)
  | LRest.
Global Instance loc_eq_dec : EqDecision loc.
Proof. solve_decision. Defined.

Section Par.
  Context {N : num} {cfg : config} {wm : wallmotion N (cDim cfg)}.
  Notation d := (cDim cfg).
  Notation computer := (computer cfg wm).

  (** Two memories hold the same value in a location. *)
  Definition same_at (l : loc) (s s' : computer) : Prop :=
    match l with
    | LX j => pX <$> cParts s !! j = pX <$> cParts s' !! j
    | LU j => pU <$> cParts s !! j = pU <$> cParts s' !! j
    | LP j => pP <$> cParts s !! j = pP <$> cParts s' !! j
    | LN j => pN <$> cParts s !! j = pN <$> cParts s' !! j
    | LT j => pT <$> cParts s !! j = pT <$> cParts s' !! j
    | LRow j => cNeighbor s !! j = cNeighbor s' !! j
    | LA j => cA s !! j = cA s' !! j
    | LXv j => cXv s !! j = cXv s' !! j
    | LBv j => cBv s !! j = cBv s' !! j
    | LDu j => cDu s !! j = cDu s' !! j
    | LEcs j => cEcs s !! j = cEcs s' !! j
    | LOrig j => cOrigX s !! j = cOrigX s' !! j
    | LNws j => cNws s !! j = cNws s' !! j
    | LRest =>
        cEnv s = cEnv s' /\ cGrid s = cGrid s' /\ cEps s = cEps s' /\ cWall s = cWall s' /\
        length (cParts s) = length (cParts s') /\ length (cNeighbor s) = length (cNeighbor s') /\
        length (cA s) = length (cA s') /\ length (cXv s) = length (cXv s') /\
        length (cBv s) = length (cBv s') /\ length (cDu s) = length (cDu s') /\
        length (cEcs s) = length (cEcs s') /\ length (cOrigX s) = length (cOrigX s') /\
        length (cNws s) = length (cNws s')
    end.

  (** State of one iteration of a parallel loop: not yet begun; has computed its value and is writing
      it (the state holds the values its locations will have); over. *)
  Inductive status := Waiting | Writing (target : computer) | Over.

  Section Loop.
    Context {V : Type} (L : ploop computer V) (W : nat -> list loc) (n : nat).

    (** What iteration [i] may see when it reads the memory [s].  A location that another iteration
        writes may at that moment have its old value, its new one, or - being read while it
        is written, a data race - any value at all; so the view is unconstrained there.
        All other locations have their value for as long as the iteration reads. *)
    Definition sees (i : nat) (s view : computer) : Prop :=
      forall l, same_at l view s \/ exists j, (j < n)%nat /\ j <> i /\ l ∈ W j.

    (** One action of one thread.  The iterations are distributed to the threads in any way
        ([OMP_PARALLEL_FOR], Computer.hpp:39-51, without a schedule clause); an iteration writes
        its locations one after the other, in any order, at any time. *)
    Inductive par_step : list status * computer -> list status * computer -> Prop :=
      | par_read t s i view v :
          t !! i = Some Waiting -> sees i s view -> l_compute L view i = Some v ->
          par_step (t, s) (<[i := Writing (l_write L i v s)]> t, s)
      | par_write t s i target s' :
          t !! i = Some (Writing target) ->
          (forall l, same_at l s' s \/ l ∈ W i /\ same_at l s' target) ->
          par_step (t, s) (t, s')
      | par_over t s i target :
          t !! i = Some (Writing target) -> (forall l, l ∈ W i -> same_at l s target) ->
          par_step (t, s) (<[i := Over]> t, s).

    (** Outcomes of the whole loop: the memory when all iterations are over, or undefined behaviour of
        one of them ([None]). *)
    Inductive par_loop (s0 : computer) : option computer -> Prop :=
      | par_done t s :
          rtc par_step (replicate n Waiting, s0) (t, s) -> (forall i st, t !! i = Some st -> st = Over) ->
          par_loop s0 (Some s)
      | par_undef t s i view :
          rtc par_step (replicate n Waiting, s0) (t, s) -> t !! i = Some Waiting -> sees i s view ->
          l_compute L view i = None -> par_loop s0 None.
  End Loop.

  (** The locations written by iteration [j] of each loop, from the assignments in its body. *)
  Definition w_neighbor j := [LRow j].        (* Computer.hpp:731,745,751 *)
  Definition w_dens j := [LNws j; LN j].      (* 800,824-829 *)
  Definition w_ecs j := [LEcs j].             (* 906 *)
  Definition w_accel j := [LDu j].            (* 980-988 *)
  Definition w_move j := [LU j; LX j].        (* 1006-1017 *)
  Definition w_explicit j := [LP j].          (* 1065 *)
  Definition w_assign j := [LP j].            (* 1085-1096 *)
  Definition w_rhs j := [LBv j; LXv j].       (* 1201-1219 *)
  Definition w_matrix j := [LA j].            (* a_ij[j]: 1254,1310,1325 *)
  Definition w_grad j := [LDu j].             (* 1539 *)
  Definition w_kick j := [LU j; LX j].        (* 1552-1560, 1645-1653 *)
  Definition w_ds j := [LDu j].               (* 1633 *)

  (** Programs with several possible outcomes. *)
  Definition prog : Type := computer -> outcome computer -> Prop.
  Definition seqly (f : computer -> outcome computer) : prog := fun s r => r = f s.
  Definition par {V} (L : ploop computer V) (W : nat -> list loc) : prog :=
    fun s r => exists o, par_loop L W (psize s) s o /\ r = of_opt o.
  Definition pseq (P Q : prog) : prog := fun s r =>
    exists o, P s o /\ match o with Done s1 => Q s1 r | _ => r = o end.
  Notation "P ;;; Q" := (pseq P Q) (at level 62, left associativity).

  (** The phases of a step with their loops running in parallel.  Sequential in the code and here: the
      registration in the grid (Computer.hpp:704-717), the wall pre-hook (993), SaveX (1028), the
      resizing of the system (1162-1183), copying a_ij to the matrix (1337-1349), the solver (its uBLAS
      operations are sequential; the build with ViennaCL: M_Red). *)
  Definition par_search : prog :=
    seqly (fun s => match clear d (cGrid s) with
                    | None => Undef
                    | Some g => store_all (seq 0 (psize s)) (with_grid s g)
                    end) ;;; par (neighbor_loop cfg wm) w_neighbor.
  Definition par_densities : prog := par (dens_loop cfg wm) w_dens.
  Definition par_ecs : prog := par (ecs_loop cfg wm) w_ecs.
  Definition par_explicit : prog :=
    par (accel_loop cfg wm) w_accel ;;;
    seqly (fun s => Done (with_wall s (wPre wm (cWall s) (eT (cEnv s)) (eDt (cEnv s))))) ;;;
    par (move_loop cfg wm) w_move.
  Definition par_set_ppe : prog :=
    seqly (fun s => let n := psize s in
                    Done (if (n =? length (cBv s))%nat then s
                          else with_ppe s (replicate n []) (replicate n (nofZ 0)) (replicate n (nofZ 0)))) ;;;
    par (rhs_loop cfg wm) w_rhs ;;; par (matrix_loop cfg wm) w_matrix.
  Definition par_implicit : prog :=
    (if cExplicit cfg then par (explicit_loop cfg wm) w_explicit
     else par_set_ppe ;;; seqly solve_ppe ;;; par (assign_loop cfg wm) w_assign) ;;;
    (par (grad_loop cfg wm) w_grad ;;; par (kick_loop cfg wm) w_kick).
  Definition par_stabilize : prog :=
    par (ds_loop cfg wm) w_ds ;;; par (kick_loop cfg wm) w_kick.

  (** Computer.hpp:1700-1742 and 1745-1751 in a build with OpenMP. *)
  Definition par_forward_dt (dt : N) : prog :=
    seqly (fun s => Done (with_env s (set_next_t (set_dt dt (cEnv s))))) ;;;
    par_search ;;; par_densities ;;;
    (if cECS cfg then par_ecs else seqly Done) ;;;
    par_explicit ;;; par_densities ;;;
    (if cDS cfg then seqly (fun s => of_opt (save_x s)) else seqly Done) ;;;
    par_implicit ;;;
    (if cDS cfg then par_stabilize else seqly Done).
  Definition par_forward : prog := fun s r =>
    match determine_dt s with None => r = Undef | Some dt => par_forward_dt dt s r end.
End Par.
Arguments status {N} cfg wm.

Section Store.
  Context {N : num} {d : dim}.

  (** State of one call of Store: not begun; number [l] drawn in block [b]; returned [true], returned
      [false], thrown. *)
  Inductive call := Begin | Drawn (b : list Z) (l : nat) | Accepted | Refused | Thrown.

  (** Concurrent calls [Store(x_k, id_k)], Grid.hpp:276-331.  Shared memory is accessed in two actions:
      the atomic fetch-and-increment of the block's counter (296-311), then - unless the number
      drawn exceeds the capacity - the plain write of one slot (319-323).  The block number is
      computed from constants. *)
  Context (calls : list (vec N d * nat)).
  Inductive store_step : list call * grid N d -> list call * grid N d -> Prop :=
    | st_refuse t g k x id b :
        t !! k = Some Begin -> calls !! k = Some (x, id) -> block_of d g x = Some b ->
        in_range (g_shape d g) b = false -> store_step (t, g) (<[k := Refused]> t, g)
    | st_draw t g k x id b c :
        t !! k = Some Begin -> calls !! k = Some (x, id) -> block_of d g x = Some b ->
        in_range (g_shape d g) b = true -> g_data d g !! b = Some c ->
        store_step (t, g) (<[k := Drawn b (c_cnt c)]> t,
                           set_data d g (<[b := mkCell (S (c_cnt c)) (c_slots c)]> (g_data d g)))
    | st_throw t g k b l :
        t !! k = Some (Drawn b l) -> (g_cap d g <= l)%nat -> store_step (t, g) (<[k := Thrown]> t, g)
    | st_put t g k x id b l c :
        t !! k = Some (Drawn b l) -> calls !! k = Some (x, id) -> (l < g_cap d g)%nat ->
        g_data d g !! b = Some c -> (l < length (c_slots c))%nat ->
        store_step (t, g) (<[k := Accepted]> t,
                           set_data d g (<[b := mkCell (c_cnt c) (<[l := id]> (c_slots c))]> (g_data d g))).

  (** All calls have come to their end. *)
  Definition all_returned (t : list call) : Prop :=
    forall k c, t !! k = Some c -> c = Accepted \/ c = Refused \/ c = Thrown.
End Store.

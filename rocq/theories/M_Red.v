(** The build with ViennaCL and OpenMP (defines.hpp:66-75: USE_VIENNACL, and VIENNACL_WITH_OPENMP when compiled with OpenMP): the
    solver's inner products are parallel reductions, whose order of additions nobody fixes. *)
From Verif Require Export M_Par.

Section Red.
  Context {N : num} {cfg : config} {wm : wallmotion N (cDim cfg)}.
  Notation computer := (computer cfg wm).

  (** The values a parallel reduction may give for these summands: every thread adds up its share in some order, starting from
      zero, and the partial sums are added up in some order - in general, any way to arrange and to bracket the summands. *)
  Inductive sum_in_some_order : list N -> N -> Prop :=
    | sum_none : sum_in_some_order [] (nofZ 0)
    | sum_one x : sum_in_some_order [x] x
    | sum_join xs ys zs a b : sum_in_some_order xs a -> sum_in_some_order ys b -> zs ≡ₚ xs ++ ys -> sum_in_some_order zs (a +. b).

  (** Computer.hpp:1387, 1402, 1405 [op::inner_prod] of ViennaCL: the products are formed element by element. *)
  Definition some_dot (a b : list N) (v : N) : Prop := sum_in_some_order (zip_with nmul a b) v.

  (** Computer.hpp:1392-1421, as [cg_loop] with every inner product a reduction.  [op::prod] of the sparse matrix and the
      vector expressions are parallel over the elements only; each element is computed sequentially. *)
  Inductive some_cg_loop (A : list mrow) (residual0 : N) : nat -> list N -> list N -> list N -> N -> list N * bool -> Prop :=
    | some_stop x r p rr : some_cg_loop A residual0 0 x r p rr (x, false)
    | some_converged fuel x r p rr pAp rrNew :
        some_dot p (lprod A p) pAp ->
        let alpha := rr /. pAp in
        let x' := ladd x (lscal alpha p) in
        let r' := lsub r (lscal alpha (lprod A p)) in
        some_dot r' r' rrNew ->
        rrNew <?. residual0 = true ->
        some_cg_loop A residual0 (S fuel) x r p rr (x', true)
    | some_continue fuel x r p rr pAp rrNew res :
        some_dot p (lprod A p) pAp ->
        let alpha := rr /. pAp in
        let x' := ladd x (lscal alpha p) in
        let r' := lsub r (lscal alpha (lprod A p)) in
        some_dot r' r' rrNew ->
        rrNew <?. residual0 = false ->
        let beta := rrNew /. rr in
        some_cg_loop A residual0 fuel x' r' (ladd r' (lscal beta p)) rrNew res ->
        some_cg_loop A residual0 (S fuel) x r p rr res.

  (** Computer.hpp:1359-1429 [SolvePressurePoissonEquation], as [cg_solve]. *)
  Inductive some_cg_solve (A : list mrow) (x b : list N) (eps : N) : list N * bool -> Prop :=
    | some_solve rr res :
        let r := lsub b (lprod A x) in
        some_dot r r rr ->
        let residual0 := rr ×. eps ×. eps in
        (if residual0 =?. nofZ 0 then res = (x, true) else some_cg_loop A residual0 (length x) x r r rr res) ->
        some_cg_solve A x b eps res.

  (** The solver as a program with several possible outcomes. *)
  Definition some_solve_ppe : prog := fun (s : computer) (out : outcome computer) =>
    exists res, some_cg_solve (cA s) (cXv s) (cBv s) (cEps s) res /\
      let s' := with_ppe s (cA s) res.1 (cBv s) in out = if res.2 then Done s' else Throw CgNotConverged s'.

  Notation "P ;;; Q" := (pseq P Q) (at level 62, left associativity).
  (** Computer.hpp:1043-1102, as [par_implicit]. *)
  Definition red_implicit : prog :=
    (if cExplicit cfg then par (explicit_loop cfg wm) w_explicit
     else par_set_ppe ;;; some_solve_ppe ;;; par (assign_loop cfg wm) w_assign) ;;;
    (par (grad_loop cfg wm) w_grad ;;; par (kick_loop cfg wm) w_kick).
  (** Computer.hpp:1700-1742, as [par_forward_dt]. *)
  Definition red_forward_dt (dt : N) : prog :=
    seqly (fun s => Done (with_env s (set_next_t (set_dt dt (cEnv s))))) ;;;
    par_search ;;; par_densities ;;;
    (if cECS cfg then par_ecs else seqly Done) ;;;
    par_explicit ;;; par_densities ;;;
    (if cDS cfg then seqly (fun s => of_opt (save_x s)) else seqly Done) ;;;
    red_implicit ;;;
    (if cDS cfg then par_stabilize else seqly Done).
  (** Computer.hpp:1745-1751. *)
  Definition red_forward : prog := fun s r =>
    match determine_dt s with None => r = Undef | Some dt => red_forward_dt dt s r end.
  (** The public mutating API (Computer.hpp:1699-1777), as [api_step]. *)
  Definition red_api (o : api cfg) : prog :=
    match o with
    | AddParticles _ src => seqly (fun s => Done (add_particles src s))
    | ForwardTimeBy _ dt => red_forward_dt dt
    | ForwardTime _ => red_forward
    end.
End Red.

(** Environment.hpp *)
From Verif Require Export M_Particle M_Config.

Section Env.
  Context {N : num} (cfg : config).
  Notation d := (cDim cfg).

  (** Environment.hpp:11-74.  [eLambda], [eSurf] and [eC] only exist in some builds (without
      MPS_HL, without MPS_SPP, with PRESSURE_EXPLICIT); other builds never read them. *)
  Record environment := mkEnv {
    eT : N; eDt : N; eN0 : N; eLambda : N; eC : N;
    eMaxDt : N; eMaxDx : N; eL0 : N; eRe : N; eG : vec N d; eRho : N; eNu : N; eSurf : N;
    eMinX : vec N d; eMaxX : vec N d; eNL : N
  }.

  (** Loop counter tuples of Environment.hpp:169-175, outermost first:
      [i = -range; i < range; i++] and so on. *)
  Definition lattice_axis (range : Z) : list Z :=
    map (fun k => Z.of_nat k - range)%Z (seq 0 (Z.to_nat (2 * range))).
  Fixpoint lattice_idx (n : nat) (range : Z) : list (list Z) :=
    match n with
    | O => [[]]
    | S n => i ← lattice_axis range; l ← lattice_idx n range; [i :: l]
    end.

  (** Environment.hpp:177-204 (183-204 in 2-D): the accumulation of n0 and lambda for one
      lattice point. *)
  Definition lattice_step (l_0 R_e : N) (s : N * N) (idx : list Z) : N * N :=
    if forallb (Z.eqb 0) idx then s
    else
      let x : vec N d := tmk d (fun k => nofZ (nth k idx 0%Z) ×. l_0) in
      let r := vnorm x in
      if r <?. R_e then
        let w := weight r R_e in
        (s.1 +. w, s.2 +. r ×. r ×. w)
      else s.

  (** Environment.hpp:101-216: constructor.  [None]: the conversion of [ceil(r_eByl_0)] to
      [int] (164) is undefined. *)
  Definition new_env (maxDt courant g rho nu surf r_eByl_0 c l_0 : N) (minX maxX : vec N d)
    : option environment :=
    match nceil r_eByl_0 with
    | None => None
    | Some range =>
        if (range <? -2^31)%Z || (2^31 <=? range)%Z then None
        else
          let R_e := r_eByl_0 ×. l_0 in
          let s := foldl (lattice_step l_0 R_e) (nofZ 0, nofZ 0) (lattice_idx (dimn d) range) in
          Some {| eT := nofZ 0; eDt := nofZ 0;
                  eN0 := s.1; eLambda := s.2 /. s.1; eC := c;
                  eMaxDt := if cExplicit cfg
                            then nmin maxDt ((courant ×. l_0) /. c)
                            else nmin maxDt (nsqrt (nofZ 2 ×. (courant ×. l_0) /. g));
                  eMaxDx := courant ×. l_0;
                  eL0 := l_0;
                  eRe := R_e;
                  eG := tmk d (fun k => if Nat.eqb k (axis_z d) then nopp g else nofZ 0);
                  eRho := rho; eNu := nu; eSurf := surf;
                  eMinX := minX; eMaxX := maxX;
                  eNL := r_eByl_0 ×. l_0 ×. (nofZ 1 +. courant ×. nofZ 2) |}
    end.

  (** Environment.hpp:225-228 [SetNextT], 235 [Dt() = ...]. *)
  Definition set_dt (v : N) (e : environment) : environment :=
    mkEnv (eT e) v (eN0 e) (eLambda e) (eC e) (eMaxDt e) (eMaxDx e) (eL0 e) (eRe e) (eG e)
      (eRho e) (eNu e) (eSurf e) (eMinX e) (eMaxX e) (eNL e).
  Definition set_next_t (e : environment) : environment :=
    mkEnv (eT e +. eDt e) (eDt e) (eN0 e) (eLambda e) (eC e) (eMaxDt e) (eMaxDx e) (eL0 e) (eRe e)
      (eG e) (eRho e) (eNu e) (eSurf e) (eMinX e) (eMaxX e) (eNL e).
End Env.
Arguments environment : clear implicits.
Arguments eT {N cfg}.
Arguments eDt {N cfg}.
Arguments eN0 {N cfg}.
Arguments eLambda {N cfg}.
Arguments eC {N cfg}.
Arguments eMaxDt {N cfg}.
Arguments eMaxDx {N cfg}.
Arguments eL0 {N cfg}.
Arguments eRe {N cfg}.
Arguments eG {N cfg}.
Arguments eRho {N cfg}.
Arguments eNu {N cfg}.
Arguments eSurf {N cfg}.
Arguments eMinX {N cfg}.
Arguments eMaxX {N cfg}.
Arguments eNL {N cfg}.
Arguments set_dt {N cfg}.
Arguments set_next_t {N cfg}.

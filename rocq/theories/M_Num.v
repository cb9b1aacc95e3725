(** Arithmetic interface, vectors and matrices.

    The C++ code computes with [double].  Everything numeric is written against
    the record [num], so that one model can be read with exact reals ([Rnum], file
    M_NumR) and with IEEE-754 binary64 ([F64num], file M_NumF). *)
From stdpp Require Export base list option numbers.

(** Operations the C++ code applies to [double].
    [nfloor]/[nceil] model [static_cast<Index>(std::floor(a))] and
    [static_cast<Index>(std::ceil(a))] (Grid.hpp:85-92): [None] when the converted value
    is not representable ([NaN], infinities, outside the 64-bit range) - undefined
    behaviour in C++. *)
Record num : Type := mkNum {
  nT :> Type;
  nofZ : Z -> nT;                       (* int / size_t -> double *)
  nadd : nT -> nT -> nT;
  nsub : nT -> nT -> nT;
  nmul : nT -> nT -> nT;
  ndiv : nT -> nT -> nT;
  nopp : nT -> nT;
  nabs : nT -> nT;
  nsqrt : nT -> nT;
  nltb : nT -> nT -> bool;              (* a < b *)
  nleb : nT -> nT -> bool;              (* a <= b *)
  neqb : nT -> nT -> bool;              (* a == b *)
  nfloor : nT -> option Z;
  nceil : nT -> option Z;
}.

Global Arguments nofZ {_} _%Z.
Global Arguments nadd {_}. Global Arguments nsub {_}.
Global Arguments nmul {_}. Global Arguments ndiv {_}.
Global Arguments nopp {_}. Global Arguments nabs {_}. Global Arguments nsqrt {_}.
Global Arguments nltb {_}. Global Arguments nleb {_}. Global Arguments neqb {_}.
Global Arguments nfloor {_}. Global Arguments nceil {_}.

Declare Scope num_scope.
Delimit Scope num_scope with num.
Infix "+." := nadd (at level 50, left associativity) : num_scope.
Infix "-." := nsub (at level 50, left associativity) : num_scope.
Infix "×." := nmul (at level 40, left associativity) : num_scope.
Infix "/." := ndiv (at level 40, left associativity) : num_scope.
Infix "<?." := nltb (at level 70) : num_scope.
Infix "<=?." := nleb (at level 70) : num_scope.
Infix "=?." := neqb (at level 70) : num_scope.
Open Scope num_scope.

(** [std::min(a,b)] is [(b < a) ? b : a]; [std::max(a,b)] is [(a < b) ? b : a]. *)
Definition nmin {N : num} (a b : N) : N := if b <?. a then b else a.
Definition nmax {N : num} (a b : N) : N := if a <?. b then b else a.

(** [std::numeric_limits<double>::epsilon()] (used at Computer.hpp:675) is 2^-52. *)
Definition neps {N : num} : N := nofZ 1 /. nofZ (2^52).

(** Dimension: defines.hpp:11 ([DIM3]) and 81-90. *)
Inductive dim := D2 | D3.
(** defines.hpp:82,87 [DIM]. *)
Definition dimn (d : dim) : nat := match d with D2 => 2 | D3 => 3 end.
(** defines.hpp:85,89 [AXIS_Z]: the vertical axis is the last one.  [AXIS_X] is 0. *)
Definition axis_z (d : dim) : nat := dimn d - 1.

(** [ublas::c_vector<A, DIM>] (Vector.hpp:18); also used row-wise for
    [ublas::c_matrix<double, DIM, DIM>] (Computer.hpp:220). *)
Definition tup (d : dim) (A : Type) : Type :=
  match d with D2 => (A * A)%type | D3 => (A * A * A)%type end.
(** Vector.hpp:22-58 [CreateVector]: build from components. *)
Definition tmk {A} (d : dim) : (nat -> A) -> tup d A :=
  match d with
  | D2 => fun f => (f 0%nat, f 1%nat)
  | D3 => fun f => (f 0%nat, f 1%nat, f 2%nat)
  end.
(** component access [v[k]], [k < DIM] in all uses. *)
Definition tget {A} (d : dim) : tup d A -> nat -> A :=
  match d with
  | D2 => fun v k => match k with 0%nat => v.1 | _ => v.2 end
  | D3 => fun v k => match k with 0%nat => v.1.1 | 1%nat => v.1.2 | _ => v.2 end
  end.

Section Vec.
  Context {N : num} {d : dim}.

  (** Vector.hpp:18 *)
  Definition vec : Type := tup d N.
  (** Vector.hpp:74 [VectorZero]. *)
  Definition vzero : vec := tmk d (fun _ => nofZ 0).
  (** uBLAS component-wise expressions: [a + b], [a - b], [s * v], [v * s], [v / s]. *)
  Definition vadd (a b : vec) : vec := tmk d (fun k => tget d a k +. tget d b k).
  Definition vsub (a b : vec) : vec := tmk d (fun k => tget d a k -. tget d b k).
  Definition vscal (s : N) (v : vec) : vec := tmk d (fun k => s ×. tget d v k).
  Definition vscalr (v : vec) (s : N) : vec := tmk d (fun k => tget d v k ×. s).
  Definition vdiv (v : vec) (s : N) : vec := tmk d (fun k => tget d v k /. s).
  (** [ublas::inner_prod]: accumulates from zero in index order. *)
  Definition vdot (a b : vec) : N :=
    foldl (fun t k => t +. tget d a k ×. tget d b k) (nofZ 0) (seq 0 (dimn d)).
  (** [ublas::norm_2]: square root of the sum of squared moduli. *)
  Definition vnorm (a : vec) : N :=
    nsqrt (foldl (fun t k => t +. nabs (tget d a k) ×. nabs (tget d a k)) (nofZ 0) (seq 0 (dimn d))).

  (** Computer.hpp:220 [CorrectiveMatrix]. *)
  Definition mat : Type := tup d vec.
  Definition mmk (f : nat -> nat -> N) : mat := tmk d (fun i => tmk d (f i)).
  Definition mget (m : mat) (i j : nat) : N := tget d (tget d m i) j.
  (** Computer.hpp:242-245,276-279,310 [MatrixZero]. *)
  Definition mzero : mat := mmk (fun _ _ => nofZ 0).
  Definition madd (a b : mat) : mat := mmk (fun i j => mget a i j +. mget b i j).
  Definition mscal (s : N) (a : mat) : mat := mmk (fun i j => s ×. mget a i j).
  (** [ublas::outer_prod] *)
  Definition mouter (a b : vec) : mat := mmk (fun i j => tget d a i ×. tget d b j).
  (** [ublas::prod(matrix, vector)] *)
  Definition mprod (m : mat) (v : vec) : vec :=
    tmk d (fun i => foldl (fun t j => t +. mget m i j ×. tget d v j) (nofZ 0) (seq 0 (dimn d))).
  (** Computer.hpp:247-252,281-287,303-307 [IdentityMatrix]. *)
  Definition mident (val : N) : mat :=
    mmk (fun i j => if Nat.eqb i j then val else nofZ 0).
End Vec.
Arguments vec : clear implicits.
Arguments mat : clear implicits.

Infix "+^" := vadd (at level 50, left associativity) : num_scope.
Infix "-^" := vsub (at level 50, left associativity) : num_scope.
Infix "*^" := vscal (at level 40, left associativity) : num_scope.
Infix "/^" := vdiv (at level 40, left associativity) : num_scope.

Section Invert.
  Context {N : num}.
  (** Computer.hpp:320-326 [InvertMatrix<2>::Det]. *)
  Definition det2 (a b c d : N) : N := a ×. d -. b ×. c.

  (** Computer.hpp:328-347 [InvertMatrix<2>::Get]. *)
  Definition invert2 (m : mat N D2) (val : N) : mat N D2 :=
    let a := mget m 0 0 in let b := mget m 0 1 in
    let c := mget m 1 0 in let d := mget m 1 1 in
    let det := det2 a b c d in
    if det =?. nofZ 0 then mident val
    else ((d /. det, nopp b /. det), (nopp c /. det, a /. det)).

  (** Computer.hpp:353-367 [InvertMatrix<3>::Det]. *)
  Definition det3 (a00 a01 a02 a10 a11 a12 a20 a21 a22 : N) : N :=
    a00 ×. a11 ×. a22
    +. a01 ×. a12 ×. a20
    +. a02 ×. a10 ×. a21
    -. a00 ×. a12 ×. a21
    -. a01 ×. a10 ×. a22
    -. a02 ×. a11 ×. a20.

  (** Computer.hpp:369-421 [InvertMatrix<3>::Get] (as written: the minors are
      stored untransposed).  Unary [+] is omitted. *)
  Definition invert3 (m : mat N D3) (val : N) : mat N D3 :=
    let a00 := mget m 0 0 in let a01 := mget m 0 1 in let a02 := mget m 0 2 in
    let a10 := mget m 1 0 in let a11 := mget m 1 1 in let a12 := mget m 1 2 in
    let a20 := mget m 2 0 in let a21 := mget m 2 1 in let a22 := mget m 2 2 in
    let det := det3 a00 a01 a02 a10 a11 a12 a20 a21 a22 in
    if det =?. nofZ 0 then mident val
    else
      let A00 := det2 a11 a12 a21 a22 in
      let A01 := det2 a10 a12 a20 a22 in
      let A02 := det2 a10 a11 a20 a21 in
      let A10 := det2 a01 a02 a21 a22 in
      let A11 := det2 a00 a02 a20 a22 in
      let A12 := det2 a00 a01 a20 a21 in
      let A20 := det2 a01 a02 a11 a12 in
      let A21 := det2 a00 a02 a10 a12 in
      let A22 := det2 a00 a01 a10 a11 in
      ((A00 /. det, nopp A01 /. det, A02 /. det),
       (nopp A10 /. det, A11 /. det, nopp A12 /. det),
       (A20 /. det, nopp A21 /. det, A22 /. det)).

  (** Computer.hpp:425-429 [InvertMatrix]. *)
  Definition minvert {d : dim} : mat N d -> N -> mat N d :=
    match d with D2 => invert2 | D3 => invert3 end.
End Invert.

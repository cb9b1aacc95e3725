(** Exact arithmetic: [double] read as a real number. *)
From Coq Require Export Reals Lra Psatz.
From Flocq Require Export Core.Raux.
From Verif Require Export M_Num.

(** Conversion of a mathematical integer to the 64-bit signed index type
    ([boost::multi_array::index], i.e. [std::ptrdiff_t]; Grid.hpp:62,85-92). *)
Definition to_index (z : Z) : option Z :=
  if ((- 2^63 <=? z) && (z <? 2^63))%Z then Some z else None.

(** Real division by zero and the root of a negative number have arbitrary values here; the
    theorems over [Rnum] exclude them by hypothesis. *)
Definition Rnum : num := {|
  nT := R;
  nofZ := IZR;
  nadd := Rplus; nsub := Rminus; nmul := Rmult; ndiv := Rdiv;
  nopp := Ropp; nabs := Rabs; nsqrt := R_sqrt.sqrt;
  nltb := fun a b => if Rlt_dec a b then true else false;
  nleb := fun a b => if Rle_dec a b then true else false;
  neqb := fun a b => if Req_EM_T a b then true else false;
  nfloor := fun a => to_index (Zfloor a);
  nceil := fun a => to_index (Zceil a);
|}.

(** IEEE-754 binary64, from the axiom-free specification in Coq's standard library
    (round to nearest even).  Used for the theorems about rounding and for running the model. *)
From Coq Require Export Floats.SpecFloat.
From Verif Require Export M_Num.

Definition f64_prec : Z := 53.
Definition f64_emax : Z := 1024.

(** floor of a float as an integer; [None] for NaN and infinities. *)
Definition sf_floor (x : spec_float) : option Z :=
  match x with
  | S754_zero _ => Some 0
  | S754_finite s m e =>
      let z := if s then Zneg m else Zpos m in
      Some (if 0 <=? e then z * 2 ^ e else z / 2 ^ (- e))
  | _ => None
  end%Z.
Definition sf_ceil (x : spec_float) : option Z := Z.opp <$> sf_floor (SFopp x).

Definition f64_index (o : option Z) : option Z :=
  match o with
  | Some z => if ((- 2^63 <=? z) && (z <? 2^63))%Z then Some z else None
  | None => None
  end.

Definition f64_ofZ (z : Z) : spec_float := binary_normalize f64_prec f64_emax z 0 false.

Definition F64num : num := {|
  nT := spec_float;
  nofZ := f64_ofZ;
  nadd := SFadd f64_prec f64_emax;
  nsub := SFsub f64_prec f64_emax;
  nmul := SFmul f64_prec f64_emax;
  ndiv := SFdiv f64_prec f64_emax;
  nopp := SFopp; nabs := SFabs;
  nsqrt := SFsqrt f64_prec f64_emax;
  nltb := SFltb; nleb := SFleb; neqb := SFeqb;
  nfloor := fun a => f64_index (sf_floor a);
  nceil := fun a => f64_index (sf_ceil a);
|}.

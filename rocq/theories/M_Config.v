(** defines.hpp: compile-time selection of the method. *)
From Verif Require Export M_Base.

Record config := mkConfig {
  cDim : dim;                (* DIM3, defines.hpp:11 *)
  cExplicit : bool;          (* PRESSURE_EXPLICIT, 26 *)
  cHS : bool;                (* MPS_HS, 31 *)
  cHL : bool;                (* MPS_HL, 36 *)
  cECS : bool;               (* MPS_ECS, 41 *)
  cGC : bool;                (* MPS_GC, 46 *)
  cDS : bool;                (* MPS_DS, 51 *)
  cSPP : bool;               (* MPS_SPP, 56 *)
  cMidpoint : bool;          (* PRESSURE_GRADIENT_MIDPOINT, 21; only consulted together with MPS_GC -
                                without MPS_GC the other branch (Computer.hpp:1523-1536) does not compile *)
  cCentral : bool;           (* CENTRAL_GRAVITY, Computer.hpp:925 *)
}.
(** ARTIFICIAL_COLLISION_FORCE (defines.hpp:16) is not modelled: its code (Computer.hpp:1104-1134)
    refers to members that no longer exist and cannot be compiled. *)

(** The selection made in the repository: defines.hpp:9-56. *)
Definition default_config : config :=
  mkConfig D2 false true true true false true true true false.

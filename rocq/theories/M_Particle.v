(** Particle.hpp *)
From Verif Require Export M_Base.

(** Particle.hpp:16-29 [Particle::Type].  [static_cast<Type>(int)] of a value without
    enumerator (possible through the CSV reader, Main.cpp:153) is a legal value of the
    enumeration and compares unequal to all enumerators: [Other]. *)
Inductive ptype := Newton | Wall | Dummy | Disabled | Other (z : Z).

Global Instance ptype_eq_dec : EqDecision ptype.
Proof. solve_decision. Defined.

(** Main.cpp:153 [static_cast<OpenMps::Particle::Type>(int)]. *)
Definition ptype_of_Z (z : Z) : ptype :=
  match z with
  | 0 => Newton | 1 => Wall | 2 => Dummy | 3 => Disabled | _ => Other z
  end%Z.
(** Main.cpp:49 [static_cast<std::underlying_type_t<Type>>]. *)
Definition Z_of_ptype (t : ptype) : Z :=
  match t with Newton => 0 | Wall => 1 | Dummy => 2 | Disabled => 3 | Other z => z end%Z.

(** Comparisons [TYPE() == Type::...]. *)
Definition is_newton (t : ptype) : bool := match t with Newton => true | _ => false end.
Definition is_dummy (t : ptype) : bool := match t with Dummy => true | _ => false end.
Definition is_disabled (t : ptype) : bool := match t with Disabled => true | _ => false end.
(** The frequent test "neither dummy nor disabled" (e.g. Computer.hpp:804). *)
Definition is_active (t : ptype) : bool := negb (is_dummy t) && negb (is_disabled t).

Section Particle.
  Context {N : num} {d : dim}.

  (** Particle.hpp:31-45. *)
  Record particle := mkParticle {
    pX : vec N d; pU : vec N d; pP : N; pN : N; pT : ptype
  }.

  (** Particle.hpp:48-54: constructor. *)
  Definition new_particle (t : ptype) : particle :=
    mkParticle vzero vzero (nofZ 0) (nofZ 0) t.

  (** Property setters (the non-const accessors, Particle.hpp:86-119) and [Disable] (63-66). *)
  Definition set_X (x : vec N d) (p : particle) := mkParticle x (pU p) (pP p) (pN p) (pT p).
  Definition set_U (u : vec N d) (p : particle) := mkParticle (pX p) u (pP p) (pN p) (pT p).
  Definition set_P (v : N) (p : particle) := mkParticle (pX p) (pU p) v (pN p) (pT p).
  Definition set_N (v : N) (p : particle) := mkParticle (pX p) (pU p) (pP p) v (pT p).
  Definition disable (p : particle) := mkParticle (pX p) (pU p) (pP p) (pN p) Disabled.
End Particle.
Arguments particle : clear implicits.

(** Particle.hpp:71-75 [Particle::W]. *)
Definition weight {N : num} (r r_e : N) : N :=
  if (nofZ 0 <?. r) && (r <?. r_e) then r_e /. r -. nofZ 1 else nofZ 0.

(** Specification: water levels and a pressure sensor, read from a table of particles in the plane (C82).  [shown v] is the number the table shows for [v]. *)
From Verif Require Export S_Real.
Open Scope R_scope.

Section Gauge.
  Context {d : dim} (shown : R -> R).
  Notation part := (particle Rnum d).
  (** Within half a particle width of the gauge at [X]. *)
  Definition at_gauge (X l_0 : R) (p : part) : Prop := Rabs (shown (coord (pX p) 0) - X) < l_0 / 2.
  (** [h] is the height of the highest particle that counts at the gauge; 0 if none is above the floor. *)
  Definition level_at (X l_0 : R) (counts : part -> Prop) (parts : list part) (h : R) : Prop :=
    0 <= h /\ (h = 0 \/ exists p, p ∈ parts /\ counts p /\ at_gauge X l_0 p /\ h = shown (coord (pX p) 1)) /\
    forall p, p ∈ parts -> counts p -> at_gauge X l_0 p -> shown (coord (pX p) 1) <= h.
  (** A wall particle left of the tank, within half a diameter of the sensor at height [Z]. *)
  Definition at_sensor (Z D : R) (p : part) : Prop :=
    pT p = Wall /\ shown (coord (pX p) 0) < 0 /\ Rabs (shown (coord (pX p) 1) - Z) < D / 2.
  (** How many of the particles are at the sensor, and the sum of their pressures. *)
  Inductive sensed (Z D : R) : list part -> nat -> R -> Prop :=
    | sensed_none : sensed Z D [] 0 0
    | sensed_in p parts k v : at_sensor Z D p -> sensed Z D parts k v -> sensed Z D (p :: parts) (S k) (shown (pP p) + v)
    | sensed_out p parts k v : ~ at_sensor Z D p -> sensed Z D parts k v -> sensed Z D (p :: parts) k v.
End Gauge.

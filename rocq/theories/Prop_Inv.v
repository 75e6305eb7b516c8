(** C86: Cartesian states, Keplerian elements and back (real arithmetic). *)
From Coq Require Import Reals Lra ZArith List Bool.
From Verif Require Import RMath RLib Num Base Elements RSpec InvSpec ElemProofs ElemInv.
Import ListNotations.
Local Open Scope R_scope.

(** C86.  Every elliptic state is the textbook state of Keplerian elements in the usual ranges. *)
Theorem C86_every_state_has_elements : forall (mu : R) s, 0 < mu -> bound_orbit mu s ->
  exists a e i raan om ta, 0 < a /\ 0 <= e < 1 /\ 0 <= i <= PI /\ - PI < raan <= PI /\ 0 <= om < 2 * PI /\ - PI < ta <= PI /\
    kep2sv (N:=RNum) (elems a e i raan om ta) mu = Ok s.
Proof. exact every_state. Qed.
Print Assumptions C86_every_state_has_elements.

(** The round trip is the identity when the node line and the periapsis direction are usable (the code's own test). *)
Theorem C86_state_round_trip : forall (mu : R) s, 0 < mu -> bound_orbit mu s -> / 10 ^ 12 <= norm (node_line s) * norm (to_periapsis mu s) ->
  exists kep, sv2kep (N:=RNum) s mu = Ok kep /\ kep2sv (N:=RNum) kep mu = Ok s.
Proof. exact state_round_trip. Qed.
Print Assumptions C86_state_round_trip.
Example C86_example : let s := elems (1/2) 0 0 0 0 3 in
  bound_orbit 3 s /\ norm (node_line s) = 3/2 /\ norm (to_periapsis 3 s) = 1/2.
Proof. exact polar_case. Qed.

(** and on equatorial eccentric orbits flown counter-clockwise. *)
Theorem C86_equatorial_round_trip : forall (mu : R) s, 0 < mu -> bound_orbit mu s ->
  v3_0 (momentum s) = 0 -> v3_1 (momentum s) = 0 -> 0 < v3_2 (momentum s) -> norm (to_periapsis mu s) <> 0 ->
  exists kep, sv2kep (N:=RNum) s mu = Ok kep /\ kep2sv (N:=RNum) kep mu = Ok s.
Proof. exact flat_round_trip. Qed.
Print Assumptions C86_equatorial_round_trip.
Example C86_equatorial_example : let s := elems (1/2) 0 0 0 3 0 in
  bound_orbit 3 s /\ momentum s = vec 0 0 (3/2) /\ norm (to_periapsis 3 s) = 1/2.
Proof. exact flat_case. Qed.

(** For every elliptic state the passage succeeds and keeps energy and angular momentum, hence size, shape and plane. *)
Theorem C86_orbit_kept : forall (mu : R) s, 0 < mu -> bound_orbit mu s -> exists kep s', sv2kep (N:=RNum) s mu = Ok kep /\
  kep2sv (N:=RNum) kep mu = Ok s' /\ energy mu s' = energy mu s /\ momentum s' = momentum s.
Proof. exact same_orbit. Qed.
Print Assumptions C86_orbit_kept.

(** The round trip is not the identity on every elliptic state: it moves circular orbits' positions, it mirrors equatorial
    retrograde orbits, and the threshold 1e-12 has no units, so a polar ellipse of eccentricity 1/2 is turned by a quarter
    when mu is 3e-26 in the chosen units. *)
Theorem C86_circular_refuted : exists (mu : R) s, 0 < mu /\ bound_orbit mu s /\ to_periapsis mu s = vec 0 0 0 /\
  exists kep s', sv2kep (N:=RNum) s mu = Ok kep /\ kep2sv (N:=RNum) kep mu = Ok s' /\ s' <> s.
Proof. exact circular_witness. Qed.
Print Assumptions C86_circular_refuted.
Theorem C86_retrograde_refuted : exists (mu : R) s, 0 < mu /\ bound_orbit mu s /\ v3_0 (momentum s) = 0 /\ v3_1 (momentum s) = 0 /\
  v3_2 (momentum s) < 0 /\ norm (to_periapsis mu s) = 1 / 2 /\
  exists kep s', sv2kep (N:=RNum) s mu = Ok kep /\ kep2sv (N:=RNum) kep mu = Ok s' /\ s' <> s.
Proof. exact retrograde_witness. Qed.
Print Assumptions C86_retrograde_refuted.
Theorem C86_units_refuted : exists (mu : R) s, 0 < mu /\ bound_orbit mu s /\ norm (node_line s) = norm (momentum s) /\
  norm (to_periapsis mu s) = 1 / 2 /\
  exists kep s', sv2kep (N:=RNum) s mu = Ok kep /\ kep2sv (N:=RNum) kep mu = Ok s' /\ s' <> s.
Proof. exact units_witness. Qed.
Print Assumptions C86_units_refuted.

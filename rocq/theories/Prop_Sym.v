(** Symmetries of whole runs: C83, C84. *)
From Coq Require Import Reals Lra ZArith List Bool.
From Verif Require Import RMath Num Base Elements Integrate Convergence Lyapunov SymMee Perturb RSpec LawSpec Qlaw Spec NanRun ScaleSpec ScaleSolve ScaleCases TurnSpec TurnSolve TurnCases.
Import ListNotations.
Local Open Scope R_scope.

(** C83.  The same problem in other units (ScaleSpec: state, target, tolerances, bounds, mu, rpmin, thrust, mass flow, times,
    perturbation and threshold functions converted; weights, exponents and the battery's unit of charge kept) gives the same
    run in those units: same outcome, exception or exit code, same thrust angles, throttles, effectivities and battery levels,
    and converted times, states, masses, Q and dQ/dt.  Holds with nan and infinite entries. *)
Theorem C83_units : forall u (o : qlaw XNum) et ea er fuel, positive u -> built et o -> q_integ o = RK4 ->
  solve fuel (qlaw_in u o) (eta_in u ea) (eta_in u er) = result_in u (solve fuel o ea er).
Proof. exact (fun u o et ea er fuel Hu => solve_scaled u Hu fuel o et ea er). Qed.
Print Assumptions C83_units.
(** With the adaptive integrator it is false: a step of y' = A y does not give the same y when time is measured in another unit. *)
Theorem C83_rkf45_refuted : exists A y T h tol y1 h1 y2 h2, linear6 A /\ 0 < T /\
  rkf45 (N:=RNum) (fun (_ : R) v (_ : unit) => Ok (A v)) 0 h y tt tol = Ok (y1, h1) /\
  rkf45 (N:=RNum) (fun (_ : R) v (_ : unit) => Ok (v6scal (N:=RNum) (/ T) (A v))) 0 (T * h) y tt tol = Ok (y2, h2) /\ y1 <> y2.
Proof. exact C83_fehl. Qed.
Print Assumptions C83_rkf45_refuted.
(** kilometres, seconds and kilograms instead of the normalised units *)
Example C83_example : let u := mkunits 6378 807 500 in let z := EtaFloat (N:=XNum) (Fin 0) in
  positive u /\ built Keplerian o_low /\ q_integ o_low = RK4 /\
  exists o' h, solve 11 (qlaw_in u o_low) (eta_in u z) (eta_in u z) = Returns o' /\ q_hist o' = Some h /\ length (h_states h) = 11%nat /\ q_exitcode o' = (-3)%Z.
Proof. exact C83_case. Qed.

(** C84.  Counting the node from another axis (state, target and bounds alike) and adding whole turns to the angles of the
    state or of the target leaves a Keplerian run the same, state angles aside: same outcome, times, masses, thrust angles,
    throttles, effectivities, battery levels, Q and dQ/dt.  Holds for both integrators, with use_sundman, and with nan and infinite entries. *)
Theorem C84_keplerian_turns : forall w (o : qlaw XNum) ea er fuel, built Keplerian o ->
  solve fuel (qlaw_turn w o) (eta_turn w ea) (eta_turn w er) = result_turn w (solve fuel o ea er).
Proof. exact (fun w o ea er fuel B => solve_turn w Keplerian o B (or_introl eq_refl) fuel ea er). Qed.
Print Assumptions C84_keplerian_turns.
(** An equinoctial run is the same after whole turns of the true longitude. *)
Theorem C84_longitude_turns : forall k (o : qlaw XNum) ea er fuel, built MeeWithA o ->
  solve fuel (qlaw_turn (last_turn k) o) (eta_turn (last_turn k) ea) (eta_turn (last_turn k) er) = result_turn (last_turn k) (solve fuel o ea er).
Proof. exact (fun k o ea er fuel B => solve_turn (last_turn k) MeeWithA o B (or_intror (ex_intro _ k eq_refl)) fuel ea er). Qed.
Print Assumptions C84_longitude_turns.
(** The bounds have to be turned too: the default ones keep the node above 1e-4, so an orbit they leave alone is changed once the axis is turned. *)
Theorem C84_default_bounds_refuted : exists w x, let lo := default_oe_min (N:=XNum) Keplerian in let hi := default_oe_max (N:=XNum) Keplerian in
  w_ra w = 0%Z /\ w_om w = 0%Z /\ w_ta w = 0%Z /\ elements_safety (N:=XNum) x lo hi = x /\ elements_safety (N:=XNum) (oe_turn w x) lo hi <> oe_turn w x.
Proof. exact C84_bounds. Qed.
Print Assumptions C84_default_bounds_refuted.
(** The equinoctial law depends on the axes: the same orbit and target, seen from an axis a quarter turn away, give another Q. *)
Theorem C84_equinoctial_axes_refuted : exists d oe oeT T T' out out', mee_state oe /\ mee_state oeT /\ slow oeT = T /\ slow (mee_axes d oeT) = T' /\
  ask (lyap_mee_with_a (N:=RNum)) (law_t T) oe = Ok out /\ ask (lyap_mee_with_a (N:=RNum)) (law_t T') (mee_axes d oe) = Ok out' /\ lo_q out <> lo_q out'.
Proof. exact C84_mee. Qed.
Print Assumptions C84_equinoctial_axes_refuted.
(** [mee_axes] is what turning the axis does to equinoctial elements. *)
Theorem C84_equinoctial_axes : forall a e i ra om ta d : R,
  kep2mee_with_a (N:=RNum) (elems a e i (ra + d) om ta) = mee_axes d (kep2mee_with_a (N:=RNum) (elems a e i ra om ta)).
Proof. exact mee_axes_ok. Qed.
Print Assumptions C84_equinoctial_axes.
Example C84_example : let w := mkturns 1 (-1) 2 3 0 1 in let z := EtaFloat (N:=XNum) (Fin 0) in
  built Keplerian o_low /\ exists o' h, solve 11 (qlaw_turn w o_low) (eta_turn w z) (eta_turn w z) = Returns o' /\ q_hist o' = Some h /\ length (h_states h) = 11%nat /\ q_exitcode o' = (-3)%Z.
Proof. exact C84_case. Qed.

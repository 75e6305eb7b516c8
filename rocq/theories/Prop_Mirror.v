(** Reflection in the reference plane: C96, C97. *)
From Coq Require Import Reals Lra ZArith List Bool.
From Verif Require Import RMath Num Base Elements Integrate Convergence Lyapunov Perturb RSpec Qlaw Spec NanRun EffRuns FinRuns ZeroCase MirrorSpec MirrorSolve FlatProofs MirrorRuns.
Import ListNotations.
Local Open Scope R_scope.

(** C96.  The same transfer seen in a mirror lying in the reference plane (MirrorSpec: state, target, Keplerian bounds,
    perturbation and threshold functions reflected; everything else kept) gives the reflected run: same outcome, exception or exit
    code, same times, masses, in-plane angles, throttles, effectivities, battery levels, Q and dQ/dt; reflected states; and
    out-of-plane angles of the other sign.  Both element types, both integrators, with use_sundman, with nan and infinite entries. *)
Theorem C96_mirror : forall et (o : qlaw XNum) ea er fuel, built et o ->
  solve fuel (qlaw_reflect et o) (eta_reflect et ea) (eta_reflect et er) = result_reflect et (solve fuel o ea er).
Proof. exact (fun et o ea er fuel B => solve_reflect et o B fuel ea er). Qed.
Print Assumptions C96_mirror.
(** What MirrorSpec does to elements is a reflection of the Cartesian state returned by the conversions. *)
Theorem C96_keplerian_elements : forall a e i ra om ta mu : R, 0 < mu -> 0 < a -> 0 <= e < 1 ->
  exists s, kep2sv (N:=RNum) (elems a e i ra om ta) mu = Ok s /\ kep2sv (N:=RNum) (elems a e i (ra + PI) (om + PI) ta) mu = Ok (cart_reflect s).
Proof. exact C96_kep. Qed.
Print Assumptions C96_keplerian_elements.
Theorem C96_equinoctial_elements : forall a f g h k l mu : R, 0 < mu -> 0 < a -> f * f + g * g < 1 ->
  exists s, mee_with_a2sv (N:=RNum) (elems a f g h k l) mu = Ok s /\ mee_with_a2sv (N:=RNum) (elems a f g (- h) (- k) l) mu = Ok (cart_reflect s).
Proof. exact C96_mee. Qed.
Print Assumptions C96_equinoctial_elements.
Theorem C96_same_reflection : forall a e i ra om ta : R, kep2mee_with_a (N:=RNum) (elems a e i (ra + PI) (om + PI) ta) =
  let 'mk6 a f g h k l := kep2mee_with_a (N:=RNum) (elems a e i ra om ta) in @mk6 RNum a f g (- h) (- k) (l + 2 * PI).
Proof. exact C96_kep2mee. Qed.
Print Assumptions C96_same_reflection.
Example C96_example : let z := EtaFloat (N:=XNum) (Fin 0) in built Keplerian o_low /\
  exists o' h, solve 11 (qlaw_reflect Keplerian o_low) z z = Returns o' /\ q_hist o' = Some h /\ length (h_states h) = 11%nat /\ q_exitcode o' = (-3)%Z.
Proof. exact C96_kep_case. Qed.
Example C96_example_mee : exists s, mee_with_a2sv (N:=RNum) (elems 1 (1/2) (1/3) 1 0 0) 1 = Ok s /\ mee_with_a2sv (N:=RNum) (elems 1 (1/2) (1/3) (- 1) (- 0) 0) 1 = Ok (cart_reflect s).
Proof. apply C96_equinoctial_elements; lra. Qed.

(** C97.  An equinoctial transfer that starts in the reference plane, has its target there and is not pushed out of it stays there, whatever
    the thresholds, weights, integrator and duty cycles, and whether it returns or raises: every recorded state has h and k zero
    or nan, and every recorded out-of-plane angle is zero. *)
Theorem C97_stays_in_plane : forall (o : qlaw XNum) p ea er fuel a f g rest, built MeeWithA o -> q_problem o = Some p ->
  flat (p_oe0 p) -> p_oeT p = a :: f :: g :: Fin 0 :: Fin 0 :: rest -> keeps_flat o -> ea <> EtaOther (N:=XNum) ->
  forall o' h, solve fuel o ea er = Returns o' \/ (exists e, solve fuel o ea er = Raises e o') -> q_hist o' = Some h ->
    Forall flat (h_states h) /\ Forall level (h_controls h).
Proof. exact C97_lem. Qed.
Print Assumptions C97_stays_in_plane.
(** a transfer that thrusts in its first iteration *)
Example C97_example : built MeeWithA o_one /\ q_problem o_one = Some p_fin /\ flat (p_oe0 p_fin) /\ (exists a f g, p_oeT p_fin = [a; f; g; Fin 0; Fin 0]) /\ keeps_flat o_one /\
  exists pl c, plan o_one p_fin (init_state p_fin) = Ok pl /\
    control o_one p_fin (eta 0) (eta 0) (init_state p_fin) pl (Fin 1) = Ok (Ctl c) /\ c_thr c = 1%Z /\ c_u c = @mk3 XNum (Fin 0) (Fin 1) (Fin 0).
Proof. exact C97_case. Qed.

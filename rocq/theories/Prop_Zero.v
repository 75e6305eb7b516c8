(** Elements without weight, and starts on a node or periapsis target: C91, C92. *)
From Coq Require Import Reals ZArith List Bool Lra Lia.
From Verif Require Import RMath Num Base Lyapunov Perturb Qlaw Spec XSpec EllSpec NanSpec NanRun FinRuns ZeroSpec ZeroSolve ZeroRuns ZeroCase.
Import ListNotations.
Local Open Scope R_scope.

(** C91: the target of an element with weight zero has no influence on a run.  Full statement: for every object [o] with
    problem [p], both element sets, [same_demand (p_woe p) (p_oeT p) T'] implies that solving with target T' is solving with
    the given one.  True for equinoctial elements, ... *)
Theorem C91_equinoctial_partial : forall (o : qlaw XNum) p ea er T' fuel, built MeeWithA o -> q_problem o = Some p -> same_demand (p_woe p) (p_oeT p) T' ->
  solve fuel (qlaw_for T' o) ea er = result_for T' (solve fuel o ea er).
Proof. exact C91_mee_lem. Qed.
Print Assumptions C91_equinoctial_partial.
Example C91_equinoctial_example : built MeeWithA o_one /\ q_problem o_one = Some p_fin /\ same_demand (p_woe p_fin) (p_oeT p_fin) [Fin 2; Fin 0; Fin 5; Fin 6; Fin 7].
Proof. exact C91_mee_case. Qed.
(** ... for Keplerian eccentricity and inclination, ... *)
Theorem C91_keplerian_shape_partial : forall (o : qlaw XNum) p ea er T' fuel, built Keplerian o -> q_problem o = Some p -> same_demand (p_woe p) (p_oeT p) T' ->
  nth 3 T' NaN = nth 3 (p_oeT p) NaN -> nth 4 T' NaN = nth 4 (p_oeT p) NaN ->
  solve fuel (qlaw_for T' o) ea er = result_for T' (solve fuel o ea er).
Proof. exact C91_kep_lem. Qed.
Print Assumptions C91_keplerian_shape_partial.
Example C91_shape_example : built Keplerian (o_kink 10) /\ q_problem (o_kink 10) = Some p_kink /\ same_demand (p_woe p_kink) (p_oeT p_kink) [Fin 2; Fin 0; Fin 1; Fin (PI / 4); Fin 0].
Proof. exact C91_kep_case. Qed.
(** ... for node and periapsis as long as no recorded state is exactly at (or opposite) either target ... *)
Theorem C91_keplerian_angles_partial : forall (o : qlaw XNum) p ea er T' fuel o1 h, built Keplerian o -> same_demand (p_woe p) (p_oeT p) T' -> ran fuel o ea er p o1 h ->
  (forall z, In z (h_states h) -> clear_of (p_oeT p) T' z) -> solve fuel (qlaw_for T' o) ea er = Returns (qlaw_for T' o1).
Proof. exact C91_angles_lem. Qed.
Print Assumptions C91_keplerian_angles_partial.
Example C91_angles_example : let T' := [Fin 2; Fin (1 / 2); Fin 1; Fin (5 / 2); Fin 1] in
  built Keplerian o_side /\ same_demand (p_woe p_side) (p_oeT p_side) T' /\ exists o1 h, ran 11 o_side zeta zeta p_side o1 h /\ length (h_states h) = 11%nat /\
    forall z, In z (h_states h) -> clear_of (p_oeT p_side) T' z.
Proof. exact C91_angles_case. Qed.
(** ... and false otherwise: on the node target the gradient is 0/0 in spite of the zero weight. *)
Theorem C91_zero_weight_refuted : exists (o : qlaw XNum) p T' fuel, built Keplerian o /\ q_problem o = Some p /\ same_demand (p_woe p) (p_oeT p) T' /\
  solve fuel (qlaw_for T' o) zeta zeta <> result_for T' (solve fuel o zeta zeta).
Proof. exact C91_refuted_lem. Qed.
Print Assumptions C91_zero_weight_refuted.

(** C92: an unperturbed Keplerian run that starts exactly on its node target or on its periapsis target, whatever their
    weights, with another element still off ([on_angle]), never thrusts: it coasts nan_angles_threshold steps along its initial
    orbit and gives up with code -3 ([gives_up]). *)
Theorem C92_on_angle_never_thrusts : forall (o : qlaw XNum) p ea er a, let n := Z.to_nat (q_nan_thr o) in
  plain Keplerian o -> on_angle o p -> finite_problem p a -> room_for n a -> q_problem o = Some p -> ea <> EtaOther ->
  forall fuel, (n < fuel)%nat -> exists o' h, ran fuel o ea er p o' h /\ gives_up Keplerian n a p o o' h.
Proof. exact C92_lem. Qed.
Print Assumptions C92_on_angle_never_thrusts.
Example C92_example : plain Keplerian (o_kink 10) /\ on_angle (o_kink 10) p_kink /\ finite_problem p_kink a_low /\
  room_for (Z.to_nat (q_nan_thr (o_kink 10))) a_low /\ q_problem (o_kink 10) = Some p_kink.
Proof. apply C92_case. lia. Qed.

(** C99 and C100: Keplerian runs without weight on the orbital plane, and elements that are not a number. *)
From Coq Require Import Reals ZArith List Bool Lra.
From Verif Require Import RMath Num Base Elements Lyapunov Perturb Qlaw Spec XSpec LawSpec FinSpec MirrorSpec EffRuns FinRuns NanRun ZeroSpec ZeroCase RunSpec
  PlaneSpec PlaneProofs PlaneRuns HideProofs HideRuns.
Import ListNotations.
Local Open Scope R_scope.

(** C99.  A Keplerian run without weight on inclination, node and argument of periapsis stays in its orbital plane if it starts within the
    bounds and no perturbation pulls it out: every recorded inclination and node is the one of the start (or nan, or the bound that has
    replaced a nan), and every recorded out-of-plane angle is zero, whether solve returns or raises. *)
Theorem C99_stays_in_plane : forall (o : qlaw XNum) p ea er fuel, built Keplerian o -> q_problem o = Some p ->
  no_plane_weight (p_woe p) -> pulls_in_orbit o -> plane_in_bounds o (p_oe0 p) -> ea <> EtaOther (N:=XNum) ->
  forall o' h, solve fuel o ea er = Returns o' \/ (exists e, solve fuel o ea er = Raises e o') -> q_hist o' = Some h ->
    Forall (same_plane o (p_oe0 p)) (h_states h) /\ Forall level (h_controls h).
Proof. exact C99_lem. Qed.
Print Assumptions C99_stays_in_plane.
(** Not so for equinoctial elements: with weight on f only, the law steers out of the orbital plane. *)
Theorem C99_equinoctial_refuted : exists (o : qlaw XNum) (p : problem XNum) pl (c : ctl_t XNum), built MeeWithA o /\
  p_woe p = @mk5 XNum (Fin 0) (Fin 1) (Fin 0) (Fin 0) (Fin 0) /\
  control o p (eta 0) (eta 0) (init_state p) pl (Fin 1) = Ok (Ctl c) /\ c_thr c = 1%Z /\ exists x : R, v3_2 (c_u c) = Fin x /\ x <> 0.
Proof. exact C99_mee_refuted_lem. Qed.
Print Assumptions C99_equinoctial_refuted.
(** a transfer that thrusts in its first iteration *)
Example C99_example : let o := qlaw_for T_free (o_kink 0) in let p := problem_for T_free p_kink in
  built Keplerian o /\ q_problem o = Some p /\ no_plane_weight (p_woe p) /\ pulls_in_orbit o /\ plane_in_bounds o (p_oe0 p) /\
  exists c s pl, plan o p s = Ok pl /\ s = safety o (init_state p) /\ control o p zeta zeta s pl (accel_thrust p (pl_dt pl) (l_mass s)) = Ok (Ctl c) /\ c_thr c = 1%Z.
Proof. exact C99_case. Qed.

(** C100, equinoctial elements: an element that is nan in some recorded state is nan in every later one. *)
Theorem C100_nan_stays_partial : forall (o : qlaw XNum) p ea er fuel o' h, built MeeWithA o -> ran fuel o ea er p o' h ->
  forall k k' j z z', (k <= k')%nat -> nth_error (h_states h) k = Some z -> nth_error (h_states h) k' = Some z' -> nan_at j z -> nan_at j z'.
Proof. exact C100_mee_lem. Qed.
Print Assumptions C100_nan_stays_partial.
(** Keplerian elements: where the integrator produced nan, the recorded state has what the bounds put in its place as soon as another
    step has been recorded. *)
Theorem C100_nan_replaced : forall (o : qlaw XNum) p ea er fuel o' h, built Keplerian o -> ran fuel o ea er p o' h ->
  exists zs, raws o (p_oe0 p) h zs /\ forall k j z y, nth_error zs k = Some z -> nth_error (h_states h) (S k) = Some y -> nan_at j z ->
    (S (S k) < length (h_states h))%nat -> nth_error (entries y) j = nth_error (entries (lost o)) j.
Proof. exact C100_kep_lem. Qed.
Print Assumptions C100_nan_replaced.
(** With the default bounds those are numbers: this run's integrator answers six nan, and the recorded state has five numbers,
    a = 0.05 and e = i = raan = aop = 0.0001. *)
Theorem C100_keplerian_refuted : exists (o : qlaw XNum) (p : problem XNum) ea er o' h, built Keplerian o /\
  q_oe_min o = default_oe_min Keplerian /\ q_oe_max o = default_oe_max Keplerian /\ ran 2 o ea er p o' h /\ raws o (p_oe0 p) h [all_nan] /\
  h_states h = [p_oe0 p; @mk6 XNum (Fin (5 / 100)) (Fin (1 / 10000)) (Fin (1 / 10000)) (Fin (1 / 10000)) (Fin (1 / 10000)) NaN].
Proof. exact C100_hidden_refuted_lem. Qed.
Print Assumptions C100_keplerian_refuted.
(** the same pull on equinoctial elements: two rows of nan after the first *)
Example C100_example : exists o' h, ran 3 o_fade (eta 0) (eta 0) p_fin o' h /\ built MeeWithA o_fade /\ h_states h = [fin6 oe_eff; all_nan; all_nan] /\ q_exitcode o' = (-3)%Z.
Proof. exact C100_fade_lem. Qed.

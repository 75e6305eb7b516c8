(** What of the weights and of the force level the law reacts to: C88, C89. *)
From Coq Require Import Reals Lra ZArith List Bool.
From Verif Require Import RMath Num Base Perturb Qlaw Spec NanRun ScaleSpec WeightSpec WeightSolve FinRuns.
Import ListNotations.
Local Open Scope R_scope.

(** C88.  Only the ratios of the weights matter: multiplying all five by one positive number multiplies the recorded Q and
    dQ/dt by it and leaves the run as it was otherwise (same outcome, exception or exit code, same times, states, masses,
    controls, effectivities and battery levels).  Holds for both integrators and with nan and infinite entries. *)
Theorem C88_only_ratios_of_weights : forall c (o : qlaw XNum) et ea er fuel, 0 < c -> built et o ->
  solve fuel (qlaw_weighed c o) ea er = result_weighed c (solve fuel o ea er).
Proof. exact (fun c o et ea er fuel Hc B => solve_w c Hc et o B fuel ea er). Qed.
Print Assumptions C88_only_ratios_of_weights.
(** weights a thousand times as large: ten steps, then the exit for too many nan answers *)
Example C88_example : let z := EtaFloat (N:=XNum) (Fin 0) in
  built Keplerian o_low /\ exists o' h, solve 11 (qlaw_weighed 1000 o_low) z z = Returns o' /\ q_hist o' = Some h /\ length (h_states h) = 11%nat /\ q_exitcode o' = (-3)%Z.
Proof. exact C88_case. Qed.

(** C89.  At one state, [t] times the acceleration around a body with [d] times the gravitational parameter changes none of the
    decisions of the iteration: thrust or coast, angles, effectivities, nan answers, exceptions. *)
Theorem C89_decisions_ignore_force : forall t d (o : qlaw XNum) et p ea er s pl a, 0 < t -> 0 < d -> built et o ->
  same_decision (control o p ea er s pl a) (control (qlaw_heavier d o) p ea er s pl (xscale t a)).
Proof. exact (fun t d o et p ea er s pl a Ht Hd B => proj1 (C89_lem t d Ht Hd et o B p ea er s pl a)). Qed.
Print Assumptions C89_decisions_ignore_force.
(** The applied acceleration is [t] times as large, Q is [d / t^2] times and dQ/dt [sqrt d / t] times as large. *)
Theorem C89_force_scales_q : forall t d (o : qlaw XNum) et p ea er s pl a c c', 0 < t -> 0 < d -> built et o ->
  control o p ea er s pl a = Ok (Ctl c) -> control (qlaw_heavier d o) p ea er s pl (xscale t a) = Ok (Ctl c') -> rescaled t d c c'.
Proof. exact (fun t d o et p ea er s pl a c c' Ht Hd B => proj2 (C89_lem t d Ht Hd et o B p ea er s pl a) c c'). Qed.
Print Assumptions C89_force_scales_q.
(** twice the thrust around a body three times as heavy *)
Example C89_example : built MeeWithA o_fin /\ exists c c', control o_fin p_fin (eta 0) (eta 0) s_fin pl_fin (Fin 1) = Ok (Ctl c) /\
  control (qlaw_heavier 3 o_fin) p_fin (eta 0) (eta 0) s_fin pl_fin (xscale 2 (Fin 1)) = Ok (Ctl c') /\
  c_thr c' = 1%Z /\ c_u c = @mk3 XNum (Fin 0) (Fin 1) (Fin 0) /\ c_u c' = @mk3 XNum (Fin 0) (Fin 2) (Fin 0) /\ c_ab c' = c_ab c.
Proof. exact (conj o_fin_built C89_case). Qed.

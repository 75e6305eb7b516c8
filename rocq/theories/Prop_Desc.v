(** C94: one thrusting RK4 step and the Lyapunov function.  Real arithmetic. *)
From Coq Require Import Reals Lra ZArith List Bool.
From Verif Require Import RMath RLib Num Base Integrate Eom Lyapunov Symbolic SymKep SymMee RSpec LawSpec LawRuns EffRuns DescProofs DescRuns.
Import ListNotations.
Local Open Scope R_scope.

(** C94, Keplerian.  [h] is the step: for every accuracy [eps] there is a step length below which the RK4 step along
    the law's own thrust succeeds and changes Q by [- h qdot] up to [eps |h|], [qdot] being the rate the law reports.
    Hence short steps lower Q; backward steps ([h] and [g_f p] negative) do too. *)
Theorem C94_keplerian_short_step : forall p oe out, sound p -> kep_state oe -> power_ok p oe -> kep_smooth p oe ->
  ask (lyap_keplerian (N:=RNum)) p oe = Ok out -> v3_0 (lo_u out) <> 0 \/ v3_1 (lo_u out) <> 0 ->
  exists alpha beta u P qv qdot,
    ask (lyapunov_control_angles (N:=RNum) lyap_keplerian) p oe = Ok (alpha, beta, u, P, qv, qdot) /\ qdot = g_f p * norm (lo_u out) /\
    (forall eps, 0 < eps -> exists h0, 0 < h0 /\ forall t h, Rabs h < h0 -> exists y,
      rk4 (N:=RNum) (eom_kep_gauss (N:=RNum)) t h oe (mkparams (N:=RNum) (g_mu p) (scale (g_f p) (direction alpha beta)) P null) = Ok y /\
      Rabs (Qof (lyap_keplerian (N:=RNum)) p y - (Qof (lyap_keplerian (N:=RNum)) p oe - h * qdot)) <= eps * Rabs h) /\
    (exists h0, 0 < h0 /\ forall t h, Rabs h < h0 -> 0 < h * g_f p -> exists y,
      rk4 (N:=RNum) (eom_kep_gauss (N:=RNum)) t h oe (mkparams (N:=RNum) (g_mu p) (scale (g_f p) (direction alpha beta)) P null) = Ok y /\
      Qof (lyap_keplerian (N:=RNum)) p y < Qof (lyap_keplerian (N:=RNum)) p oe).
Proof. exact kep_descent_lem. Qed.
Print Assumptions C94_keplerian_short_step.
(** C94, equinoctial.  [f] must not be zero (the code divides by it). *)
Theorem C94_equinoctial_short_step : forall p oe out, sound p -> mee_state oe -> mee_smooth p oe -> v6_1 oe <> 0 ->
  ask (lyap_mee_with_a (N:=RNum)) p oe = Ok out -> v3_0 (lo_u out) <> 0 \/ v3_1 (lo_u out) <> 0 ->
  exists alpha beta u P qv qdot,
    ask (lyapunov_control_angles (N:=RNum) lyap_mee_with_a) p oe = Ok (alpha, beta, u, P, qv, qdot) /\ qdot = g_f p * norm (lo_u out) /\
    (forall eps, 0 < eps -> exists h0, 0 < h0 /\ forall t h, Rabs h < h0 -> exists y,
      rk4 (N:=RNum) (eom_mee_with_a_gauss (N:=RNum)) t h oe (mkparams (N:=RNum) (g_mu p) (scale (g_f p) (direction alpha beta)) P null) = Ok y /\
      Rabs (Qof (lyap_mee_with_a (N:=RNum)) p y - (Qof (lyap_mee_with_a (N:=RNum)) p oe - h * qdot)) <= eps * Rabs h) /\
    (exists h0, 0 < h0 /\ forall t h, Rabs h < h0 -> 0 < h * g_f p -> exists y,
      rk4 (N:=RNum) (eom_mee_with_a_gauss (N:=RNum)) t h oe (mkparams (N:=RNum) (g_mu p) (scale (g_f p) (direction alpha beta)) P null) = Ok y /\
      Qof (lyap_mee_with_a (N:=RNum)) p y < Qof (lyap_mee_with_a (N:=RNum)) p oe).
Proof. exact mee_descent_lem. Qed.
Print Assumptions C94_equinoctial_short_step.
(** the hypotheses hold at the states of C37 *)
Example C94_example : (exists out, sound p_kep /\ kep_state oe_kep /\ power_ok p_kep oe_kep /\ kep_smooth p_kep oe_kep /\
    ask (lyap_keplerian (N:=RNum)) p_kep oe_kep = Ok out /\ (v3_0 (lo_u out) <> 0 \/ v3_1 (lo_u out) <> 0)) /\
  (exists out, sound p_mee /\ mee_state oe_mee /\ mee_smooth p_mee oe_mee /\ v6_1 oe_mee <> 0 /\
    ask (lyap_mee_with_a (N:=RNum)) p_mee oe_mee = Ok out /\ (v3_0 (lo_u out) <> 0 \/ v3_1 (lo_u out) <> 0)).
Proof.
  split.
  - destruct kep_gradient_value as (out & E & H). exists out. exact (conj p_kep_sound (conj oe_kep_state (conj oe_kep_power (conj oe_kep_smooth (conj E (or_introl H)))))).
  - destruct mee_gradient_value as (out & E & H). exists out. refine (conj p_kep_sound (conj oe_mee_state (conj oe_mee_smooth (conj _ (conj E (or_introl H)))))). cbn. lra.
Qed.
(** "A thrusting step lowers Q" is false without "short": the law has no line search.  The step ends on an ellipse whose Q is larger. *)
Theorem C94_long_step_refuted : exists p oe out alpha beta u P qv qdot h y,
  sound p /\ mee_state oe /\ mee_smooth p oe /\ v6_1 oe <> 0 /\
  ask (lyap_mee_with_a (N:=RNum)) p oe = Ok out /\ (v3_0 (lo_u out) <> 0 \/ v3_1 (lo_u out) <> 0) /\
  ask (lyapunov_control_angles (N:=RNum) lyap_mee_with_a) p oe = Ok (alpha, beta, u, P, qv, qdot) /\ 0 < h * g_f p /\
  rk4 (N:=RNum) (eom_mee_with_a_gauss (N:=RNum)) 0 h oe (mkparams (N:=RNum) (g_mu p) (scale (g_f p) (direction alpha beta)) P null) = Ok y /\
  mee_state y /\ Qof (lyap_mee_with_a (N:=RNum)) p oe < Qof (lyap_mee_with_a (N:=RNum)) p y.
Proof. exact long_step_lem. Qed.
Print Assumptions C94_long_step_refuted.

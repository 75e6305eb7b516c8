(** Vocabulary of C88 and C89: all weights multiplied by one number; another thrust level or gravitational parameter. *)
From Coq Require Import Reals ZArith List Bool.
From Verif Require Import RMath Num Base Lyapunov Perturb Qlaw ScaleSpec.
Import ListNotations.
Local Open Scope R_scope.

Definition times5 (c : R) (v : vec5 XNum) : vec5 XNum :=
  let 'mk5 a b d e f := v in @mk5 XNum (xscale c a) (xscale c b) (xscale c d) (xscale c e) (xscale c f).
Definition times3 (c : R) (v : vec3 XNum) : vec3 XNum := let 'mk3 x y z := v in @mk3 XNum (xscale c x) (xscale c y) (xscale c z).
Definition problem_weighed (c : R) (p : problem XNum) : problem XNum :=
  @mkproblem XNum (p_oe0 p) (p_oeT p) (p_mass0 p) (p_tmax p) (p_mdot p) (p_tf_max p) (p_t_step p) (p_mass_min p) (times5 c (p_woe p))
    (p_duty_on p) (p_duty_off p) (p_batt0 p) (p_cap_lo p) (p_cap_hi p) (p_charge p) (p_discharge p) (p_full p).
(** Q and dQ/dt are proportional to the weights; the rest of the history is the same *)
Definition hist_weighed (c : R) (h : hist XNum) : hist XNum :=
  @mkhist XNum (map (xscale c) (h_Qs h)) (map (xscale c) (h_dQdts h)) (h_times h) (h_states h) (h_masses h) (h_controls h) (h_etas h) (h_bounds h) (h_battery h).
Definition qlaw_weighed (c : R) (o : qlaw XNum) : qlaw XNum :=
  @mkqlaw XNum (q_mu o) (q_rpmin o) (q_k o) (q_m o) (q_n o) (q_r o) (q_b o) (q_wp o) (q_etype o) (q_integ o) (q_grid o)
    (q_tol o) (q_tol_relaxed o) (q_exit_relaxed o) (q_oe_min o) (q_oe_max o) (q_nan_thr o)
    (q_eom o) (q_lyap o) (q_dqdt o) (q_check o) (q_step_min o) (q_step_max o) (q_ode_tol o) (q_sundman o)
    (q_ptrb o) (option_map (problem_weighed c) (q_problem o)) (option_map (hist_weighed c) (q_hist o)) (q_converge o) (q_exitcode o).
Definition result_weighed (c : R) (r : sres XNum) : sres XNum :=
  match r with Returns o => Returns (qlaw_weighed c o) | Raises e o => Raises e (qlaw_weighed c o) | Running => Running end.

(** the same object around a body whose gravitational parameter is [d] times as large *)
Definition qlaw_heavier (d : R) (o : qlaw XNum) : qlaw XNum :=
  @mkqlaw XNum (xscale d (q_mu o)) (q_rpmin o) (q_k o) (q_m o) (q_n o) (q_r o) (q_b o) (q_wp o) (q_etype o) (q_integ o) (q_grid o)
    (q_tol o) (q_tol_relaxed o) (q_exit_relaxed o) (q_oe_min o) (q_oe_max o) (q_nan_thr o)
    (q_eom o) (q_lyap o) (q_dqdt o) (q_check o) (q_step_min o) (q_step_max o) (q_ode_tol o) (q_sundman o)
    (q_ptrb o) (q_problem o) (q_hist o) (q_converge o) (q_exitcode o).
(** Two answers of the control part of an iteration agree on everything decided: to stop or go on, the angles, throttle,
    effectivities, thresholds and number of nan answers. *)
Definition same_decision (a b : Res (@ctl_res XNum)) : Prop :=
  match a, b with
  | Ok NanBreak, Ok NanBreak => True
  | Err x, Err y => x = y
  | Ok (Ctl c), Ok (Ctl c') => c_ab c' = c_ab c /\ c_thr c' = c_thr c /\ c_etas c' = c_etas c /\ c_bounds c' = c_bounds c /\ c_nnan c' = c_nnan c
  | _, _ => False
  end.
(** [c] with acceleration [a] and gravitational parameter 1 times, [c'] with [t] times the acceleration and [d] times the
    parameter: the applied acceleration, Q and dQ/dt. *)
Definition rescaled (t d : R) (c c' : ctl_t XNum) : Prop :=
  c_u c' = times3 t (c_u c) /\ c_q c' = xscale (d / (t * t)) (c_q c) /\ c_qdot c' = xscale (sqrt d / t) (c_qdot c).

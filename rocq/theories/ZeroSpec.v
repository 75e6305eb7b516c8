(** Vocabulary of C91 and C92: targets of elements without weight, and laws that are nan all along an orbit. *)
From Coq Require Import Reals ZArith List Bool.
From Verif Require Import RMath Num Base Lyapunov Perturb Qlaw Spec XSpec EllSpec NanSpec.
Import ListNotations.
Local Open Scope R_scope.

(** the same problem, object and result with another target *)
Definition problem_for (T : list (@car XNum)) (p : problem XNum) : problem XNum :=
  @mkproblem XNum (p_oe0 p) T (p_mass0 p) (p_tmax p) (p_mdot p) (p_tf_max p) (p_t_step p) (p_mass_min p) (p_woe p)
    (p_duty_on p) (p_duty_off p) (p_batt0 p) (p_cap_lo p) (p_cap_hi p) (p_charge p) (p_discharge p) (p_full p).
Definition qlaw_for (T : list (@car XNum)) (o : qlaw XNum) : qlaw XNum :=
  @mkqlaw XNum (q_mu o) (q_rpmin o) (q_k o) (q_m o) (q_n o) (q_r o) (q_b o) (q_wp o) (q_etype o) (q_integ o) (q_grid o)
    (q_tol o) (q_tol_relaxed o) (q_exit_relaxed o) (q_oe_min o) (q_oe_max o) (q_nan_thr o)
    (q_eom o) (q_lyap o) (q_dqdt o) (q_check o) (q_step_min o) (q_step_max o) (q_ode_tol o) (q_sundman o)
    (q_ptrb o) (option_map (problem_for T) (q_problem o)) (q_hist o) (q_converge o) (q_exitcode o).
Definition result_for (T : list (@car XNum)) (r : sres XNum) : sres XNum :=
  match r with Returns o => Returns (qlaw_for T o) | Raises e o => Raises e (qlaw_for T o) | Running => Running end.

(** A target value may change when its element has weight zero and both values are finite. *)
Definition may_change (w t t' : ereal) : Prop := t = t' \/ (w = Fin 0 /\ (exists r, t = Fin r) /\ (exists r, t' = Fin r)).
(** Two targets that say the same about every element with a weight and about the semimajor axis. *)
Definition same_demand (w : vec5 XNum) (T T' : list (@car XNum)) : Prop :=
  exists a t1 t2 t3 t4 t1' t2' t3' t4', T = [a; t1; t2; t3; t4] /\ T' = [a; t1'; t2'; t3'; t4'] /\
    may_change (v5_1 w) t1 t1' /\ may_change (v5_2 w) t2 t2' /\ may_change (v5_3 w) t3 t3' /\ may_change (v5_4 w) t4 t4'.
(** The angle [x] is neither equal nor opposite to [t]. *)
Definition aside (x t : ereal) : Prop := forall r s, x = Fin r -> t = Fin s -> sin (r - s) <> 0.
(** Where the two Keplerian targets name different nodes (or periapsides), the state is at neither. *)
Definition angle_clear (x t t' : ereal) : Prop := t = t' \/ (aside x t /\ aside x t').
Definition clear_of (T T' : list (@car XNum)) (z : vec6 XNum) : Prop :=
  angle_clear (v6_3 z) (nth 3 T NaN) (nth 3 T' NaN) /\ angle_clear (v6_4 z) (nth 4 T NaN) (nth 4 T' NaN).

(** A start inside the bounds, on its node or periapsis target, with semimajor axis, eccentricity or inclination still off
    by more than both tolerances. *)
Definition off (w x t tol tol' : ereal) : Prop := exists w' x' t' r r', w = Fin w' /\ w' <> 0 /\ x = Fin x' /\ t = Fin t' /\
  tol = Fin r /\ tol' = Fin r' /\ r < Rabs (t' - x') /\ r' < Rabs (t' - x').
Definition on_angle (o : qlaw XNum) (p : problem XNum) : Prop :=
  proper_ellipse Keplerian (p_oe0 p) /\ guarded o (p_oe0 p) = p_oe0 p /\
  let z := p_oe0 p in let w := p_woe p in let tl := q_tol o in let tr := q_tol_relaxed o in
  exists T0 T1 T2 T3 T4, p_oeT p = [T0; T1; T2; T3; T4] /\ (v6_3 z = T3 \/ v6_4 z = T4) /\
    (off (v5_0 w) (v6_0 z) T0 (v5_0 tl) (v5_0 tr) \/ off (v5_1 w) (v6_1 z) T1 (v5_1 tl) (v5_1 tr) \/ off (v5_2 w) (v6_2 z) T2 (v5_2 tl) (v5_2 tr)).

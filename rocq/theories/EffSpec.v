(** Vocabulary for effectivities (C30) and Sundman steps (C31), real arithmetic. *)
From Coq Require Import Reals ZArith List Bool.
From Verif Require Import RMath RLib Num Base Elements Convergence Lyapunov Symbolic SymKep SymMee Perturb Qlaw RSpec LawSpec MaxSpec GaussSpec.
Import ListNotations.
Local Open Scope R_scope.

(** the arguments solve passes to the control law for acceleration [acc] and target [T] *)
Definition law_of (o : qlaw RNum) (p : problem RNum) (T : vec5 RNum) (acc : R) : law_args :=
  mklaw (q_mu o) acc T (q_rpmin o) (q_m o) (q_n o) (q_r o) (q_b o) (q_k o) (q_wp o) (p_woe p).
(** where the two laws are smooth functions of the state *)
Definition regular (et : etype) (L : law_args) (oe : vec6 RNum) : Prop :=
  sound L /\ match et with
             | Keplerian => kep_state oe /\ power_ok L oe /\ kep_smooth L oe
             | MeeWithA => mee_state oe /\ mee_smooth L oe /\ v6_1 oe <> 0
             end.
(** the control gradient at anomaly [l] of the orbit of [oe] *)
Definition gradient_at (et : etype) (L : law_args) (oe : vec6 RNum) (l : R) : vec3 RNum :=
  match ask (lyap_of_etype (N:=RNum) et) L (with_anomaly l oe) with Ok out => lo_u out | Err _ => null end.
(** k-th of n equally spaced points of the revolution that starts at the current anomaly *)
Definition grid_point (oe : vec6 RNum) (n k : nat) : R := v6_5 oe + 2 * PI * INR k / INR n.
(** speed at which thrusting at the k-th grid point can lower Q (magnitude) *)
Definition speed et L oe (n k : nat) : R := Rabs (g_f L) * norm (gradient_at et L oe (grid_point oe n k)).
Definition strongest et L oe n (x : R) : Prop :=
  (exists k, (1 <= k <= n)%nat /\ speed et L oe n k = x) /\ forall k, (1 <= k <= n)%nat -> speed et L oe n k <= x.
Definition weakest et L oe n (x : R) : Prop :=
  (exists k, (1 <= k <= n)%nat /\ speed et L oe n k = x) /\ forall k, (1 <= k <= n)%nat -> x <= speed et L oe n k.

(** eccentricity and true anomaly of a state *)
Definition ecc_of (et : etype) (oe : vec6 RNum) : R :=
  match et with Keplerian => v6_1 oe | MeeWithA => sqrt (v6_1 oe * v6_1 oe + v6_2 oe * v6_2 oe) end.
Definition ta_of (et : etype) (oe : vec6 RNum) : R :=
  match et with Keplerian => v6_5 oe | MeeWithA => v6_5 oe - Ratan2 (v6_2 oe) (v6_1 oe) end.
(** [E] is the eccentric anomaly of true anomaly [ta] *)
Definition ecc_anomaly (e ta E : R) : Prop :=
  cos E = (e + cos ta) / (1 + e * cos ta) /\ sin E = sqrt (1 - e * e) * sin ta / (1 + e * cos ta).
(** Kepler's equation: time since periapsis *)
Definition kepler_time (mu a e E : R) : R := sqrt (a ^ 3 / mu) * (E - e * sin E).
Definition rev_time (mu a : R) : R := 2 * PI * sqrt (a ^ 3 / mu).
(** motion under the attraction [mu] at the origin and nothing else *)
Definition two_body (mu : R) (r v : R -> vec3 RNum) : Prop :=
  forall t, dvec r t (v t) /\ dvec v t (scale (- mu / norm (r t) ^ 3) (r t)).
(** point of the ellipse at eccentric anomaly [E], at true anomaly [ta] (perifocal axes, focus at the origin) *)
Definition ellipse (a e E : R) : vec3 RNum := vec (a * (cos E - e)) (a * sqrt (1 - e * e) * sin E) 0.
Definition place (a e ta : R) : vec3 RNum := scale (a * (1 - e * e) / (1 + e * cos ta)) (vec (cos ta) (sin ta) 0).

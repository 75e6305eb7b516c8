(** A Keplerian run that can never thrust (C82). *)
From Coq Require Import Reals ZArith List.
From Verif Require Import RMath Num Base Lyapunov Perturb Qlaw Spec XSpec EllSpec.
Import ListNotations.
Local Open Scope R_scope.

(** A Keplerian object as the constructor makes it, fixed step, RK4, no perturbations, whose law has a
    non-integer exponent n_petro. *)
Definition fractional_law (o : qlaw XNum) : Prop :=
  built Keplerian o /\ q_integ o = RK4 /\ q_ptrb o = None /\ q_sundman o = false /\ (0 <= q_nan_thr o)%Z /\
  exists mu m n : R, q_mu o = Fin mu /\ 0 < mu /\ q_m o = Fin m /\ 0 < m /\ q_n o = Fin n /\ (forall k, n <> IZR k).
(** A start within the bounds whose semimajor axis is below the (weighted) target by more than both
    tolerances. *)
Definition below_target (o : qlaw XNum) (p : problem XNum) : Prop :=
  proper_ellipse Keplerian (p_oe0 p) /\ guarded o (p_oe0 p) = p_oe0 p /\
  exists (a0 aT w t1 t2 : R) T1 T2 T3 T4 w1 w2 w3 w4,
    v6_0 (p_oe0 p) = Fin a0 /\ p_oeT p = [Fin aT; T1; T2; T3; T4] /\ p_woe p = @mk5 XNum (Fin w) w1 w2 w3 w4 /\ w <> 0 /\ 0 < aT /\
    a0 < aT /\ v5_0 (q_tol o) = Fin t1 /\ v5_0 (q_tol_relaxed o) = Fin t2 /\ t1 < aT - a0 /\ t2 < aT - a0.
(** Time, duty cycle, battery and mass allow [n] more steps and one. *)
Definition room_for (n : nat) (a : params) : Prop :=
  0 < a_ts a /\ INR n * a_ts a < Rabs (a_tf a) /\ INR n * a_ts a <= a_on a /\ 0 <= a_dis a /\
  a_lo a + 1 / 10 ^ 12 < a_b0 a - a_dis a * a_ts a * INR (S n) /\ a_b0 a <= a_hi a /\ a_mmin a < a_mass0 a.
(** The control law answers with a nan angle at every state of the osculating orbit [z0]. *)
Definition nan_along (o : qlaw XNum) (p : problem XNum) (z0 : vec6 XNum) : Prop :=
  forall acc z, slow z = slow z0 -> exists al be v psi q qd,
    lyapunov_control_angles (N:=XNum) (q_lyap o) (q_mu o) acc z (p_oeT p) (q_rpmin o) (q_m o) (q_n o) (q_r o) (q_b o) (q_k o) (q_wp o) (p_woe p)
      = Ok (al, be, v, psi, q, qd) /\ (al = NaN \/ be = NaN).
(** No state of that orbit passes either convergence test. *)
Definition unmet_along (o : qlaw XNum) (p : problem XNum) (z0 : vec6 XNum) : Prop :=
  forall z, slow z = slow z0 -> q_check o z (p_oeT p) (p_woe p) (q_tol o) = Ok false /\ q_check o z (p_oeT p) (p_woe p) (q_tol_relaxed o) = Ok false.
(** An object as the constructor makes it: fixed step, RK4, no perturbations. *)
Definition plain (et : etype) (o : qlaw XNum) : Prop :=
  built et o /\ q_integ o = RK4 /\ q_ptrb o = None /\ q_sundman o = false /\ (0 <= q_nan_thr o)%Z /\ exists mu, q_mu o = Fin mu /\ 0 < mu.
(** A run that never thrusts: [n] coasts along the initial orbit, code -3. *)
Definition gives_up (et : etype) (n : nat) (a : params) (p : problem XNum) (o o' : qlaw XNum) (h : hist XNum) : Prop :=
  q_exitcode o' = (-3)%Z /\ q_converge o' = q_converge o /\
  h_controls h = repeat (Fin 0, Fin 0, 0%Z) n /\ length (h_states h) = S n /\
  forall k, (k <= n)%nat -> nth_error (h_times h) k = Some (Fin (INR k * a_ts a)) /\ nth_error (h_masses h) k = Some (Fin (a_mass0 a)) /\
    nth_error (h_battery h) k = Some (Fin (a_b0 a - a_dis a * a_ts a * INR k)) /\
    exists z, nth_error (h_states h) k = Some z /\ slow z = slow (p_oe0 p) /\ proper_ellipse et z.

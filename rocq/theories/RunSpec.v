(** Vocabulary of the statements about what one recorded step of a run is. *)
From Coq Require Import Reals ZArith List Bool.
From Verif Require Import RMath Num Base Integrate Eom Lyapunov Perturb Qlaw Spec XSpec.
Import ListNotations.
Local Open Scope num_scope.

Section RunSpec.
Context {N : Num}.

(** Unit vector (radial, transverse, normal) of the in-plane angle [al] and out-of-plane angle [be]. *)
Definition heading (al be : car) : vec3 N := mk3 (ncos be * nsin al) (ncos be * ncos al) (nsin be).
(** Signed thrust acceleration of a step of length [dt] started with mass [m]. *)
Definition thrust_acc (p : problem N) (dt m : car) : car := npsign dt * p_tmax p / m.
(** The control law of the object at elements [oe]: alpha, beta, direction, psi, Q, dQ/dt. *)
Definition law (o : qlaw N) (p : problem N) (acc : car) (oe : vec6 N) :=
  lyapunov_control_angles (q_lyap o) (q_mu o) acc oe (p_oeT p) (q_rpmin o) (q_m o) (q_n o) (q_r o) (q_b o)
    (q_k o) (q_wp o) (p_woe p).
(** The perturbing acceleration at time [t]. *)
Definition disturbed (o : qlaw N) (t : car) (oe : vec6 N) (F : vec3 N) : Prop :=
  match q_ptrb o with Some f => f t oe (q_etype o) = Ok F | None => F = v3zero end.
(** One integrator step from [oe] gives [z]; rkf45 also suggests the next step [hn]. *)
Definition advanced (o : qlaw N) (t dt : car) (oe : vec6 N) (prm : ode_params N) (z : vec6 N) (hn : option car) : Prop :=
  match q_integ o with
  | RK4 => rk4 (q_eom o) t dt oe prm = Ok z /\ hn = None
  | RKF45 => exists x, rkf45 (q_eom o) t dt oe prm (q_ode_tol o) = Ok (z, x) /\ hn = Some x
  end.
(** Step [k] of the recorded run leads to [z]: from the recorded time, mass and elements, under thrust along the
    recorded angles if the recorded throttle is 1 and no thrust if it is 0, with the recorded Q and dQ/dt. *)
Definition flown (o : qlaw N) (p : problem N) (h : hist N) (k : nat) (z : vec6 N) (hn : option car) : Prop :=
  exists t dt m oe al be thr q qd al0 be0 D psi F,
    nth_error (h_times h) k = Some t /\ nth_error (h_times h) (S k) = Some (t + dt) /\
    nth_error (h_masses h) k = Some m /\ nth_error (h_states h) k = Some oe /\
    nth_error (h_controls h) k = Some (al, be, thr) /\
    nth_error (h_Qs h) k = Some q /\ nth_error (h_dQdts h) k = Some qd /\
    law o p (thrust_acc p dt m) oe = Ok (al0, be0, D, psi, q, qd) /\
    (thr = 1%Z /\ al = al0 /\ be = be0 /\ (nisnan al0 || nisnan be0)%bool = false \/ thr = 0%Z) /\
    disturbed o t oe F /\
    advanced o t dt oe
      {| op_mu := q_mu o;
         op_u := if Z.eqb thr 1 then v3scal (thrust_acc p dt m) (heading al be) else v3zero;
         op_psi := psi; op_ptrb := F |} z hn.
(** The step length the battery update of a step uses: the step itself, or with rkf45 the suggestion for the
    next step clamped to [step_min, step_max]. *)
Definition battery_time (o : qlaw N) (dt : car) (hn : option car) : car :=
  match hn with None => dt | Some x => pymax (q_step_min o) (pymin (q_step_max o) x) end.
(** At step [k] the control law itself asks for no thrust: it has no direction (nan angles), or the
    direction is less effective than one of the thresholds. *)
Definition law_coasts (o : qlaw N) (p : problem N) (ea er : eta_arg N) (h : hist N) (k : nat) : Prop :=
  exists t dt m b oe al be D psi q qd,
    nth_error (h_times h) k = Some t /\ nth_error (h_times h) (S k) = Some (t + dt) /\
    nth_error (h_masses h) k = Some m /\ nth_error (h_battery h) k = Some b /\ nth_error (h_states h) k = Some oe /\
    law o p (thrust_acc p dt m) oe = Ok (al, be, D, psi, q, qd) /\
    ((nisnan al || nisnan be)%bool = true \/
     exists qmin qmax, evaluate_osculating_qdot o p oe (thrust_acc p dt m) = Ok (qmin, qmax) /\
       (($0 <? threshold ea t oe m b) || ($0 <? threshold er t oe m b))%bool = true /\
       ((nabs (qd / qmin) <? threshold ea t oe m b) = true \/
        (nabs ((qd - qmax) / (qmin - qmax)) <? threshold er t oe m b) = true)).
(** The settings of an object: everything but mu, elements_type, integrator, the problem and the results. *)
Definition settings (o : qlaw N) :=
  ((q_rpmin o, q_k o, q_m o, q_n o, q_r o, q_b o, q_wp o, q_grid o), (q_tol o, q_tol_relaxed o, q_exit_relaxed o, q_oe_min o, q_oe_max o, q_nan_thr o),
   (q_eom o, q_lyap o, q_dqdt o, q_check o), (q_step_min o, q_step_max o, q_ode_tol o, q_sundman o, q_ptrb o)).
Definition results (o : qlaw N) := (q_problem o, q_hist o, q_converge o, q_exitcode o).
End RunSpec.

(** Why a step coasts (extended reals).  "Depleted" is the code's test, with its margin of 1e-12. *)
Section Why.
Local Open Scope R_scope.
Variables (o : qlaw XNum) (p : problem XNum) (ea er : eta_arg XNum) (a : params) (h : hist XNum).
Definition depleted (k : nat) : Prop := exists b, entry (h_battery h) k b /\ b <= a_lo a + 1 / 10 ^ 12.
(** A full recharge is due: the battery was depleted at an earlier step and has not been full since. *)
Definition recharging (k : nat) : Prop :=
  a_full a = true /\ exists i, (i < k)%nat /\ depleted i /\
    forall j, (i < j <= k)%nat -> exists b, entry (h_battery h) j b /\ b < a_hi a.
(** The pause after a depletion, or after more than ON time during which every step thrusted unless
    the law coasted; it began at step [b], at most OFF ago, with no thrust since. *)
Definition resting (k : nat) : Prop :=
  exists b tb tk, (b <= k)%nat /\ entry (h_times h) b tb /\ entry (h_times h) k tk /\ tk - tb <= a_off a /\
    (forall j, (b <= j <= k)%nat -> throttle h j 0) /\
    (depleted b \/
     exists i ti, (i < b)%nat /\ entry (h_times h) i ti /\ a_on a < tb - ti /\
       forall j, (i <= j < b)%nat -> throttle h j 1 \/ throttle h j 0 /\ law_coasts o p ea er h j).
End Why.

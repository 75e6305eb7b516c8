(** Properties C10-C21 and C32: time, mass, battery and duty cycle of a run.
    The arithmetic is exact (extended reals with nan and infinities); [regular o p a] says that the
    scalar parameters of the problem are the finite numbers in [a] and the step is fixed.  Dynamics,
    control law, perturbations and convergence test are arbitrary, and may return nan or infinities. *)
From Coq Require Import Reals QArith Qreals ZArith List Bool Lia Lra.
From Verif Require Import RMath Num Base Perturb Qlaw Spec XSpec GateProofs XProofs XSolve Sim XRuns.
Import ListNotations.
Local Open Scope R_scope.

(** C10: mass bookkeeping (any step-size rule) *)
Theorem C10_mass_bookkeeping : forall (o : qlaw XNum) p ea er fuel o' h k thr t t' m md,
  ran fuel o ea er p o' h ->
  throttle h k thr -> entry (h_times h) k t -> entry (h_times h) (S k) t' ->
  entry (h_masses h) k m -> p_mdot p = Fin md ->
  entry (h_masses h) (S k) (m - IZR thr * md * (t' - t)).
Proof. exact C10_lem. Qed.
Print Assumptions C10_mass_bookkeeping.

(** C11: mass decreases and stays above the floor until the last step *)
Theorem C11_mass_monotone : forall (o : qlaw XNum) p ea er a, regular o p a ->
  forall fuel o' h, ran fuel o ea er p o' h -> 0 < a_ts a -> 0 <= a_mdot a -> a_mmin a < a_mass0 a ->
  forall k, (k < length (h_controls h))%nat ->
  exists m m', entry (h_masses h) k m /\ entry (h_masses h) (S k) m' /\
    m' <= m /\ a_mmin a < m /\ a_mmin a - a_mdot a * a_ts a < m' /\
    ((S k < length (h_controls h))%nat -> a_mmin a < m').
Proof. exact C11_lem. Qed.
Print Assumptions C11_mass_monotone.

(** C12: the time grid *)
Theorem C12_time_grid : forall (o : qlaw XNum) p ea er a, regular o p a ->
  forall fuel o' h, ran fuel o ea er p o' h -> 0 < a_ts a ->
  forall k, (k < length (h_controls h))%nat ->
  exists t t', entry (h_times h) k t /\ entry (h_times h) (S k) t' /\
    0 <= t < Rabs (a_tf a) /\ t < t' <= t + a_ts a /\ t' < Rabs (a_tf a) + a_ts a.
Proof. exact C12_lem. Qed.
Print Assumptions C12_time_grid.

(** C13: termination, with an explicit bound on the number of iterations *)
Theorem C13_termination : forall (o : qlaw XNum) p ea er a, regular o p a ->
  forall fuel, q_problem o = Some p ->
    (0 < a_ts a /\ Rabs (a_tf a) <= INR fuel * smallest_step a) \/
    (a_ts a < 0 /\ 0 <= a_dis a /\ Rabs (a_tf a) <= INR fuel * - a_ts a) ->
  solve fuel o ea er <> Running.
Proof. exact C13_lem. Qed.
Print Assumptions C13_termination.
Example C13_example : regular (toyX RK4 a_cycle) (probX a_cycle) (parX a_cycle) /\
  q_problem (toyX RK4 a_cycle) = Some (probX a_cycle) /\ 0 < a_ts (parX a_cycle) /\ 0 < smallest_step (parX a_cycle).
Proof.
  split; [apply toy_regular|]. split; [reflexivity|]. split; [simpl; q2r|].
  apply smallest_step_pos. simpl. q2r.
Qed.

(** C14: battery within capacity *)
Theorem C14_battery_within_capacity : forall (o : qlaw XNum) p ea er a, regular o p a ->
  forall fuel o' h, ran fuel o ea er p o' h -> a_lo a <= a_hi a ->
  forall k, (k < length (h_controls h))%nat ->
  exists b, entry (h_battery h) (S k) b /\ a_lo a <= b <= a_hi a.
Proof. exact C14_lem. Qed.
Print Assumptions C14_battery_within_capacity.

(** C15: no thrust on a depleted battery *)
Theorem C15_no_thrust_when_depleted : forall (o : qlaw XNum) p ea er a, regular o p a ->
  forall fuel o' h k b, ran fuel o ea er p o' h -> throttle h k 1 -> entry (h_battery h) k b ->
  a_lo a + 1 / 10 ^ 12 < b.
Proof. exact C15x_lem. Qed.
Print Assumptions C15_no_thrust_when_depleted.
(** ... and for any number type and any step rule, in the code's own comparison. *)
Theorem C15_no_thrust_when_depleted_any : forall (N : Num) fuel (o : qlaw N) ea er p o' h k al be b,
  ran fuel o ea er p o' h ->
  nth_error (h_controls h) k = Some (al, be, 1%Z) -> nth_error (h_battery h) k = Some b ->
  nleb b (nadd (p_cap_lo p) (dec 1 12)) = false.
Proof. exact (fun N fuel o ea er p o' h k al be b => C15_lem o p ea er fuel o' h k al be b). Qed.
Print Assumptions C15_no_thrust_when_depleted_any.

(** C16: full recharge lock-out *)
Theorem C16_full_recharge : forall (o : qlaw XNum) p ea er a, regular o p a ->
  forall fuel o' h i j bi, ran fuel o ea er p o' h -> a_full a = true -> a_lo a <= a_hi a ->
  (i < j)%nat -> entry (h_battery h) i bi -> bi <= a_lo a + 1 / 10 ^ 12 -> throttle h j 1 ->
  exists k, (i < k <= j)%nat /\ entry (h_battery h) k (a_hi a).
Proof. exact C16x_lem. Qed.
Print Assumptions C16_full_recharge.

(** C17.  False without require_full_recharge: a step may thrust for longer than the battery lasts. *)
Theorem C17_energy_refuted : exists (o : qlaw XNum) p a fuel o' h k t t' b,
  regular o p a /\ ran fuel o noX noX p o' h /\ q_integ o = RK4 /\ 0 < a_ts a /\ 0 <= a_dis a /\
  a_lo a <= a_hi a /\ a_b0 a <= a_hi a /\ throttle h k 1 /\
  entry (h_times h) k t /\ entry (h_times h) (S k) t' /\ entry (h_battery h) k b /\
  b - a_dis a * (t' - t) < a_lo a.
Proof. exact C17_refuted_lem. Qed.
Print Assumptions C17_energy_refuted.
(** Missing: require_full_recharge = False. *)
Theorem C17_energy_partial : forall (o : qlaw XNum) p ea er a, regular o p a ->
  forall fuel o' h k t t' b, ran fuel o ea er p o' h -> q_integ o = RK4 ->
  0 < a_ts a -> a_full a = true -> 0 <= a_dis a -> a_lo a <= a_hi a -> a_b0 a <= a_hi a ->
  throttle h k 1 ->
  entry (h_times h) k t -> entry (h_times h) (S k) t' -> entry (h_battery h) k b ->
  a_lo a <= b - a_dis a * (t' - t) /\ entry (h_battery h) (S k) (b - a_dis a * (t' - t)).
Proof. exact C17_lem. Qed.
Print Assumptions C17_energy_partial.

(** C18.  True with rk4, false with rkf45. *)
Theorem C18_battery_integration_partial : forall (o : qlaw XNum) p ea er a, regular o p a ->
  forall fuel o' h k t t' b, ran fuel o ea er p o' h -> q_integ o = RK4 ->
  entry (h_times h) k t -> entry (h_times h) (S k) t' -> entry (h_battery h) k b ->
  exists duty : bool, (throttle h k 1 -> duty = true) /\
    entry (h_battery h) (S k)
      (Rmin (Rmax (if duty then b - a_dis a * (t' - t) else b + a_ch a * (t' - t)) (a_lo a)) (a_hi a)).
Proof. exact C18_rk4_lem. Qed.
Print Assumptions C18_battery_integration_partial.
(** Every rkf45 run with a step shorter than step_min is a counterexample. *)
Theorem C18_rkf45_wrong_everywhere : forall (o : qlaw XNum) p ea er a, regular o p a ->
  forall fuel o' h k t t' b b' smin, ran fuel o ea er p o' h -> q_integ o = RKF45 ->
  q_step_min o = Fin smin -> 0 < a_ts a < smin -> 0 < a_dis a -> 0 < a_ch a ->
  entry (h_times h) k t -> entry (h_times h) (S k) t' -> entry (h_battery h) k b ->
  entry (h_battery h) (S k) b' -> a_lo a < b' < a_hi a ->
  b' <> b - a_dis a * (t' - t) /\ b' <> b + a_ch a * (t' - t).
Proof. exact C18_rkf45_lem. Qed.
Print Assumptions C18_rkf45_wrong_everywhere.
Theorem C18_battery_integration_refuted : exists (o : qlaw XNum) p a fuel o' h k t t' b b',
  regular o p a /\ ran fuel o noX noX p o' h /\ q_integ o = RKF45 /\ q_step_min o = Fin (1 / 10 ^ 4) /\
  0 < a_ts a < 1 / 10 ^ 4 /\ 0 < a_dis a /\ 0 < a_ch a /\
  entry (h_times h) k t /\ entry (h_times h) (S k) t' /\ entry (h_battery h) k b /\
  entry (h_battery h) (S k) b' /\ a_lo a < b' < a_hi a /\
  b' <> b - a_dis a * (t' - t) /\ b' <> b + a_ch a * (t' - t).
Proof. exact C18_refuted_lem. Qed.
Print Assumptions C18_battery_integration_refuted.

(** C19: step truncation *)
Theorem C19_truncation : forall (o : qlaw XNum) p ea er a, regular o p a ->
  forall fuel o' h k t t', ran fuel o ea er p o' h -> 0 < a_ts a -> a_lo a <= a_hi a ->
  entry (h_times h) k t -> entry (h_times h) (S k) t' ->
  0 < t' - t <= a_ts a /\
  (t' - t < a_ts a -> q_integ o = RK4 -> throttle h k 1 -> entry (h_battery h) (S k) (a_lo a)).
Proof. exact C19_lem. Qed.
Print Assumptions C19_truncation.
(** The divisor of the shortened step is not zero when the division is reached, i.e. when the test
    of line 409 failed and that of line 415 succeeded. *)
Theorem C19_no_division_by_zero : forall (p : problem XNum) b dt lo dis,
  p_cap_lo p = Fin lo -> p_discharge p = Fin dis ->
  nleb (Num:=XNum) (Fin b) (nadd (Num:=XNum) (p_cap_lo p) (dec (N:=XNum) 1 12)) = false ->
  nltb (Num:=XNum) (nsub (Num:=XNum) (Fin b) (nmul (Num:=XNum) (p_discharge p) (Fin dt))) (p_cap_lo p) = true ->
  neqb (Num:=XNum) (p_discharge p) (nofZ 0) = false.
Proof. exact C19_div_lem. Qed.
Print Assumptions C19_no_division_by_zero.
(** One run with all of it: thrust, shortened thrust, depletion, recharge, thrust. *)
Example C10_C19_example : regular (toyX RK4 a_cycle) (probX a_cycle) (parX a_cycle) /\
  exists o2 h2, ran 10 (toyX RK4 a_cycle) noX noX (probX a_cycle) o2 h2 /\
  recorded h2 [0; 1; 3 # 2; 5 # 2; 7 # 2; 9 # 2; 11 # 2; 6]%Q
     [10; 99 # 10; 197 # 20; 197 # 20; 197 # 20; 197 # 20; 39 # 4; 97 # 10]%Q
     [3 # 2; 1 # 2; 0; 1 # 2; 1; 3 # 2; 1 # 2; 0]%Q [1; 1; 0; 0; 0; 1; 1]%Z /\ q_exitcode o2 = (-2)%Z.
Proof. split; [apply toy_regular|exact run_cycle]. Qed.

(** C20: duty-cycle ON limit *)
Theorem C20_duty_on_limit : forall (o : qlaw XNum) p ea er a, regular o p a ->
  forall fuel o' h i j ti tj, ran fuel o ea er p o' h -> 0 < a_ts a -> 0 <= a_on a -> 0 <= a_off a ->
  (i <= j)%nat -> (forall m, (i <= m <= j)%nat -> throttle h m 1) ->
  entry (h_times h) i ti -> entry (h_times h) j tj -> tj - ti <= a_on a.
Proof. exact C20_lem. Qed.
Print Assumptions C20_duty_on_limit.

(** C21: duty-cycle OFF rest *)
Theorem C21_duty_off_rest : forall (o : qlaw XNum) p ea er a, regular o p a ->
  forall fuel o' h i k ti tk, ran fuel o ea er p o' h -> 0 < a_ts a -> 0 <= a_on a -> 0 <= a_off a ->
  (i < k)%nat -> throttle h i 1 -> throttle h k 1 ->
  entry (h_times h) i ti -> entry (h_times h) k tk -> a_on a < tk - ti ->
  exists b c tb tc, (i < b /\ b < c /\ c <= k)%nat /\
    entry (h_times h) b tb /\ entry (h_times h) c tc /\ a_off a < tc - tb /\
    forall m, (b <= m < c)%nat -> throttle h m 0.
Proof. exact C21_lem. Qed.
Print Assumptions C21_duty_off_rest.
Example C20_C21_example : regular (toyX RK4 a_duty) (probX a_duty) (parX a_duty) /\
  exists o2 h2, ran 20 (toyX RK4 a_duty) noX noX (probX a_duty) o2 h2 /\
  (exists ts ms bs, recorded h2 ts ms bs [1; 1; 1; 0; 0; 0; 1; 1; 1; 0]%Z /\
   ts = [0; 1 # 2; 1; 3 # 2; 2; 5 # 2; 3; 7 # 2; 4; 9 # 2; 5]%Q).
Proof. split; [apply toy_regular|exact run_duty]. Qed.

(** C32: backward propagation.  Time decreases by the full step; propellant is put back (C10 with
    t' < t); the duty cycle is never enforced. *)
Theorem C32_backward_time : forall (o : qlaw XNum) p ea er a, regular o p a ->
  forall fuel o' h k t t', ran fuel o ea er p o' h -> a_ts a < 0 -> 0 <= a_dis a ->
  entry (h_times h) k t -> entry (h_times h) (S k) t' -> t' = t + a_ts a /\ t = INR k * a_ts a.
Proof. exact C32_time_lem. Qed.
Print Assumptions C32_backward_time.
Theorem C32_backward_duty_never_enforced : forall (o : qlaw XNum) p ea er a, regular o p a ->
  forall fuel o' h v1 v2, ea = EtaFloat (N:=XNum) (Fin v1) -> er = EtaFloat (N:=XNum) (Fin v2) -> v1 <= 0 -> v2 <= 0 ->
  ran fuel o ea er p o' h -> q_integ o = RK4 -> a_ts a < 0 -> 0 <= a_on a -> 0 <= a_off a -> 0 <= a_dis a ->
  a_lo a + 1 / 10 ^ 12 < a_b0 a -> a_lo a + 1 / 10 ^ 12 < a_hi a ->
  (forall acc oe al be u psi q qd, lyap_call o p acc oe = Ok (al, be, u, psi, q, qd) ->
     nisnan al = false /\ nisnan be = false) ->
  forall k, (k < length (h_controls h))%nat -> throttle h k 1.
Proof. exact C32_duty_lem. Qed.
Print Assumptions C32_backward_duty_never_enforced.
Theorem C32_backward_duty_refuted : exists (o : qlaw XNum) p a fuel o' h i j ti tj,
  regular o p a /\ ran fuel o noX noX p o' h /\ a_ts a < 0 /\ 0 <= a_on a /\ 0 <= a_off a /\
  (i <= j)%nat /\ (forall m, (i <= m <= j)%nat -> throttle h m 1) /\
  entry (h_times h) i ti /\ entry (h_times h) j tj /\ a_on a < Rabs (tj - ti).
Proof. exact C32_refuted_lem. Qed.
Print Assumptions C32_backward_duty_refuted.
Example C32_example : regular (toyX RK4 a_back) (probX a_back) (parX a_back) /\
  (exists o2 h2, ran 10 (toyX RK4 a_back) noX noX (probX a_back) o2 h2 /\
  recorded h2 [0; -1; -2; -3; -4]%Q [10; 101 # 10; 51 # 5; 103 # 10; 52 # 5]%Q
    [50; 101 # 2; 51; 103 # 2; 52]%Q [1; 1; 1; 1]%Z /\ q_exitcode o2 = (-2)%Z) /\
  (forall acc oe al be u psi q qd,
     lyap_call (toyX RK4 a_back) (probX a_back) acc oe = Ok (al, be, u, psi, q, qd) ->
     nisnan (Num:=XNum) al = false /\ nisnan (Num:=XNum) be = false).
Proof. exact C32_example_lem. Qed.

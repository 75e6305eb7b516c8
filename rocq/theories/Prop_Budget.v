(** C116 and C117: what the duty cycle and the battery leave of a run for thrusting. *)
From Coq Require Import Reals ZArith List Bool Lra.
From Verif Require Import RMath Num Base Integrate Perturb Qlaw Spec XSpec Sim XRuns DvSpec DvProofs BudgetProofs.
Import ListNotations.
Local Open Scope R_scope.

(** C116: of any first part of a run at most the share (ON + step) / (ON + step + OFF) is thrust, up to one window. *)
Theorem C116_duty_budget : forall (o : qlaw XNum) p ea er a fuel o' h, regular o p a -> ran fuel o ea er p o' h -> 0 < a_ts a ->
  forall n t m thr, logged h n t m thr -> 0 <= a_on a -> 0 <= a_off a ->
  (a_on a + a_ts a + a_off a) * burn_time n t thr <= (a_on a + a_ts a) * (t n + a_off a).
Proof. exact C116_lem. Qed.
Print Assumptions C116_duty_budget.
(** The same for the propellant. *)
Theorem C116_propellant_budget : forall (o : qlaw XNum) p ea er a fuel o' h, regular o p a -> ran fuel o ea er p o' h -> 0 < a_ts a ->
  forall n t m thr, logged h n t m thr -> 0 <= a_on a -> 0 <= a_off a -> 0 <= a_mdot a ->
  (a_on a + a_ts a + a_off a) * (m 0%nat - m n) <= a_mdot a * ((a_on a + a_ts a) * (t n + a_off a)).
Proof. exact C116_mass_lem. Qed.
Print Assumptions C116_propellant_budget.
(** One unit on, one off, steps of a half: 3 of the first 5 units, where 3.6 are allowed. *)
Example C116_example : regular (toyX RK4 a_duty) (probX a_duty) (parX a_duty) /\ 0 < a_ts (parX a_duty) /\ 0 <= a_on (parX a_duty) /\ 0 <= a_off (parX a_duty) /\
  exists o' h t m thr, ran 20 (toyX RK4 a_duty) noX noX (probX a_duty) o' h /\ logged h 10 t m thr /\ t 10%nat = 5 /\ burn_time 10 t thr = 3 /\
  (a_on (parX a_duty) + a_ts (parX a_duty)) * (5 + a_off (parX a_duty)) / (a_on (parX a_duty) + a_ts (parX a_duty) + a_off (parX a_duty)) = 36 / 10.
Proof. exact duty_case. Qed.

(** C117.  Missing: require_full_recharge = False (refuted below) and rkf45 (see C18). *)
Theorem C117_energy_budget_partial : forall (o : qlaw XNum) p ea er a fuel o' h, regular o p a -> ran fuel o ea er p o' h -> 0 < a_ts a ->
  forall n t m thr, logged h n t m thr -> forall b, q_integ o = RK4 -> a_full a = true -> 0 <= a_dis a -> 0 <= a_ch a ->
  a_lo a <= a_hi a -> a_lo a <= a_b0 a <= a_hi a -> (forall k, (k <= n)%nat -> entry (h_battery h) k (b k)) ->
  a_lo a <= b n /\ a_dis a * burn_time n t thr <= a_b0 a - b n + a_ch a * (t n - burn_time n t thr).
Proof. exact C117_lem. Qed.
Print Assumptions C117_energy_budget_partial.
(** With equality: discharge, recharge from 0 to full, and discharge again. *)
Example C117_example : regular (toyX RK4 a_cycle) (probX a_cycle) (parX a_cycle) /\ q_integ (toyX RK4 a_cycle) = RK4 /\ 0 < a_ts (parX a_cycle) /\ a_full (parX a_cycle) = true /\
  0 <= a_dis (parX a_cycle) /\ 0 <= a_ch (parX a_cycle) /\ a_lo (parX a_cycle) <= a_hi (parX a_cycle) /\ a_lo (parX a_cycle) <= a_b0 (parX a_cycle) <= a_hi (parX a_cycle) /\
  exists o' h t m thr b, ran 10 (toyX RK4 a_cycle) noX noX (probX a_cycle) o' h /\ logged h 7 t m thr /\ (forall k, (k <= 7)%nat -> entry (h_battery h) k (b k)) /\
  t 7%nat = 6 /\ b 7%nat = 0 /\ burn_time 7 t thr = 3 /\ a_dis (parX a_cycle) * 3 = a_b0 (parX a_cycle) - 0 + a_ch (parX a_cycle) * (6 - 3).
Proof. exact battery_case. Qed.
Theorem C117_energy_budget_refuted : exists (o : qlaw XNum) p a fuel o' h n t m thr b,
  regular o p a /\ ran fuel o noX noX p o' h /\ 0 < a_ts a /\ logged h n t m thr /\ q_integ o = RK4 /\ 0 <= a_dis a /\ 0 <= a_ch a /\
  a_lo a <= a_hi a /\ a_lo a <= a_b0 a <= a_hi a /\ (forall k, (k <= n)%nat -> entry (h_battery h) k (b k)) /\
  a_b0 a - b n + a_ch a * (t n - burn_time n t thr) < a_dis a * burn_time n t thr.
Proof. exact C117_refuted_lem. Qed.
Print Assumptions C117_energy_budget_refuted.

(** C85: propellant and velocity change of a run. *)
From Coq Require Import Reals ZArith List Bool Lra.
From Verif Require Import RMath Num Base Integrate Perturb Qlaw Spec XSpec Sim XRuns DvSpec DvProofs.
Import ListNotations.
Local Open Scope R_scope.

(** C85.  Propellant used = mdot times the time with the thruster on (signed, so a backward run puts it back). *)
Theorem C85_propellant_is_burn_time : forall (o : qlaw XNum) p ea er fuel o' h mdot n t m thr,
  ran fuel o ea er p o' h -> p_mdot p = Fin mdot -> logged h n t m thr ->
  m 0%nat - m n = mdot * burn_time n t thr.
Proof. exact (fun o p ea er fuel o' h mdot n t m thr R E L => propellant o p ea er fuel o' h R mdot E t m thr n L). Qed.
Print Assumptions C85_propellant_is_burn_time.

(** The rocket equation, for every step-size rule.  The velocity change of the recorded accelerations tmax/m lies below
    (tmax/mdot) ln (m_0/m_n), and with the mass at the end of each step above it. *)
Theorem C85_rocket_equation : forall (o : qlaw XNum) p ea er fuel o' h mdot tmax n t m thr,
  ran fuel o ea er p o' h -> p_mdot p = Fin mdot -> 0 < mdot -> 0 <= tmax -> logged h n t m thr ->
  (forall k, (k < n)%nat -> t k <= t (S k)) -> 0 < m n ->
  delta_v tmax n t m thr <= tmax / mdot * ln (m 0%nat / m n) <= delta_v_end tmax n t m thr.
Proof.
  exact (fun o p ea er fuel o' h mdot tmax n t m thr R E Hm Ht L T M => rocket_fwd o p ea er fuel o' h R mdot E t m thr tmax n L Hm Ht T M).
Qed.
Print Assumptions C85_rocket_equation.
Example C85_example : exists o' h t m thr, ran 10 (toyX RK4 a_cycle) noX noX (probX a_cycle) o' h /\ p_mdot (probX a_cycle) = Fin (1 / 10) /\
  logged h 7 t m thr /\ (forall k, (k < 7)%nat -> t k <= t (S k)) /\ m 0%nat = 10 /\ m 7%nat = 97 / 10 /\ burn_time 7 t thr = 3.
Proof. exact cycle_case. Qed.

(** Backward runs gain mass, and the recorded accelerations overestimate. *)
Theorem C85_rocket_equation_backward : forall (o : qlaw XNum) p ea er fuel o' h mdot tmax n t m thr,
  ran fuel o ea er p o' h -> p_mdot p = Fin mdot -> 0 < mdot -> 0 <= tmax -> logged h n t m thr ->
  (forall k, (k < n)%nat -> t (S k) <= t k) -> 0 < m 0%nat ->
  delta_v_end tmax n t m thr <= tmax / mdot * ln (m n / m 0%nat) <= delta_v tmax n t m thr.
Proof.
  exact (fun o p ea er fuel o' h mdot tmax n t m thr R E Hm Ht L T M => rocket_bwd o p ea er fuel o' h R mdot E t m thr tmax n L Hm Ht T M).
Qed.
Print Assumptions C85_rocket_equation_backward.
Example C85_backward_example : exists o' h t m thr, ran 10 (toyX RK4 a_back) noX noX (probX a_back) o' h /\ p_mdot (probX a_back) = Fin (1 / 10) /\
  logged h 4 t m thr /\ (forall k, (k < 4)%nat -> t (S k) <= t k) /\ m 0%nat = 10 /\ m 4%nat = 104 / 10 /\ burn_time 4 t thr = -4.
Proof. exact back_case. Qed.

(** Whole forward runs with finite parameters: no run spends more than the tank holds, one step beyond mass_min included. *)
Theorem C85_tank_bounds_run : forall (o : qlaw XNum) p ea er a fuel o' h tmax,
  regular o p a -> ran fuel o ea er p o' h -> 0 < a_ts a -> 0 < a_mdot a -> a_mmin a < a_mass0 a ->
  0 <= tmax -> 0 < a_mmin a - a_mdot a * a_ts a ->
  exists t m thr, logged h (length (h_controls h)) t m thr /\ m 0%nat = a_mass0 a /\
    delta_v tmax (length (h_controls h)) t m thr <= tmax / a_mdot a * ln (a_mass0 a / m (length (h_controls h)))
      <= tmax / a_mdot a * ln (a_mass0 a / (a_mmin a - a_mdot a * a_ts a)) /\
    tmax / a_mdot a * ln (a_mass0 a / m (length (h_controls h))) <= delta_v_end tmax (length (h_controls h)) t m thr.
Proof.
  exact (fun o p ea er a fuel o' h tmax Rg R Hts Hm Hmm Ht Hp => capacity o p ea er a fuel o' h Rg R Hts (Rlt_le _ _ Hm) Hmm tmax Hm Ht Hp).
Qed.
Print Assumptions C85_tank_bounds_run.
Example C85_tank_example : regular (toyX RK4 a_tank) (probX a_tank) (parX a_tank) /\
  (exists o' h, ran 10 (toyX RK4 a_tank) noX noX (probX a_tank) o' h /\ q_exitcode o' = (-1)%Z /\ length (h_controls h) = 2%nat) /\
  0 < a_ts (parX a_tank) /\ 0 < a_mdot (parX a_tank) /\ a_mmin (parX a_tank) < a_mass0 (parX a_tank) /\
  0 < a_mmin (parX a_tank) - a_mdot (parX a_tank) * a_ts (parX a_tank).
Proof. exact tank_case. Qed.

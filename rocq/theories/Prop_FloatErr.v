(** C119 and C120: accumulated rounding in the recorded times and masses. *)
From Coq Require Import Reals ZArith List Bool.
From Verif Require Import Num Base Perturb Qlaw Spec XSpec Sim XRuns Float64 FloatSpec FloatRuns FloatTermRuns ErrSpec FloatErr FloatErrRuns.
Import ListNotations.
Local Open Scope R_scope.

(** C119: the k-th time of a run with fixed steps is k steps, up to k roundings of a number below tf_max + step. *)
Theorem C119_times : forall L (o : qlaw (FNum L)) (p : problem (FNum L)) ea er, forward64 o p -> ~ flt f0 (p_discharge p) ->
  forall fuel o' h k t, fin (p_tf_max p) -> ran fuel o ea er p o' h -> nth_error (h_times h) k = Some t -> fin t ->
  Rabs (real64 t - INR k * real64 (p_t_step p)) <= INR k * (u53 * (Rabs (real64 (p_tf_max p)) + real64 (p_t_step p))).
Proof. exact C119_lem. Qed.
Print Assumptions C119_times.
(** The number of steps to tf_max. *)
Theorem C119_step_count : forall L (o : qlaw (FNum L)) (p : problem (FNum L)) ea er, forward64 o p -> ~ flt f0 (p_discharge p) ->
  forall fuel o' h, fin (p_tf_max p) -> ran fuel o ea er p o' h -> (forall t, In t (h_times h) -> fin t) ->
  let n := INR (length (h_controls h)) in let T := Rabs (real64 (p_tf_max p)) in let dt := real64 (p_t_step p) in
  ((0 < length (h_controls h))%nat -> (n - 1) * (dt - u53 * (T + dt)) < T) /\
  (fresh o -> q_exitcode o' = (-2)%Z -> T <= n * (dt + u53 * (T + dt))).
Proof. exact C119_count_lem. Qed.
Print Assumptions C119_step_count.

(** C120: the mass after k steps is the initial mass less the propellant of the thrusting ones, up to one rounding of the
    mass and one of the product for each of these. *)
Theorem C120_masses : forall L (o : qlaw (FNum L)) (p : problem (FNum L)) ea er, forward64 o p -> ~ flt f0 (p_discharge p) ->
  forall fuel o' h k m, fin (p_mass0 p) -> fin (p_mdot p) -> flt f0 (p_mdot p) -> ran fuel o ea er p o' h ->
  nth_error (h_masses h) k = Some m -> fle f0 m ->
  fin m /\ real64 m <= real64 (p_mass0 p) /\
  Rabs (real64 m - (real64 (p_mass0 p) - INR (thrusts h k) * (real64 (p_mdot p) * real64 (p_t_step p)))) <=
    INR (thrusts h k) * (u53 * (real64 (p_mass0 p) + real64 (p_mdot p) * real64 (p_t_step p)) + tiny).
Proof. exact C120_lem. Qed.
Print Assumptions C120_masses.

(** Step 0.1 up to 1: the tenth time is 3/2 * 2^-53 below ten steps, which makes it eleven steps; the masses drift, too. *)
Example C119_C120_example : (forward64 (toyF a_plain) (probF a_plain) /\ ~ flt f0 (p_discharge (probF a_plain)) /\ fin (p_tf_max (probF a_plain)) /\
  fin (p_mass0 (probF a_plain)) /\ fin (p_mdot (probF a_plain)) /\ flt f0 (p_mdot (probF a_plain)) /\ fresh (toyF a_plain)) /\
  exists o2 h2 t m, ran 16 (toyF a_plain) noF noF (probF a_plain) o2 h2 /\ q_exitcode o2 = (-2)%Z /\ length (h_controls h2) = 11%nat /\
  (forall t, In t (h_times h2) -> fin t) /\ nth_error (h_times h2) 10 = Some t /\ nth_error (h_masses h2) 10 = Some m /\ fle f0 m /\ thrusts h2 10 = 10%nat /\
  real64 t = 10 * real64 (p_t_step (probF a_plain)) - 3 / 2 * u53 /\
  Rabs (real64 (p_tf_max (probF a_plain))) = 1 /\
  real64 m <> real64 (p_mass0 (probF a_plain)) - 10 * (real64 (p_mdot (probF a_plain)) * real64 (p_t_step (probF a_plain))).
Proof. exact (conj plain_hyps plain_drift). Qed.

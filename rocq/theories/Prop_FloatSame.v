(** Property C124: what the recorded times and masses depend on in double precision (see Prop_Float). *)
From Coq Require Import ZArith List Bool.
From Verif Require Import Num Base Perturb Qlaw Spec XSpec Sim XRuns Float64 FloatSpec FloatRuns FloatTermRuns FloatSame FloatSameRuns.
Import ListNotations.

(** Two runs with the same step have the same times, bit by bit, whatever else is different. *)
Theorem C124_times : forall L (o o2 : qlaw (FNum L)) (p p2 : problem (FNum L)) ea er ea2 er2,
  forward64 o p -> ~ flt f0 (p_discharge p) -> forward64 o2 p2 -> ~ flt f0 (p_discharge p2) -> p_t_step p2 = p_t_step p ->
  forall fuel fuel2 o' o2' h h2 k t t2, ran fuel o ea er p o' h -> ran fuel2 o2 ea2 er2 p2 o2' h2 ->
  nth_error (h_times h) k = Some t -> nth_error (h_times h2) k = Some t2 -> t2 = t.
Proof. exact C124_times_lem. Qed.
Print Assumptions C124_times.
(** With the same initial mass and mass flow they have the same masses as long as they have thrusted at the same steps. *)
Theorem C124_masses : forall L (o o2 : qlaw (FNum L)) (p p2 : problem (FNum L)) ea er ea2 er2,
  forward64 o p -> ~ flt f0 (p_discharge p) -> forward64 o2 p2 -> ~ flt f0 (p_discharge p2) -> p_t_step p2 = p_t_step p ->
  forall fuel fuel2 o' o2' h h2 k, p_mass0 p2 = p_mass0 p -> p_mdot p2 = p_mdot p -> ran fuel o ea er p o' h -> ran fuel2 o2 ea2 er2 p2 o2' h2 ->
  (k <= length (h_controls h))%nat -> (k <= length (h_controls h2))%nat -> (forall j, (j < k)%nat -> throttle h j 1 <-> throttle h2 j 1) ->
  nth_error (h_masses h2) k = nth_error (h_masses h) k.
Proof. exact C124_masses_lem. Qed.
Print Assumptions C124_masses.
(** No run with this step takes more steps than one that ran out of time at the same |tf_max|. *)
Theorem C124_steps : forall L (o o2 : qlaw (FNum L)) (p p2 : problem (FNum L)) ea er ea2 er2,
  forward64 o p -> ~ flt f0 (p_discharge p) -> forward64 o2 p2 -> ~ flt f0 (p_discharge p2) -> p_t_step p2 = p_t_step p ->
  forall fuel fuel2 o' o2' h h2, nabs (Num:=FNum L) (p_tf_max p2) = nabs (Num:=FNum L) (p_tf_max p) -> fresh o ->
  ran fuel o ea er p o' h -> ran fuel2 o2 ea2 er2 p2 o2' h2 -> q_exitcode o' = (-2)%Z -> (length (h_controls h2) <= length (h_controls h))%nat.
Proof. exact C124_steps_lem. Qed.
Print Assumptions C124_steps.
(** Steps of 0.1 to time 1, with and without a duty cycle: the throttles agree for three steps and differ afterwards. *)
Example C124_example :
  ((forward64 (toyF a_plain) (probF a_plain) /\ ~ flt f0 (p_discharge (probF a_plain))) /\
   (forward64 (toyF a_plain_duty) (probF a_plain_duty) /\ ~ flt f0 (p_discharge (probF a_plain_duty))) /\
   p_t_step (probF a_plain_duty) = p_t_step (probF a_plain) /\ p_mass0 (probF a_plain_duty) = p_mass0 (probF a_plain) /\ p_mdot (probF a_plain_duty) = p_mdot (probF a_plain) /\
   nabs (Num:=FNum lib0) (p_tf_max (probF a_plain_duty)) = nabs (Num:=FNum lib0) (p_tf_max (probF a_plain)) /\ fresh (toyF a_plain) /\ fresh (toyF a_plain_duty)) /\
  (exists o1 h1, ran 16 (toyF a_plain) noF noF (probF a_plain) o1 h1 /\ q_exitcode o1 = (-2)%Z /\ map snd (h_controls h1) = [1; 1; 1; 1; 1; 1; 1; 1; 1; 1; 1]%Z) /\
  (exists o2 h2, ran 16 (toyF a_plain_duty) noF noF (probF a_plain_duty) o2 h2 /\ q_exitcode o2 = (-2)%Z /\ map snd (h_controls h2) = [1; 1; 1; 0; 0; 1; 1; 1; 1; 0; 0]%Z).
Proof. exact (conj same_case (conj same_one same_two)). Qed.

(** Property C122: forward and backward runs in double precision visit opposite times (see Prop_Float, Prop_FloatBack). *)
From Coq Require Import ZArith List Bool Floats.SpecFloat.
From Verif Require Import Num Base Perturb Qlaw Spec XSpec Sim XRuns Float64 FloatSpec FloatRuns FloatTermRuns BackSpec FloatMirror FloatMirrorRuns.
Import ListNotations.

(** The k-th time of a run with steps of -h equals minus the k-th time of a run with steps of h, to the last bit, whatever
    else is different between the two problems and objects. *)
Theorem C122_times : forall L (o o2 : qlaw (FNum L)) (p p2 : problem (FNum L)) ea er ea2 er2,
  forward64 o p -> ~ flt f0 (p_discharge p) -> backward64 o2 p2 -> p_t_step p2 = nopp (Num:=FNum L) (p_t_step p) ->
  forall fuel fuel2 o' o2' h h2 k t t2, ran fuel o ea er p o' h -> ran fuel2 o2 ea2 er2 p2 o2' h2 ->
  nth_error (h_times h) k = Some t -> nth_error (h_times h2) k = Some t2 -> neqb (Num:=FNum L) t2 (nopp (Num:=FNum L) t) = true.
Proof. exact C122_times_lem. Qed.
Print Assumptions C122_times.
(** Two such runs to the same |tf_max| that both run out of time take the same number of steps. *)
Theorem C122_steps : forall L (o o2 : qlaw (FNum L)) (p p2 : problem (FNum L)) ea er ea2 er2,
  forward64 o p -> ~ flt f0 (p_discharge p) -> backward64 o2 p2 -> p_t_step p2 = nopp (Num:=FNum L) (p_t_step p) ->
  forall fuel fuel2 o' o2' h h2, nabs (Num:=FNum L) (p_tf_max p2) = nabs (Num:=FNum L) (p_tf_max p) ->
  fresh o -> fresh o2 -> ran fuel o ea er p o' h -> ran fuel2 o2 ea2 er2 p2 o2' h2 -> q_exitcode o' = (-2)%Z -> q_exitcode o2' = (-2)%Z ->
  length (h_controls h2) = length (h_controls h).
Proof. exact C122_steps_lem. Qed.
Print Assumptions C122_steps.
(** Steps of 0.1 and -0.1 to time 1: eleven steps each, one more than in exact arithmetic, and the tenth times are
    1 - 2^-53 and -(1 - 2^-53). *)
Example C122_example :
  (forward64 (toyF a_plain) (probF a_plain) /\ ~ flt f0 (p_discharge (probF a_plain)) /\ backward64 (toyF a_plain_back) (probF a_plain_back) /\
   p_t_step (probF a_plain_back) = nopp (Num:=FNum lib0) (p_t_step (probF a_plain)) /\
   nabs (Num:=FNum lib0) (p_tf_max (probF a_plain_back)) = nabs (Num:=FNum lib0) (p_tf_max (probF a_plain)) /\ fresh (toyF a_plain) /\ fresh (toyF a_plain_back)) /\
  (exists o1 h1, ran 16 (toyF a_plain) noF noF (probF a_plain) o1 h1 /\ q_exitcode o1 = (-2)%Z /\ length (h_controls h1) = 11%nat /\
   option_map f_val (nth_error (h_times h1) 10) = Some (S754_finite false 9007199254740991 (-53))) /\
  (exists o2 h2, ran 16 (toyF a_plain_back) noF noF (probF a_plain_back) o2 h2 /\ q_exitcode o2 = (-2)%Z /\ length (h_controls h2) = 11%nat /\
   option_map f_val (nth_error (h_times h2) 10) = Some (S754_finite true 9007199254740991 (-53))).
Proof. exact (conj mirror_case (conj mirror_fwd mirror_bwd)). Qed.

(** The other half of C06: no more nan answers than the threshold in steps that are free to thrust. *)
From Coq Require Import Reals ZArith List Bool.
From Verif Require Import RMath Num Base Perturb Qlaw Spec XSpec RunSpec NanRun NanCount NanCountRuns.
Import ListNotations.
Local Open Scope R_scope.

(** C06: recorded steps at which none of battery, recharge and duty cycle (RunSpec, C75) stands against thrust and the law
    answers with a nan angle are at most nan_angles_threshold, whatever the exit code; with C06_exit_minus3_nan_count they
    are exactly as many when the run ends with -3. *)
Theorem C06_no_more_nan_steps : forall (o : qlaw XNum) p ea er a, regular o p a -> forall fuel o' h ks,
  ran fuel o ea er p o' h -> 0 <= a_on a -> 0 <= a_off a -> (0 <= q_nan_thr o)%Z -> NoDup ks ->
  (forall k, In k ks -> throttle h k 0 /\ ~ depleted a h k /\ ~ recharging a h k /\ ~ resting o p ea er a h k /\
    exists t dt m oe, nth_error (h_times h) k = Some t /\ nth_error (h_times h) (S k) = Some (nadd (Num:=XNum) t dt) /\
      nth_error (h_masses h) k = Some m /\ nth_error (h_states h) k = Some oe /\ nan_at o p (thrust_acc p dt m) oe) ->
  (Z.of_nat (length ks) <= q_nan_thr o)%Z.
Proof. exact C06_more_lem. Qed.
Print Assumptions C06_no_more_nan_steps.
(** Ten such steps with the threshold 10. *)
Example C06_no_more_example : let z := EtaFloat (N:=XNum) (Fin 0) in regular o_low p_low a_low /\ 0 <= a_on a_low /\ 0 <= a_off a_low /\ q_nan_thr o_low = 10%Z /\
  exists o' h ks, ran 11 o_low z z p_low o' h /\ length ks = 10%nat /\ NoDup ks /\
  forall k, In k ks -> throttle h k 0 /\ ~ depleted a_low h k /\ ~ recharging a_low h k /\ ~ resting o_low p_low z z a_low h k /\
    exists t dt m oe, nth_error (h_times h) k = Some t /\ nth_error (h_times h) (S k) = Some (nadd (Num:=XNum) t dt) /\
      nth_error (h_masses h) k = Some m /\ nth_error (h_states h) k = Some oe /\ nan_at o_low p_low (thrust_acc p_low dt m) oe.
Proof. exact nan_free_case. Qed.

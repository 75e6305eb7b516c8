(** What the effectivity thresholds can change: C95. *)
From Coq Require Import Reals ZArith List Bool.
From Verif Require Import Num Base Qlaw Spec Runs EtaSpec EtaProofs EtaRuns.
Import ListNotations.

(** C95.  Two runs of one problem that differ in the effectivity thresholds given to solve (numbers or functions) are the same
    flight with the same exit, unless there is a first row at which they ask for the same direction and one of them thrusts and
    the other does not; everything recorded up to that decision agrees.  Any arithmetic. *)
Theorem C95_thresholds_act_on_throttle : forall (N : Num) (o : qlaw N) p ea er ea' er' f1 f2 o1 h1 o2 h2,
  ran f1 o ea er p o1 h1 -> ran f2 o ea' er' p o2 h2 ->
  (same_flight h1 h2 /\ q_exitcode o1 = q_exitcode o2 /\ q_converge o1 = q_converge o2) \/ exists k, part_at k h1 h2 1 0 \/ part_at k h1 h2 0 1.
Proof. exact @C95_lem. Qed.
Print Assumptions C95_thresholds_act_on_throttle.
(** With the stricter thresholds the first difference is always that thrust is switched off. *)
Theorem C95_stricter_switches_off : forall (N : Num) (o : qlaw N) p ea er ea' er' f1 f2 o1 h1 o2 h2, stricter ea ea' -> stricter er er' ->
  ran f1 o ea er p o1 h1 -> ran f2 o ea' er' p o2 h2 ->
  (same_flight h1 h2 /\ q_exitcode o1 = q_exitcode o2 /\ q_converge o1 = q_converge o2) \/ exists k, part_at k h1 h2 1 0.
Proof. exact @C95_order_lem. Qed.
Print Assumptions C95_stricter_switches_off.
(** Thresholds that are never positive all give the same flight. *)
Theorem C95_idle_thresholds : forall (N : Num) (o : qlaw N) p ea er ea' er' f1 f2 o1 h1 o2 h2, idle ea -> idle er -> idle ea' -> idle er' ->
  ran f1 o ea er p o1 h1 -> ran f2 o ea' er' p o2 h2 -> same_flight h1 h2 /\ q_exitcode o1 = q_exitcode o2 /\ q_converge o1 = q_converge o2.
Proof. exact @C95_idle_lem. Qed.
Print Assumptions C95_idle_thresholds.
(** For numbers, stricter is greater and idle is not positive. *)
Theorem C95_greater_is_stricter : forall a b : R, (a <= b)%R -> stricter (N:=XNum) (EtaFloat (N:=XNum) (Fin a)) (EtaFloat (N:=XNum) (Fin b)).
Proof. exact C95_const_lem. Qed.
Print Assumptions C95_greater_is_stricter.
Theorem C95_not_positive_is_idle : forall a : R, (a <= 0)%R -> idle (N:=XNum) (EtaFloat (N:=XNum) (Fin a)).
Proof. exact C95_nonpos_lem. Qed.
Print Assumptions C95_not_positive_is_idle.
(** the runs part at the third row, when the threshold rises to one half *)
Example C95_example : (exists o' h, ran 10 o_exitm2 no_eta no_eta p_exitm2 o' h /\ map snd (h_controls h) = [1; 1; 1]%Z) /\
  (exists o' h, ran 10 o_exitm2 half_later no_eta p_exitm2 o' h /\ map snd (h_controls h) = [1; 1; 0]%Z).
Proof. exact C95_runs. Qed.
Example C95_stricter_example : stricter no_eta half_later /\ stricter no_eta no_eta.
Proof. exact C95_stricter. Qed.
Example C95_idle_example : idle no_eta /\ idle minus_one /\ (exists o' h, ran 10 o_exitm2 minus_one no_eta p_exitm2 o' h /\ map snd (h_controls h) = [1; 1; 1]%Z).
Proof. exact C95_idle_case. Qed.

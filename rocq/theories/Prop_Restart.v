(** Taking a run up again: C93. *)
From Coq Require Import Reals ZArith List Bool.
From Verif Require Import RMath Num Base Eom Perturb Qlaw Spec XSpec StateProofs Sim XRuns CutSpec RestartSpec RestartProofs RestartRuns.
Import ListNotations.
Local Open Scope R_scope.

(** C93.  Take any row of a run, and start a new run of the same problem from the state, the mass and the battery recorded
    there, with any stopping criteria.  If nothing depends on the time of day and neither the duty cycle nor an empty
    battery has interfered, the new run repeats the old one from that row on, with its clock set back. *)
Theorem C93_runs_can_be_taken_up : forall (o : qlaw XNum) p ea er c f1 f2 o1 h1 o2 h2 k t z m b,
  steady o ea er -> ran f1 o ea er p o1 h1 -> row_at h1 k t z m b ->
  ran f2 (qlaw_until c (problem_from z m b p) o) ea er (problem_until c (problem_from z m b p)) o2 h2 ->
  powered p h1 -> powered p h2 -> repeats o h1 k t h2.
Proof. exact C93_lem. Qed.
Print Assumptions C93_runs_can_be_taken_up.
(** Objects of the library without perturbations and with constant thresholds are steady ... *)
Theorem C93_stock_is_steady : forall (o : qlaw XNum) x y, reachable o -> q_ptrb o = None -> steady o (EtaFloat x) (EtaFloat y).
Proof. exact stock_steady. Qed.
Print Assumptions C93_stock_is_steady.
(** ... and a run with an on-time as long as the run and a battery that does not discharge is powered. *)
Theorem C93_unlimited_is_powered : forall (o : qlaw XNum) p ea er a, regular o p a -> forall fuel o' h, ran fuel o ea er p o' h ->
  Rabs (a_tf a) <= a_on a -> 0 < a_ts a -> a_dis a = 0 -> 0 <= a_ch a ->
  a_lo a + 1 / 10 ^ 12 < a_b0 a -> a_lo a + 1 / 10 ^ 12 < a_hi a -> powered p h.
Proof. exact unlimited_powered. Qed.
Print Assumptions C93_unlimited_is_powered.
(** With a duty cycle it is false: the restarted run begins with a fresh on-time ... *)
Theorem C93_duty_cycle_refuted : exists (o : qlaw XNum) p f1 o1 h1 k t z m b f2 o2 h2, let c := same_stops o p in
  steady o noX noX /\ ran f1 o noX noX p o1 h1 /\ row_at h1 k t z m b /\
  ran f2 (qlaw_until c (problem_from z m b p) o) noX noX (problem_until c (problem_from z m b p)) o2 h2 /\
  ~ repeats o h1 k t h2.
Proof. exact C93_duty_lem. Qed.
Print Assumptions C93_duty_cycle_refuted.
(** ... and with full recharges required: a run restarted half-way through a recharge thrusts at once. *)
Theorem C93_full_recharge_refuted : exists (o : qlaw XNum) p f1 o1 h1 k t z m b f2 o2 h2, let c := same_stops o p in
  steady o noX noX /\ p_full p = true /\ ran f1 o noX noX p o1 h1 /\ row_at h1 k t z m b /\ nltb (Num:=XNum) b (p_cap_hi p) = true /\ throttle h1 k 0 /\
  ran f2 (qlaw_until c (problem_from z m b p) o) noX noX (problem_until c (problem_from z m b p)) o2 h2 /\ throttle h2 0 1.
Proof. exact C93_recharge_lem. Qed.
Print Assumptions C93_full_recharge_refuted.
(** four steps of one unit, taken up again after two *)
Example C93_example : exists o1 h1 t z m b o2 h2, let o := toyX RK4 a_free in let p := probX a_free in let c := same_stops o p in
  steady o noX noX /\ ran 10 o noX noX p o1 h1 /\ row_at h1 2 t z m b /\
  ran 10 (qlaw_until c (problem_from z m b p) o) noX noX (problem_until c (problem_from z m b p)) o2 h2 /\
  powered p h1 /\ powered p h2 /\ length (h_controls h1) = 4%nat /\ length (h_controls h2) = 4%nat.
Proof. exact C93_case. Qed.

(** Property C115: a run with a battery in use ends in double precision (see Prop_Float). *)
From Coq Require Import ZArith QArith List Bool Floats.SpecFloat.
From Verif Require Import Num Base Perturb Qlaw Spec XSpec Sim XRuns Float64 FloatSpec FloatProofs FloatMono FloatRun FloatRuns FloatDuty FloatTerm FloatTermRuns FloatBatt FloatBattRuns.
Import ListNotations.

(** C115.  Missing: duty cycles that rest before the end, and batteries that one step can empty, where the statement is false. *)
Theorem C115_battery_ends_partial : forall L (o : qlaw (FNum L)) (p : problem (FNum L)) ea er e M u v,
  (-1074 <= e)%Z -> forward64 o p -> q_integ o = RK4 -> worth u 1 e -> worth v M e -> (M <= 2 ^ 53)%Z ->
  fle u (p_t_step p) -> fle (nabs (Num:=FNum L) (p_tf_max p)) v -> fle (nabs (Num:=FNum L) (p_tf_max p)) (p_duty_on p) ->
  fin (p_charge p) -> fle f0 (p_charge p) -> fle (p_cap_lo p) (p_cap_hi p) ->
  ~ flt (nsub (Num:=FNum L) (p_cap_hi p) (nmul (Num:=FNum L) (p_discharge p) (p_t_step p))) (p_cap_lo p) ->
  q_problem o = Some p -> exists n, forall fuel, (n <= fuel)%nat -> solve fuel o ea er <> Running.
Proof. exact C115_lem. Qed.
Print Assumptions C115_battery_ends_partial.
(** Each row is later than the one before it, or no earlier and with less in the battery. *)
Theorem C115_battery_progress_partial : forall L (o : qlaw (FNum L)) (p : problem (FNum L)) ea er e M u v,
  (-1074 <= e)%Z -> forward64 o p -> q_integ o = RK4 -> worth u 1 e -> worth v M e -> (M <= 2 ^ 53)%Z ->
  fle u (p_t_step p) -> fle (nabs (Num:=FNum L) (p_tf_max p)) v -> fle (nabs (Num:=FNum L) (p_tf_max p)) (p_duty_on p) ->
  fin (p_charge p) -> fle f0 (p_charge p) -> fle (p_cap_lo p) (p_cap_hi p) ->
  ~ flt (nsub (Num:=FNum L) (p_cap_hi p) (nmul (Num:=FNum L) (p_discharge p) (p_t_step p))) (p_cap_lo p) ->
  forall fuel o' h k t t' b b', ran fuel o ea er p o' h ->
  nth_error (h_times h) k = Some t -> nth_error (h_times h) (S k) = Some t' ->
  nth_error (h_battery h) k = Some b -> nth_error (h_battery h) (S k) = Some b' -> flt t t' \/ fle t t' /\ flt b' b.
Proof. exact C115_rows_lem. Qed.
Print Assumptions C115_battery_progress_partial.
(** Discharge 3, charge 1, capacity 1 down to 0.2: the third step is shortened and the battery lands on its lower limit. *)
Example C115_example : (forward64 (toyF a_drain) (probF a_drain) /\ q_integ (toyF a_drain) = RK4 /\ (worth u16 1 (-4) /\ worth one64 16 (-4)) /\
  fle u16 (p_t_step (probF a_drain)) /\ fle (nabs (Num:=FNum lib0) (p_tf_max (probF a_drain))) one64 /\
  fle (nabs (Num:=FNum lib0) (p_tf_max (probF a_drain))) (p_duty_on (probF a_drain)) /\
  (fin (p_charge (probF a_drain)) /\ fle f0 (p_charge (probF a_drain))) /\ fle (p_cap_lo (probF a_drain)) (p_cap_hi (probF a_drain)) /\
  ~ flt (nsub (Num:=FNum lib0) (p_cap_hi (probF a_drain)) (nmul (Num:=FNum lib0) (p_discharge (probF a_drain)) (p_t_step (probF a_drain)))) (p_cap_lo (probF a_drain)) /\
  q_problem (toyF a_drain) = Some (probF a_drain)) /\
  exists o2 h2, ran 20 (toyF a_drain) noF noF (probF a_drain) o2 h2 /\ map snd (h_controls h2) = [1; 1; 1; 0; 1; 0; 1; 0; 1; 0; 1]%Z /\
  match nth_error (h_times h2) 2, nth_error (h_times h2) 3, nth_error (h_battery h2) 3 with
  | Some t, Some t', Some b => flt (nsub (Num:=FNum lib0) t' t) (p_t_step (probF a_drain)) /\ f_val b = f_val (p_cap_lo (probF a_drain))
  | _, _, _ => False end.
Proof. exact (conj drain_case drain_run). Qed.
(** With a duty cycle that rests before the end and a charge rate of zero the loop never ends. *)
Theorem C115_battery_ends_refuted : exists L (o : qlaw (FNum L)) (p : problem (FNum L)) ea er e M u v,
  forward64 o p /\ q_integ o = RK4 /\ (-1074 <= e)%Z /\ worth u 1 e /\ worth v M e /\ (M <= 2 ^ 53)%Z /\
  fle u (p_t_step p) /\ fle (nabs (Num:=FNum L) (p_tf_max p)) v /\ fin (p_charge p) /\ fle f0 (p_charge p) /\
  fle (p_cap_lo p) (p_cap_hi p) /\
  ~ flt (nsub (Num:=FNum L) (p_cap_hi p) (nmul (Num:=FNum L) (p_discharge p) (p_t_step p))) (p_cap_lo p) /\
  q_problem o = Some p /\ forall fuel, solve fuel o ea er = Running.
Proof. exact C115_refuted_lem. Qed.
Print Assumptions C115_battery_ends_refuted.
(** Nor with a positive charge rate and no rest in the duty cycle, when one step can empty the battery. *)
Theorem C115_small_battery_refuted : exists L (o : qlaw (FNum L)) (p : problem (FNum L)) ea er e M u v,
  forward64 o p /\ q_integ o = RK4 /\ (-1074 <= e)%Z /\ worth u 1 e /\ worth v M e /\ (M <= 2 ^ 53)%Z /\
  fle u (p_t_step p) /\ fle (nabs (Num:=FNum L) (p_tf_max p)) v /\ fle (nabs (Num:=FNum L) (p_tf_max p)) (p_duty_on p) /\
  fin (p_charge p) /\ flt f0 (p_charge p) /\ fle (p_cap_lo p) (p_cap_hi p) /\
  q_problem o = Some p /\ forall fuel, solve fuel o ea er = Running.
Proof. exact C115_tiny_lem. Qed.
Print Assumptions C115_small_battery_refuted.

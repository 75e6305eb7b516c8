(** Properties C110 and C111: duty cycle, progress and termination in double precision (see Prop_Float). *)
From Coq Require Import ZArith QArith List Bool Floats.SpecFloat.
From Verif Require Import Num Base Perturb Qlaw Spec XSpec Sim XRuns Float64 FloatSpec FloatProofs FloatMono FloatRun FloatRuns FloatDuty FloatTerm FloatTermRuns.
Import ListNotations.

(** C110: consecutive thrusting steps start within the ON time of one another, with the differences computed in double precision. *)
Theorem C110_on_time : forall L (o : qlaw (FNum L)) (p : problem (FNum L)) ea er fuel o' h i j ti tj,
  forward64 o p -> fle f0 (p_duty_on p) -> fle f0 (p_duty_off p) -> ran fuel o ea er p o' h ->
  (i <= j)%nat -> (forall m, (i <= m <= j)%nat -> throttle h m 1) ->
  nth_error (h_times h) i = Some ti -> nth_error (h_times h) j = Some tj -> fle (nsub (Num:=FNum L) tj ti) (p_duty_on p).
Proof. exact C110_on_lem. Qed.
Print Assumptions C110_on_time.
Theorem C110_off_time : forall L (o : qlaw (FNum L)) (p : problem (FNum L)) ea er fuel o' h i k ti tk,
  forward64 o p -> fle (p_cap_lo p) (p_cap_hi p) -> fle f0 (p_duty_on p) -> fle f0 (p_duty_off p) -> ran fuel o ea er p o' h ->
  (i < k)%nat -> throttle h i 1 -> throttle h k 1 ->
  nth_error (h_times h) i = Some ti -> nth_error (h_times h) k = Some tk -> flt (p_duty_on p) (nsub (Num:=FNum L) tk ti) ->
  exists b c tb tc, (i < b /\ b < c /\ c <= k)%nat /\ nth_error (h_times h) b = Some tb /\ nth_error (h_times h) c = Some tc /\
    flt (p_duty_off p) (nsub (Num:=FNum L) tc tb) /\ forall m, (b <= m < c)%nat -> throttle h m 0.
Proof. exact C110_off_lem. Qed.
Print Assumptions C110_off_time.
Example C110_example : (forward64 (toyF a_window) (probF a_window) /\ fle (p_cap_lo (probF a_window)) (p_cap_hi (probF a_window)) /\
  fle f0 (p_duty_on (probF a_window)) /\ fle f0 (p_duty_off (probF a_window))) /\
  exists o2 h2, ran 20 (toyF a_window) noF noF (probF a_window) o2 h2 /\
  map snd (h_controls h2) = [1; 1; 1; 0; 0; 1; 1]%Z /\ length (h_times h2) = 8%nat /\
  match nth_error (h_times h2) 5, nth_error (h_times h2) 1 with
  | Some x, Some y => flt (p_duty_on (probF a_window)) (nsub (Num:=FNum lib0) x y) | _, _ => False end.
Proof. exact (conj window_forward window_times). Qed.

(** C111.  Missing: durations longer than [2^53] times a power of two below the step, where the statement is false. *)
Theorem C111_terminates_partial : forall L (o : qlaw (FNum L)) (p : problem (FNum L)) ea er e M u v,
  (-1074 <= e)%Z -> forward64 o p -> ~ flt f0 (p_discharge p) -> worth u 1 e -> worth v M e -> (M <= 2 ^ 53)%Z ->
  fle u (p_t_step p) -> fle (nabs (Num:=FNum L) (p_tf_max p)) v ->
  forall fuel, q_problem o = Some p -> (M <= Z.of_nat fuel)%Z -> solve fuel o ea er <> Running.
Proof. exact C111_lem. Qed.
Print Assumptions C111_terminates_partial.
Theorem C111_time_advances_partial : forall L (o : qlaw (FNum L)) (p : problem (FNum L)) ea er e M u v,
  (-1074 <= e)%Z -> forward64 o p -> ~ flt f0 (p_discharge p) -> worth u 1 e -> worth v M e -> (M <= 2 ^ 53)%Z ->
  fle u (p_t_step p) -> fle (nabs (Num:=FNum L) (p_tf_max p)) v ->
  forall fuel o' h, ran fuel o ea er p o' h ->
  (Z.of_nat (length (h_controls h)) <= M)%Z /\
  forall k t t', nth_error (h_times h) k = Some t -> nth_error (h_times h) (S k) = Some t' -> flt t t'.
Proof. exact C111_run_lem. Qed.
Print Assumptions C111_time_advances_partial.
Theorem C111_overshoot : forall L (o : qlaw (FNum L)) (p : problem (FNum L)) ea er fuel o' h t,
  forward64 o p -> ~ flt f0 (p_discharge p) -> fin (p_tf_max p) -> ran fuel o ea er p o' h ->
  In t (h_times h) -> fle t (nadd (Num:=FNum L) (nabs (Num:=FNum L) (p_tf_max p)) (p_t_step p)).
Proof. exact C111_overshoot_lem. Qed.
Print Assumptions C111_overshoot.
(** Step 0.1 up to 1: at most 16 steps, because a sixteenth is at most 0.1; it takes 11. *)
Example C111_example : (forward64 (toyF a_plain) (probF a_plain) /\ ~ flt f0 (p_discharge (probF a_plain)) /\
  worth u16 1 (-4) /\ worth one64 16 (-4) /\ fle u16 (p_t_step (probF a_plain)) /\
  fle (nabs (Num:=FNum lib0) (p_tf_max (probF a_plain))) one64 /\
  fin (p_tf_max (probF a_plain)) /\ q_problem (toyF a_plain) = Some (probF a_plain)) /\
  exists o2 h2, ran 16 (toyF a_plain) noF noF (probF a_plain) o2 h2 /\ length (h_controls h2) = 11%nat.
Proof. exact (conj plain_term plain_run). Qed.
(** A time below the duration that adding the step does not move is never passed. *)
Theorem C111_stuck : forall L (o : qlaw (FNum L)) (p : problem (FNum L)) ea er (T : f64),
  forward64 o p -> ~ flt f0 (p_discharge p) -> fin T -> fle f0 T ->
  fle (nadd (Num:=FNum L) T (p_t_step p)) T -> flt T (nabs (Num:=FNum L) (p_tf_max p)) ->
  forall fuel o' h, fresh o -> ran fuel o ea er p o' h -> q_exitcode o' <> (-2)%Z.
Proof. exact C111_stuck_lem. Qed.
Print Assumptions C111_stuck.
(** Step 1 up to [2^53 + 2]; the propellant is used up first. *)
Example C111_stuck_example : forward64 (toyF a_longm) (probF a_longm) /\ ~ flt f0 (p_discharge (probF a_longm)) /\
  (fin t53 /\ fle f0 t53 /\ fle (nadd (Num:=FNum lib0) t53 (p_t_step (probF a_longm))) t53 /\
   flt t53 (nabs (Num:=FNum lib0) (p_tf_max (probF a_longm)))) /\ fresh (toyF a_longm) /\
  exists o2 h2, ran 20 (toyF a_longm) noF noF (probF a_longm) o2 h2 /\ q_exitcode o2 = (-1)%Z /\ length (h_controls h2) = 10%nat.
Proof. exact longm_case. Qed.
(** Step 1 up to [2^53 + 2] with a fuel consumption that the mass does not feel. *)
Theorem C111_terminates_refuted : exists L (o : qlaw (FNum L)) (p : problem (FNum L)) ea er,
  forward64 o p /\ ~ flt f0 (p_discharge p) /\ flt f0 (p_t_step p) /\ fin (p_tf_max p) /\ q_problem o = Some p /\
  forall fuel, solve fuel o ea er = Running.
Proof. exact C111_refuted_lem. Qed.
Print Assumptions C111_terminates_refuted.

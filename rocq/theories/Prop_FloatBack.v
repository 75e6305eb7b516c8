(** Property C121: runs backward in time in double precision (see Prop_Float). *)
From Coq Require Import ZArith QArith List Bool Floats.SpecFloat.
From Verif Require Import Num Base Perturb Qlaw Spec XSpec RunSpec Sim XRuns Float64 FloatSpec FloatProofs FloatRun FloatRuns BackSpec FloatBack FloatBackRuns.
Import ListNotations.

(** Every step has its full length, and no recorded time is later than the one before. *)
Theorem C121_times : forall L (o : qlaw (FNum L)) (p : problem (FNum L)) ea er, backward64 o p ->
  forall fuel o' h k, ran fuel o ea er p o' h -> (k < length (h_controls h))%nat ->
  exists t, nth_error (h_times h) k = Some t /\ nth_error (h_times h) (S k) = Some (nadd (Num:=FNum L) t (p_t_step p)) /\
    fle t f0 /\ fle (nadd (Num:=FNum L) t (p_t_step p)) t.
Proof. exact C121_times_lem. Qed.
Print Assumptions C121_times.
(** Thrust puts propellant back and nothing takes it away. *)
Theorem C121_masses : forall L (o : qlaw (FNum L)) (p : problem (FNum L)) ea er, backward64 o p ->
  forall fuel o' h k m m', fin (p_mass0 p) -> fin (p_mdot p) -> fle f0 (p_mdot p) -> ran fuel o ea er p o' h ->
  nth_error (h_masses h) k = Some m -> nth_error (h_masses h) (S k) = Some m' ->
  fle m m' /\ (throttle h k 1 -> m' = nsub (Num:=FNum L) m (nmul (Num:=FNum L) (p_mdot p) (p_t_step p))) /\ (throttle h k 0 -> m' = m).
Proof. exact C121_mass_lem. Qed.
Print Assumptions C121_masses.
(** The battery is never found empty and never falls, except down to its capacity. *)
Theorem C121_battery : forall L (o : qlaw (FNum L)) (p : problem (FNum L)) ea er, backward64 o p ->
  forall fuel o' h k b b', ran fuel o ea er p o' h ->
  nth_error (h_battery h) k = Some b -> nth_error (h_battery h) (S k) = Some b' ->
  flt (empty_level p) b /\ (b' = p_cap_hi p \/ fle b b' /\ fle b' (p_cap_hi p)).
Proof. exact C121_battery_lem. Qed.
Print Assumptions C121_battery.
(** Neither the duty cycle nor the battery ever keeps the thruster off. *)
Theorem C121_only_the_law_coasts : forall L (o : qlaw (FNum L)) (p : problem (FNum L)) ea er, backward64 o p ->
  forall fuel o' h k, ran fuel o ea er p o' h -> (k < length (h_controls h))%nat ->
  throttle h k 1 \/ throttle h k 0 /\ law_coasts o p ea er h k.
Proof. exact C121_thrust_lem. Qed.
Print Assumptions C121_only_the_law_coasts.
(** Five steps of -0.1 from mass 10: the thruster is on throughout although it is to rest 0.1 after every 0.2, and the
    battery, drained at rate 1, fills up from 1 to its capacity 1.2. *)
Example C121_example : (backward64 (toyF a_backF) (probF a_backF) /\ fin (p_mass0 (probF a_backF)) /\ fin (p_mdot (probF a_backF)) /\
  fle f0 (p_mdot (probF a_backF))) /\
  exists o2 h2, ran 20 (toyF a_backF) noF noF (probF a_backF) o2 h2 /\ map snd (h_controls h2) = [1; 1; 1; 1; 1]%Z /\
  q_exitcode o2 = (-2)%Z /\
  match nth_error (h_times h2) 5, nth_error (h_masses h2) 5, nth_error (h_battery h2) 1, nth_error (h_battery h2) 5 with
  | Some t, Some m, Some b, Some b' => fle t (dbl (-1 # 2)) /\ flt (dbl 10) m /\ flt (dbl 1) b /\ b' = p_cap_hi (probF a_backF)
  | _, _, _, _ => False end.
Proof. exact (conj back_case back_runF). Qed.

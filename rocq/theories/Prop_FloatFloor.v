(** Property C123: the mass floor in double precision (see Prop_Float). *)
From Coq Require Import ZArith QArith List Bool.
From Verif Require Import Num Base Integrate Perturb Qlaw Spec XSpec Sim Runs XRuns Float64 FloatSpec FloatRuns FloatFloor FloatFloorRuns.
Import ListNotations.

(** Every mass a step starts from is above the floor. *)
Theorem C123_above_the_floor : forall L (o : qlaw (FNum L)) (p : problem (FNum L)) ea er, forward64 o p ->
  fin (p_mass0 p) -> fin (p_mdot p) -> flt f0 (p_mdot p) -> fin (p_mass_min p) -> flt (p_mass_min p) (p_mass0 p) ->
  forall fuel o' h k m, ran fuel o ea er p o' h -> (k < length (h_controls h))%nat -> nth_error (h_masses h) k = Some m -> flt (p_mass_min p) m.
Proof. exact C123_above_lem. Qed.
Print Assumptions C123_above_the_floor.
(** No mass, the last one included, is below the rounded floor less the rounded propellant of one step. *)
Theorem C123_last_mass : forall L (o : qlaw (FNum L)) (p : problem (FNum L)) ea er, forward64 o p ->
  fin (p_mass0 p) -> fin (p_mdot p) -> flt f0 (p_mdot p) -> fin (p_mass_min p) -> flt (p_mass_min p) (p_mass0 p) -> ~ flt f0 (p_discharge p) ->
  forall fuel o' h k m, fin (nmul (Num:=FNum L) (p_mdot p) (p_t_step p)) -> ran fuel o ea er p o' h -> nth_error (h_masses h) k = Some m ->
  fle (nsub (Num:=FNum L) (p_mass_min p) (nmul (Num:=FNum L) (p_mdot p) (p_t_step p))) m.
Proof. exact C123_last_lem. Qed.
Print Assumptions C123_last_mass.
(** A floor that holds the propellant of one step keeps every mass from becoming negative, as C120 asks for. *)
Theorem C123_never_negative : forall L (o : qlaw (FNum L)) (p : problem (FNum L)) ea er, forward64 o p ->
  fin (p_mass0 p) -> fin (p_mdot p) -> flt f0 (p_mdot p) -> fin (p_mass_min p) -> flt (p_mass_min p) (p_mass0 p) -> ~ flt f0 (p_discharge p) ->
  forall fuel o' h k m, fle (nmul (Num:=FNum L) (p_mdot p) (p_t_step p)) (p_mass_min p) -> ran fuel o ea er p o' h -> nth_error (h_masses h) k = Some m -> fle f0 m.
Proof. exact C123_nonneg_lem. Qed.
Print Assumptions C123_never_negative.
(** Mass 1, mass flow 1, steps of 0.1, floor 0.5: five steps in rational arithmetic, but in double precision the fifth mass is
    still above 0.5 and a sixth step takes it to a little more than 0.4. *)
Example C123_example :
  (forward64 (toyF a_floor) (probF a_floor) /\ fin (p_mass0 (probF a_floor)) /\ fin (p_mdot (probF a_floor)) /\ flt f0 (p_mdot (probF a_floor)) /\
   fin (p_mass_min (probF a_floor)) /\ flt (p_mass_min (probF a_floor)) (p_mass0 (probF a_floor)) /\ ~ flt f0 (p_discharge (probF a_floor)) /\
   fin (nmul (Num:=FNum lib0) (p_mdot (probF a_floor)) (p_t_step (probF a_floor))) /\
   fle (nmul (Num:=FNum lib0) (p_mdot (probF a_floor)) (p_t_step (probF a_floor))) (p_mass_min (probF a_floor))) /\
  (exists o2 h2, ran 20 (toyQ RK4 a_floor) no_eta no_eta (probQ a_floor) o2 h2 /\ length (h_controls h2) = 5%nat /\ q_exitcode o2 = (-1)%Z) /\
  exists o2 h2, ran 20 (toyF a_floor) noF noF (probF a_floor) o2 h2 /\ length (h_controls h2) = 6%nat /\ q_exitcode o2 = (-1)%Z /\
  match nth_error (h_masses h2) 5, nth_error (h_masses h2) 6 with
  | Some m, Some m' => flt (dbl (1 # 2)) m /\ flt (dbl (2 # 5)) m' /\ flt m' (dbl (1 # 2))
  | _, _ => False end.
Proof. exact (conj floor_case (conj floor_exact floor_double)). Qed.

(** C118: where a perturbation model has an influence. *)
From Coq Require Import Reals ZArith String List Bool.
From Verif Require Import RMath Num Base Perturb Qlaw Spec XSpec RSpec ExportSpec FinSpec SkySpec Sim XRuns RestartRuns LocalSpec LocalProofs.
Import ListNotations.
Local Open Scope R_scope.

(** C118: a model that agrees with the one in use at the times and states where the recorded steps start gives the same run. *)
Theorem C118_only_at_step_starts : forall (N : Num) (o : qlaw N) p ea er m fuel o1 h,
  ran fuel o ea er p o1 h -> agree_along m (q_ptrb o) (q_etype o) h -> solve fuel (with_model m o) ea er = Returns (with_model m o1).
Proof. exact @C118_lem. Qed.
Print Assumptions C118_only_at_step_starts.
(** A model that fails after time 1000, in a run of seven steps up to time 6. *)
Example C118_example : exists o1 h, ran 10 (toyX RK4 a_cycle) noX noX (probX a_cycle) o1 h /\
  agree_along (Some until1000) (q_ptrb (toyX RK4 a_cycle)) (q_etype (toyX RK4 a_cycle)) h /\ length (h_controls h) = 7%nat /\
  felt (Some until1000) (Fin 1001) (v6of (N:=XNum) (Fin 1)) MeeWithA <> felt (q_ptrb (toyX RK4 a_cycle)) (Fin 1001) (v6of (N:=XNum) (Fin 1)) MeeWithA.
Proof. exact until_case. Qed.
(** SpicePerturbations with no bodies and both flags off is no perturbation, on runs through elliptic orbits, whatever the ephemeris. *)
Theorem C118_empty_model_is_none : forall (o : qlaw XNum) p ea er fuel o1 h (sp : spice XNum) (po : ptrb_obj XNum) mu,
  ran fuel o ea er p o1 h -> q_ptrb o = None -> empty_model po -> pt_obs_mu po = Fin mu -> 0 < mu ->
  (forall k st, (k < length (h_controls h))%nat -> nth_error (h_states h) k = Some st -> exists oe, st = fin6 oe /\ elliptic (q_etype o) oe) ->
  solve fuel (with_model (Some (built_in sp po)) o) ea er = Returns (with_model (Some (built_in sp po)) o1).
Proof. exact C118_empty_lem. Qed.
Print Assumptions C118_empty_model_is_none.
Example C118_empty_example : exists o1 h, ran 10 (toyX_from RK4 (fin6 oe_half) a_single) noX noX (probX_from (fin6 oe_half) a_single) o1 h /\
  q_ptrb (toyX_from RK4 (fin6 oe_half) a_single) = None /\ empty_model nothing /\ pt_obs_mu nothing = Fin 1 /\ length (h_controls h) = 1%nat /\
  forall k st, (k < length (h_controls h))%nat -> nth_error (h_states h) k = Some st ->
    exists oe, st = fin6 oe /\ elliptic (q_etype (toyX_from RK4 (fin6 oe_half) a_single)) oe.
Proof. exact empty_case. Qed.

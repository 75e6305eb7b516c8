(** Vocabulary of C87: the settings that only say when to stop, and one history beginning another. *)
From Coq Require Import ZArith List Bool.
From Verif Require Import Num Base Qlaw Spec.
Import ListNotations.

Section Cut.
Context {N : Num}.

(** The settings of a run that say when it stops: the five strict and five relaxed tolerances, the number of relaxed hits
    and of nan answers put up with, the final time and the minimum mass. *)
Record stops : Type := mkstops { st_tol : vec5 N; st_relaxed : vec5 N; st_hits : Z; st_nans : Z; st_tf : car; st_mass : car }.

(** The same problem, or the same object with that problem, stopping as [c] says. *)
Definition problem_until (c : stops) (p : problem N) : problem N :=
  {| p_oe0 := p_oe0 p; p_oeT := p_oeT p; p_mass0 := p_mass0 p; p_tmax := p_tmax p; p_mdot := p_mdot p;
     p_tf_max := st_tf c; p_t_step := p_t_step p; p_mass_min := st_mass c; p_woe := p_woe p;
     p_duty_on := p_duty_on p; p_duty_off := p_duty_off p; p_batt0 := p_batt0 p; p_cap_lo := p_cap_lo p;
     p_cap_hi := p_cap_hi p; p_charge := p_charge p; p_discharge := p_discharge p; p_full := p_full p |}.
Definition qlaw_until (c : stops) (p : problem N) (o : qlaw N) : qlaw N :=
  {| q_mu := q_mu o; q_rpmin := q_rpmin o; q_k := q_k o; q_m := q_m o; q_n := q_n o; q_r := q_r o;
     q_b := q_b o; q_wp := q_wp o; q_etype := q_etype o; q_integ := q_integ o; q_grid := q_grid o;
     q_tol := st_tol c; q_tol_relaxed := st_relaxed c; q_exit_relaxed := st_hits c;
     q_oe_min := q_oe_min o; q_oe_max := q_oe_max o; q_nan_thr := st_nans c;
     q_eom := q_eom o; q_lyap := q_lyap o; q_dqdt := q_dqdt o; q_check := q_check o;
     q_step_min := q_step_min o; q_step_max := q_step_max o; q_ode_tol := q_ode_tol o;
     q_sundman := q_sundman o; q_ptrb := q_ptrb o;
     q_problem := Some (problem_until c p); q_hist := q_hist o; q_converge := q_converge o; q_exitcode := q_exitcode o |}.

Definition starts {A} (short long : list A) : Prop := exists rest, long = short ++ rest.
(** The run recorded in [short] is the beginning of the one recorded in [long].  The last state of [short] may be clamped
    in [long], where a later step has used it. *)
Definition begins (o : qlaw N) (short long : hist N) : Prop :=
  starts (h_times short) (h_times long) /\ starts (h_masses short) (h_masses long) /\
  starts (h_controls short) (h_controls long) /\ starts (h_battery short) (h_battery long) /\
  starts (h_Qs short) (h_Qs long) /\ starts (h_dQdts short) (h_dQdts long) /\
  starts (h_etas short) (h_etas long) /\ starts (h_bounds short) (h_bounds long) /\
  exists init z z' rest, h_states short = init ++ [z] /\ h_states long = init ++ z' :: rest /\ (z' = z \/ z' = guarded o z).
End Cut.
Arguments stops : clear implicits.

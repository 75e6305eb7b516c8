(** Vocabulary of C118: the object with another perturbation model, and the acceleration a model gives. *)
From Coq Require Import Reals ZArith List Bool.
From Verif Require Import Num Base Perturb Qlaw RMath.
Import ListNotations.

Section Local.
Context {N : Num}.
Definition with_model (m : option (ptrb_fn (N:=N))) (o : qlaw N) : qlaw N :=
  {| q_mu := q_mu o; q_rpmin := q_rpmin o; q_k := q_k o; q_m := q_m o; q_n := q_n o; q_r := q_r o;
     q_b := q_b o; q_wp := q_wp o; q_etype := q_etype o; q_integ := q_integ o; q_grid := q_grid o;
     q_tol := q_tol o; q_tol_relaxed := q_tol_relaxed o; q_exit_relaxed := q_exit_relaxed o;
     q_oe_min := q_oe_min o; q_oe_max := q_oe_max o; q_nan_thr := q_nan_thr o;
     q_eom := q_eom o; q_lyap := q_lyap o; q_dqdt := q_dqdt o; q_check := q_check o;
     q_step_min := q_step_min o; q_step_max := q_step_max o; q_ode_tol := q_ode_tol o;
     q_sundman := q_sundman o; q_ptrb := m;
     q_problem := q_problem o; q_hist := q_hist o; q_converge := q_converge o; q_exitcode := q_exitcode o |}.
(** no model: no acceleration *)
Definition felt (m : option (ptrb_fn (N:=N))) (t : car) (oe : vec6 N) (et : etype) : Res (vec3 N) :=
  match m with Some f => f t oe et | None => Ok (mk3 (nofZ 0) (nofZ 0) (nofZ 0)) end.
(** The two models give the same wherever a step of the history starts. *)
Definition agree_along (m m' : option (ptrb_fn (N:=N))) (et : etype) (h : hist N) : Prop :=
  forall k t oe, (k < length (h_controls h))%nat -> nth_error (h_times h) k = Some t -> nth_error (h_states h) k = Some oe ->
  felt m t oe et = felt m' t oe et.
(** SpicePerturbations with no bodies and both flags off *)
Definition empty_model (po : ptrb_obj N) : Prop :=
  (exists gs ns, pt_gms po = Some gs /\ pt_names po = Some ns /\ (gs = [] \/ ns = [])) /\ pt_use_J2 po = false /\ pt_use_SRP po = false.
End Local.

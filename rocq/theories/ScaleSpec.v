(** Vocabulary of C83: the same problem written in other units of length, time and mass.  A quantity of dimension
    length^i time^j mass^k is multiplied by u_len^i u_time^j u_mass^k; infinities and nan stay what they are. *)
From Coq Require Import Reals ZArith List Bool.
From Verif Require Import RMath Num Base Lyapunov Perturb Qlaw.
Import ListNotations.
Local Open Scope R_scope.

Definition xscale (c : R) (x : ereal) : ereal := match x with Fin r => Fin (c * r) | PInf => PInf | MInf => MInf | NaN => NaN end.
Record units : Type := mkunits { u_len : R; u_time : R; u_mass : R }.
Definition positive (u : units) : Prop := 0 < u_len u /\ 0 < u_time u /\ 0 < u_mass u.
(** back from the new units to the old ones *)
Definition back (u : units) : units := mkunits (/ u_len u) (/ u_time u) (/ u_mass u).
Definition u_acc (u : units) : R := u_len u / (u_time u * u_time u).

(** element vectors, bounds and tolerances: only the first entry, the semimajor axis, has a dimension *)
Definition oe_in (u : units) (oe : vec6 XNum) : vec6 XNum :=
  let 'mk6 a b c d e f := oe in @mk6 XNum (xscale (u_len u) a) b c d e f.
Definition slow_in (u : units) (v : vec5 XNum) : vec5 XNum :=
  let 'mk5 a b c d e := v in @mk5 XNum (xscale (u_len u) a) b c d e.
Definition target_in (u : units) (l : list (@car XNum)) : list (@car XNum) :=
  match l with [] => [] | a :: r => xscale (u_len u) a :: r end.
Definition push_in (u : units) (v : vec3 XNum) : vec3 XNum :=
  let 'mk3 x y z := v in @mk3 XNum (xscale (u_acc u) x) (xscale (u_acc u) y) (xscale (u_acc u) z).

(** Threshold functions and perturbations written for the old units, used with the new ones. *)
Definition eta_in (u : units) (e : eta_arg XNum) : eta_arg XNum :=
  match e with
  | EtaFun f => @EtaFun XNum (fun (t : ereal) (oe : vec6 XNum) (m b : ereal) => f (xscale (/ u_time u) t) (oe_in (back u) oe) (xscale (/ u_mass u) m) b)
  | EtaFloat v => @EtaFloat XNum v
  | EtaOther => @EtaOther XNum
  end.
Definition ptrb_in (u : units) (f : ptrb_fn (N:=XNum)) : ptrb_fn (N:=XNum) :=
  fun t oe et => match f (xscale (/ u_time u) t) (oe_in (back u) oe) et with Ok a => Ok (push_in u a) | Err e => Err e end.

(** Thrust is a force and mdot a mass flow.  The battery keeps its unit of charge.  The step is an angle when
    use_sundman is set. *)
Definition problem_in (u : units) (sundman : bool) (p : problem XNum) : problem XNum :=
  @mkproblem XNum (oe_in u (p_oe0 p)) (target_in u (p_oeT p)) (xscale (u_mass u) (p_mass0 p))
    (xscale (u_mass u * u_acc u) (p_tmax p)) (xscale (u_mass u / u_time u) (p_mdot p))
    (xscale (u_time u) (p_tf_max p)) (if sundman then p_t_step p else xscale (u_time u) (p_t_step p))
    (xscale (u_mass u) (p_mass_min p)) (p_woe p)
    (xscale (u_time u) (p_duty_on p)) (xscale (u_time u) (p_duty_off p))
    (p_batt0 p) (p_cap_lo p) (p_cap_hi p) (xscale (/ u_time u) (p_charge p)) (xscale (/ u_time u) (p_discharge p)) (p_full p).

(** Q is the square of a time, dQ/dt a time. *)
Definition hist_in (u : units) (h : hist XNum) : hist XNum :=
  @mkhist XNum (map (xscale (u_time u * u_time u)) (h_Qs h)) (map (xscale (u_time u)) (h_dQdts h))
    (map (xscale (u_time u)) (h_times h)) (map (oe_in u) (h_states h)) (map (xscale (u_mass u)) (h_masses h))
    (h_controls h) (h_etas h) (h_bounds h) (h_battery h).

Definition qlaw_in (u : units) (o : qlaw XNum) : qlaw XNum :=
  @mkqlaw XNum (xscale (u_len u * u_len u * u_len u / (u_time u * u_time u)) (q_mu o)) (xscale (u_len u) (q_rpmin o))
    (q_k o) (q_m o) (q_n o) (q_r o) (q_b o) (q_wp o) (q_etype o) (q_integ o) (q_grid o)
    (slow_in u (q_tol o)) (slow_in u (q_tol_relaxed o)) (q_exit_relaxed o)
    (slow_in u (q_oe_min o)) (slow_in u (q_oe_max o)) (q_nan_thr o)
    (q_eom o) (q_lyap o) (q_dqdt o) (q_check o)
    (xscale (u_time u) (q_step_min o)) (xscale (u_time u) (q_step_max o)) (q_ode_tol o) (q_sundman o)
    (option_map (ptrb_in u) (q_ptrb o)) (option_map (problem_in u (q_sundman o)) (q_problem o))
    (option_map (hist_in u) (q_hist o)) (q_converge o) (q_exitcode o).

Definition result_in (u : units) (r : sres XNum) : sres XNum :=
  match r with Returns o => Returns (qlaw_in u o) | Raises e o => Raises e (qlaw_in u o) | Running => Running end.

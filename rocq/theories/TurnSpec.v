(** Vocabulary of C84: the same Keplerian problem with the node counted from another axis of the reference plane, and with
    whole turns added to its angles. *)
From Coq Require Import Reals ZArith List Bool.
From Verif Require Import RMath Num Base Lyapunov Perturb Qlaw.
Import ListNotations.
Local Open Scope R_scope.

(** w_axes: angle by which the reference axis is turned back; the others are whole turns added to the ascending node, the
    argument of periapsis and the anomaly of the state, and to the node and the argument of periapsis of the target. *)
Record turns : Type := mkturns { w_axes : R; w_ra : Z; w_om : Z; w_ta : Z; w_raT : Z; w_omT : Z }.
Definition plus (x : ereal) (c : R) : ereal := xadd x (Fin c).
Definition unturn (w : turns) : turns := mkturns (- w_axes w) (- w_ra w) (- w_om w) (- w_ta w) (- w_raT w) (- w_omT w).
Definition oe_turn (w : turns) (oe : vec6 XNum) : vec6 XNum :=
  let 'mk6 a e i ra om ta := oe in
  @mk6 XNum a e i (plus ra (w_axes w + 2 * PI * IZR (w_ra w))) (plus om (2 * PI * IZR (w_om w))) (plus ta (2 * PI * IZR (w_ta w))).
(** the bounds elements_safety enforces move with the state *)
Definition bound_turn (w : turns) (v : vec5 XNum) : vec5 XNum :=
  let 'mk5 a e i ra om := v in @mk5 XNum a e i (plus ra (w_axes w + 2 * PI * IZR (w_ra w))) (plus om (2 * PI * IZR (w_om w))).
Definition target_turn (w : turns) (l : list (@car XNum)) : list (@car XNum) :=
  match l with
  | a :: e :: i :: ra :: om :: rest => a :: e :: i :: plus ra (w_axes w + 2 * PI * IZR (w_raT w)) :: plus om (2 * PI * IZR (w_omT w)) :: rest
  | _ => l
  end.
(** threshold functions and perturbations written for the old angles, used with the new ones *)
Definition eta_turn (w : turns) (e : eta_arg XNum) : eta_arg XNum :=
  match e with
  | EtaFun f => @EtaFun XNum (fun (t : ereal) (oe : vec6 XNum) (m b : ereal) => f t (oe_turn (unturn w) oe) m b)
  | EtaFloat v => @EtaFloat XNum v
  | EtaOther => @EtaOther XNum
  end.
Definition ptrb_turn (w : turns) (f : ptrb_fn (N:=XNum)) : ptrb_fn (N:=XNum) := fun t oe et => f t (oe_turn (unturn w) oe) et.

Definition problem_turn (w : turns) (p : problem XNum) : problem XNum :=
  @mkproblem XNum (oe_turn w (p_oe0 p)) (target_turn w (p_oeT p)) (p_mass0 p) (p_tmax p) (p_mdot p) (p_tf_max p) (p_t_step p)
    (p_mass_min p) (p_woe p) (p_duty_on p) (p_duty_off p) (p_batt0 p) (p_cap_lo p) (p_cap_hi p) (p_charge p) (p_discharge p) (p_full p).
Definition hist_turn (w : turns) (h : hist XNum) : hist XNum :=
  @mkhist XNum (h_Qs h) (h_dQdts h) (h_times h) (map (oe_turn w) (h_states h)) (h_masses h) (h_controls h) (h_etas h) (h_bounds h) (h_battery h).
Definition qlaw_turn (w : turns) (o : qlaw XNum) : qlaw XNum :=
  @mkqlaw XNum (q_mu o) (q_rpmin o) (q_k o) (q_m o) (q_n o) (q_r o) (q_b o) (q_wp o) (q_etype o) (q_integ o) (q_grid o)
    (q_tol o) (q_tol_relaxed o) (q_exit_relaxed o) (bound_turn w (q_oe_min o)) (bound_turn w (q_oe_max o)) (q_nan_thr o)
    (q_eom o) (q_lyap o) (q_dqdt o) (q_check o) (q_step_min o) (q_step_max o) (q_ode_tol o) (q_sundman o)
    (option_map (ptrb_turn w) (q_ptrb o)) (option_map (problem_turn w) (q_problem o))
    (option_map (hist_turn w) (q_hist o)) (q_converge o) (q_exitcode o).
Definition result_turn (w : turns) (r : sres XNum) : sres XNum :=
  match r with Returns o => Returns (qlaw_turn w o) | Raises e o => Raises e (qlaw_turn w o) | Running => Running end.
(** k whole turns of the last element (true anomaly or true longitude) and nothing else *)
Definition last_turn (k : Z) : turns := mkturns 0 0 0 k 0 0.

(** the same orbit in equinoctial elements (a, f, g, h, k, L) with the reference axis turned back by d *)
Definition mee_axes (d : R) (m : vec6 RNum) : vec6 RNum :=
  let 'mk6 a f g h k l := m in
  @mk6 RNum a (f * cos d - g * sin d) (f * sin d + g * cos d) (h * cos d - k * sin d) (h * sin d + k * cos d) (l + d).

(** Vocabulary of C96: the same transfer reflected in the reference plane. *)
From Coq Require Import Reals ZArith List Bool.
From Verif Require Import RMath Num Base Lyapunov Perturb Qlaw.
Import ListNotations.
Local Open Scope R_scope.

(** elements of the reflected orbit: node and periapsis half a turn on, or h and k with the other sign *)
Definition half (x : ereal) : ereal := xadd x (Fin PI).
Definition unhalf (x : ereal) : ereal := xadd x (Fin (- PI)).
Definition reflect (et : etype) (oe : vec6 XNum) : vec6 XNum :=
  match et, oe with
  | Keplerian, mk6 a e i ra om ta => @mk6 XNum a e i (half ra) (half om) ta
  | MeeWithA, mk6 a f g h k l => @mk6 XNum a f g (xopp h) (xopp k) l
  end.
Definition unreflect (et : etype) (oe : vec6 XNum) : vec6 XNum :=
  match et, oe with
  | Keplerian, mk6 a e i ra om ta => @mk6 XNum a e i (unhalf ra) (unhalf om) ta
  | MeeWithA, mk6 a f g h k l => @mk6 XNum a f g (xopp h) (xopp k) l
  end.
Definition target_reflect (et : etype) (l : list (@car XNum)) : list (@car XNum) :=
  match et, l with
  | Keplerian, a :: e :: i :: ra :: om :: rest => a :: e :: i :: half ra :: half om :: rest
  | MeeWithA, a :: f :: g :: h :: k :: rest => a :: f :: g :: xopp h :: xopp k :: rest
  | _, _ => l
  end.
(** the bounds enforced on Keplerian elements move with them *)
Definition bound_reflect (et : etype) (v : vec5 XNum) : vec5 XNum :=
  match et, v with
  | Keplerian, mk5 a e i ra om => @mk5 XNum a e i (half ra) (half om)
  | MeeWithA, _ => v
  end.
(** normal component of a vector in the rotating frame *)
Definition normal_reflect (v : vec3 XNum) : vec3 XNum := let 'mk3 x y z := v in @mk3 XNum x y (xopp z).
(** threshold functions and perturbations of the original, seen in the mirror *)
Definition eta_reflect (et : etype) (e : eta_arg XNum) : eta_arg XNum :=
  match e with
  | EtaFun f => @EtaFun XNum (fun (t : ereal) (oe : vec6 XNum) (m b : ereal) => f t (unreflect et oe) m b)
  | EtaFloat v => @EtaFloat XNum v
  | EtaOther => @EtaOther XNum
  end.
Definition ptrb_reflect (et : etype) (f : ptrb_fn (N:=XNum)) : ptrb_fn (N:=XNum) :=
  fun t oe k => match f t (unreflect et oe) k with Ok v => Ok (normal_reflect v) | Err e => Err e end.

Definition problem_reflect (et : etype) (p : problem XNum) : problem XNum :=
  @mkproblem XNum (reflect et (p_oe0 p)) (target_reflect et (p_oeT p)) (p_mass0 p) (p_tmax p) (p_mdot p) (p_tf_max p) (p_t_step p)
    (p_mass_min p) (p_woe p) (p_duty_on p) (p_duty_off p) (p_batt0 p) (p_cap_lo p) (p_cap_hi p) (p_charge p) (p_discharge p) (p_full p).
(** out-of-plane angles change sign; everything else but the states stays *)
Definition control_reflect (c : @car XNum * @car XNum * Z) : @car XNum * @car XNum * Z := let '(alpha, beta, thr) := c in (alpha, xopp beta, thr).
Definition hist_reflect (et : etype) (h : hist XNum) : hist XNum :=
  @mkhist XNum (h_Qs h) (h_dQdts h) (h_times h) (map (reflect et) (h_states h)) (h_masses h) (map control_reflect (h_controls h)) (h_etas h) (h_bounds h) (h_battery h).
Definition qlaw_reflect (et : etype) (o : qlaw XNum) : qlaw XNum :=
  @mkqlaw XNum (q_mu o) (q_rpmin o) (q_k o) (q_m o) (q_n o) (q_r o) (q_b o) (q_wp o) (q_etype o) (q_integ o) (q_grid o)
    (q_tol o) (q_tol_relaxed o) (q_exit_relaxed o) (bound_reflect et (q_oe_min o)) (bound_reflect et (q_oe_max o)) (q_nan_thr o)
    (q_eom o) (q_lyap o) (q_dqdt o) (q_check o) (q_step_min o) (q_step_max o) (q_ode_tol o) (q_sundman o)
    (option_map (ptrb_reflect et) (q_ptrb o)) (option_map (problem_reflect et) (q_problem o))
    (option_map (hist_reflect et) (q_hist o)) (q_converge o) (q_exitcode o).
Definition result_reflect (et : etype) (r : sres XNum) : sres XNum :=
  match r with Returns o => Returns (qlaw_reflect et o) | Raises e o => Raises e (qlaw_reflect et o) | Running => Running end.

(** a Cartesian state reflected in the reference plane *)
Definition cart_reflect (v : vec6 RNum) : vec6 RNum := let 'mk6 x y z vx vy vz := v in @mk6 RNum x y (- z) vx vy (- vz).

(** C97: equinoctial elements of an orbit in the reference plane.  A nan entry is let through: nothing is said about where such an orbit lies. *)
Definition nought (x : ereal) : Prop := x = Fin 0 \/ x = NaN.
Definition flat (oe : vec6 XNum) : Prop := nought (v6_3 oe) /\ nought (v6_4 oe).
(** the perturbation does not push an orbit out of the plane *)
Definition keeps_flat (o : qlaw XNum) : Prop :=
  forall f t oe v, q_ptrb o = Some f -> flat oe -> f t oe MeeWithA = Ok v -> nought (v3_2 v).
Definition level (c : @car XNum * @car XNum * Z) : Prop := let '(alpha, beta, thr) := c in beta = Fin 0.

(** Model of the QLaw class, pyqlaw/_qlaw.py: construction, set_problem, solve and the result
    accessors.  What is printed is in Report.v; tqdm and matplotlib are not modelled. *)
From Coq Require Import ZArith List Bool String.
From Verif Require Import Num Base Elements Integrate Eom Convergence Lyapunov Symbolic SymKep SymMee
  Perturb PlotHelper.
Import ListNotations.
Local Open Scope num_scope.

Inductive integ : Type := RK4 | RKF45.

(** _qlaw.py:230-234, the elements_type setter *)
Definition etype_of_string (s : string) : Res etype :=
  if String.eqb s "keplerian" then Ok Keplerian
  else if String.eqb s "mee_with_a" then Ok MeeWithA
  else Err AssertionError.
(** _qlaw.py:240-244, the integrator setter *)
Definition integ_of_string (s : string) : Res integ :=
  if String.eqb s "rk4" then Ok RK4
  else if String.eqb s "rkf45" then Ok RKF45
  else Err AssertionError.

Section Qlaw.
Context {N : Num}.

Definition eom_fn : Type := car -> vec6 N -> ode_params N -> Res (vec6 N).
Definition check_fn : Type := vec6 N -> list car -> vec5 N -> vec5 N -> Res bool.
Definition ptrb_fn : Type := car -> vec6 N -> etype -> Res (vec3 N).

(** The attributes written by set_problem (_qlaw.py:246-314).  Tuples are split into components. *)
Record problem : Type := mkproblem {
  p_oe0 : vec6 N; p_oeT : list car; p_mass0 : car; p_tmax : car; p_mdot : car;
  p_tf_max : car; p_t_step : car; p_mass_min : car; p_woe : vec5 N;
  p_duty_on : car; p_duty_off : car;                (* duty_cycle[0], duty_cycle[1] *)
  p_batt0 : car;                                    (* battery_initial *)
  p_cap_lo : car; p_cap_hi : car;                   (* battery_capacity[0], [1] *)
  p_charge : car; p_discharge : car;                (* battery_charge_discharge_rate[0], [1] *)
  p_full : bool }.                                  (* require_full_recharge *)

(** The history attributes created by solve (_qlaw.py:348-356), oldest entry first.
    controls entries are [alpha, beta, throttle]. *)
Record hist : Type := mkhist {
  h_Qs : list car; h_dQdts : list car; h_times : list car; h_states : list (vec6 N);
  h_masses : list car; h_controls : list (car * car * Z); h_etas : list (car * car);
  h_bounds : list (car * car); h_battery : list car }.

(** The QLaw object.  eom, lyap_fun, dqdt_fun and check_convergence are function-valued attributes
    (_qlaw.py:173-187); perturbations is None or an object with get_perturbations_RTN.
    [q_problem = None] is [ready = False]; [q_hist = None] means solve never initialised it. *)
Record qlaw : Type := mkqlaw {
  q_mu : car; q_rpmin : car; q_k : car; q_m : car; q_n : car; q_r : car; q_b : car; q_wp : car;
  q_etype : etype; q_integ : integ; q_grid : nat;
  q_tol : vec5 N; q_tol_relaxed : vec5 N; q_exit_relaxed : Z;
  q_oe_min : vec5 N; q_oe_max : vec5 N; q_nan_thr : Z;
  q_eom : eom_fn; q_lyap : lyap_fn N; q_dqdt : dqdt_fn N; q_check : check_fn;
  q_step_min : car; q_step_max : car; q_ode_tol : car; q_sundman : bool;
  q_ptrb : option ptrb_fn;
  q_problem : option problem; q_hist : option hist; q_converge : bool; q_exitcode : Z }.

(** ** Construction *)

Definition v5scal (c : car) (v : vec5 N) : vec5 N :=
  let 'mk5 a b d e f := v in mk5 (c * a) (c * b) (c * d) (c * e) (c * f).

(** _qlaw.py:152-158 and 161-167 (only the first five entries of the bounds are ever read; user
    bounds with fewer than five entries are outside the model) *)
Definition default_oe_min (et : etype) : vec5 N :=
  match et with
  | Keplerian => mk5 (dec 5 2) (dec 1 4) (dec 1 4) (dec 1 4) (dec 1 4)
  | MeeWithA => mk5 (dec 5 2) (- ninf) (- ninf) (- ninf) (- ninf)
  end.
Definition default_oe_max (et : etype) : vec5 N :=
  match et with
  | Keplerian => mk5 ($100) (dec 95 2) npi ninf ninf
  | MeeWithA => mk5 ($100) ($10) ($10) ninf ninf
  end.
(** _qlaw.py:173-187 *)
Definition eom_of (et : etype) : eom_fn :=
  match et with Keplerian => eom_kep_gauss | MeeWithA => eom_mee_with_a_gauss end.
Definition lyap_of_etype (et : etype) : lyap_fn N :=
  match et with Keplerian => lyap_keplerian | MeeWithA => lyap_mee_with_a end.
Definition dqdt_of_etype (et : etype) : dqdt_fn N :=
  match et with Keplerian => dqdt_keplerian | MeeWithA => dqdt_mee_with_a end.
Definition check_of (et : etype) : check_fn :=
  match et with Keplerian => check_convergence_keplerian | MeeWithA => check_convergence_mee end.

(** _qlaw.py:98-214, all arguments explicit *)
Definition init (mu rpmin k m n r b wp : car) (elements_type integrator : string) (grid : nat)
  (tol_oe : option (list car)) (oe_min oe_max : option (vec5 N)) (nan_thr : Z) (sundman : bool)
  (ptrb : option ptrb_fn) (relaxed_tol_factor : car) (exit_at_relaxed : Z) : Res qlaw :=
  if negb ($1 <=? relaxed_tol_factor) then Err AssertionError
  else if negb ($0 <? mu) then Err AssertionError            (* mu setter, line 222 *)
  else
  do et <- etype_of_string elements_type;
  do ig <- integ_of_string integrator;
  do tol <- (match tol_oe with
             | None => Ok (mk5 (dec 1 3) (dec 1 3) (dec 1 3) (dec 1 3) (dec 1 3))
             | Some l => match list_to_vec5 l with
                         | Some v => Ok v
                         | None => Err AssertionError
                         end
             end);
  Ok {| q_mu := mu; q_rpmin := rpmin; q_k := k; q_m := m; q_n := n; q_r := r; q_b := b; q_wp := wp;
        q_etype := et; q_integ := ig; q_grid := grid;
        q_tol := tol; q_tol_relaxed := v5scal relaxed_tol_factor tol;
        q_exit_relaxed := exit_at_relaxed;
        q_oe_min := match oe_min with None => default_oe_min et | Some v => v end;
        q_oe_max := match oe_max with None => default_oe_max et | Some v => v end;
        q_nan_thr := nan_thr;
        q_eom := eom_of et; q_lyap := lyap_of_etype et; q_dqdt := dqdt_of_etype et;
        q_check := check_of et;
        q_step_min := dec 1 4; q_step_max := $2; q_ode_tol := dec 1 5; q_sundman := sundman;
        q_ptrb := ptrb; q_problem := None; q_hist := None; q_converge := false; q_exitcode := 0%Z |}.

(** _qlaw.py:230-234 used after construction: only the name changes *)
Definition set_elements_type (o : qlaw) (s : string) : Res qlaw :=
  do et <- etype_of_string s;
  Ok {| q_mu := q_mu o; q_rpmin := q_rpmin o; q_k := q_k o; q_m := q_m o; q_n := q_n o; q_r := q_r o;
        q_b := q_b o; q_wp := q_wp o; q_etype := et; q_integ := q_integ o; q_grid := q_grid o;
        q_tol := q_tol o; q_tol_relaxed := q_tol_relaxed o; q_exit_relaxed := q_exit_relaxed o;
        q_oe_min := q_oe_min o; q_oe_max := q_oe_max o; q_nan_thr := q_nan_thr o;
        q_eom := q_eom o; q_lyap := q_lyap o; q_dqdt := q_dqdt o; q_check := q_check o;
        q_step_min := q_step_min o; q_step_max := q_step_max o; q_ode_tol := q_ode_tol o;
        q_sundman := q_sundman o; q_ptrb := q_ptrb o; q_problem := q_problem o; q_hist := q_hist o;
        q_converge := q_converge o; q_exitcode := q_exitcode o |}.

(** _qlaw.py:220-224 *)
Definition set_mu (o : qlaw) (mu : car) : Res qlaw :=
  if negb ($0 <? mu) then Err AssertionError else
  Ok {| q_mu := mu; q_rpmin := q_rpmin o; q_k := q_k o; q_m := q_m o; q_n := q_n o; q_r := q_r o;
        q_b := q_b o; q_wp := q_wp o; q_etype := q_etype o; q_integ := q_integ o; q_grid := q_grid o;
        q_tol := q_tol o; q_tol_relaxed := q_tol_relaxed o; q_exit_relaxed := q_exit_relaxed o;
        q_oe_min := q_oe_min o; q_oe_max := q_oe_max o; q_nan_thr := q_nan_thr o;
        q_eom := q_eom o; q_lyap := q_lyap o; q_dqdt := q_dqdt o; q_check := q_check o;
        q_step_min := q_step_min o; q_step_max := q_step_max o; q_ode_tol := q_ode_tol o;
        q_sundman := q_sundman o; q_ptrb := q_ptrb o; q_problem := q_problem o; q_hist := q_hist o;
        q_converge := q_converge o; q_exitcode := q_exitcode o |}.

(** _qlaw.py:240-244 used after construction *)
Definition set_integrator (o : qlaw) (s : string) : Res qlaw :=
  do ig <- integ_of_string s;
  Ok {| q_mu := q_mu o; q_rpmin := q_rpmin o; q_k := q_k o; q_m := q_m o; q_n := q_n o; q_r := q_r o;
        q_b := q_b o; q_wp := q_wp o; q_etype := q_etype o; q_integ := ig; q_grid := q_grid o;
        q_tol := q_tol o; q_tol_relaxed := q_tol_relaxed o; q_exit_relaxed := q_exit_relaxed o;
        q_oe_min := q_oe_min o; q_oe_max := q_oe_max o; q_nan_thr := q_nan_thr o;
        q_eom := q_eom o; q_lyap := q_lyap o; q_dqdt := q_dqdt o; q_check := q_check o;
        q_step_min := q_step_min o; q_step_max := q_step_max o; q_ode_tol := q_ode_tol o;
        q_sundman := q_sundman o; q_ptrb := q_ptrb o; q_problem := q_problem o; q_hist := q_hist o;
        q_converge := q_converge o; q_exitcode := q_exitcode o |}.

(** Assignment to the attributes solve writes: problem (its oe0 array), history, flags *)
Definition with_run (o : qlaw) (p : option problem) (h : option hist) (conv : bool) (code : Z) : qlaw :=
  {| q_mu := q_mu o; q_rpmin := q_rpmin o; q_k := q_k o; q_m := q_m o; q_n := q_n o; q_r := q_r o;
     q_b := q_b o; q_wp := q_wp o; q_etype := q_etype o; q_integ := q_integ o; q_grid := q_grid o;
     q_tol := q_tol o; q_tol_relaxed := q_tol_relaxed o; q_exit_relaxed := q_exit_relaxed o;
     q_oe_min := q_oe_min o; q_oe_max := q_oe_max o; q_nan_thr := q_nan_thr o;
     q_eom := q_eom o; q_lyap := q_lyap o; q_dqdt := q_dqdt o; q_check := q_check o;
     q_step_min := q_step_min o; q_step_max := q_step_max o; q_ode_tol := q_ode_tol o;
     q_sundman := q_sundman o; q_ptrb := q_ptrb o;
     q_problem := p; q_hist := h; q_converge := conv; q_exitcode := code |}.

(** _qlaw.py:246-314.  [oe0] and [oeT] are the caller's sequences; exitcode, converge and the
    histories are not touched. *)
Definition set_problem (o : qlaw) (oe0 oeT : list car) (mass0 tmax mdot tf_max t_step mass_min : car)
  (woe : option (list car)) (duty_on duty_off batt0 cap_lo cap_hi charge discharge : car)
  (full : bool) : Res qlaw :=
  match list_to_vec6 oe0 with
  | None => Err AssertionError
  | Some oe0v =>
      if negb (dec 1 2 <=? mass_min) then Err AssertionError else
      do w <- (match woe with
               | None => Ok (mk5 ($1) ($1) ($1) ($1) ($1))
               | Some l => match list_to_vec5 l with Some v => Ok v | None => Err AssertionError end
               end);
      let p := {| p_oe0 := oe0v;
                  p_oeT := if Nat.eqb (List.length oeT) 6 then firstn 5 oeT else oeT;
                  p_mass0 := mass0; p_tmax := tmax; p_mdot := mdot; p_tf_max := tf_max;
                  p_t_step := t_step; p_mass_min := mass_min; p_woe := w;
                  p_duty_on := duty_on; p_duty_off := duty_off; p_batt0 := batt0;
                  p_cap_lo := cap_lo; p_cap_hi := cap_hi; p_charge := charge;
                  p_discharge := discharge; p_full := full |} in
      Ok (with_run o (Some p) (q_hist o) (q_converge o) (q_exitcode o))
  end.

(** _qlaw.py:98-121, QLaw() with every argument left at its default *)
Definition init_defaults : Res qlaw :=
  init ($1) (dec 1 1) ($1) ($3) ($4) ($2) (dec 1 2) ($1) "mee_with_a" "rk4" 5 None None None 10 false None ($10) 100.
(** _qlaw.py:246-262, set_problem(oe0, oeT, mass0, tmax, mdot) with the other arguments left at their defaults *)
Definition set_problem_defaults (o : qlaw) (oe0 oeT : list car) (mass0 tmax mdot : car) : Res qlaw :=
  set_problem o oe0 oeT mass0 tmax mdot ($100000) (dec 1 1) (dec 1 1) None ($(10 ^ 16)) ($0) ($1) (dec 2 1) ($1) ($0) ($0)
    false.
(** _qlaw.py:317, solve() without arguments: both thresholds are 0.0 *)
Definition eta_default : car := $0.

(** ** Solve *)

(** How an effectivity threshold argument can be given (_qlaw.py:332-339, 469-477). Callables are
    pure. [EtaOther]: anything that is neither a float nor callable (an int, a string, ...). *)
Inductive eta_arg : Type :=
| EtaFloat (v : car)
| EtaFun (f : car -> vec6 N -> car -> car -> car)
| EtaOther.

(** Loop variables of solve.  [l_ab] is the pair of local variables alpha, beta, unbound (None)
    until a thrust-enabled step assigns them. *)
Record lstate : Type := mkls {
  l_t : car; l_oe : vec6 N; l_mass : car; l_batt : car;
  l_nrel : Z; l_nnan : Z;
  l_duty : bool; l_ton : car; l_toff : car; l_chg : bool;
  l_ab : option (car * car);
  l_hist : hist }.

(** _qlaw.py:341-368 *)
Definition init_state (p : problem) : lstate :=
  {| l_t := $0; l_oe := p_oe0 p; l_mass := p_mass0 p; l_batt := p_batt0 p;
     l_nrel := 0%Z; l_nnan := 0%Z; l_duty := true; l_ton := $0; l_toff := $0; l_chg := false;
     l_ab := None;
     l_hist := {| h_Qs := []; h_dQdts := []; h_times := [$0]; h_states := [p_oe0 p];
                  h_masses := [p_mass0 p]; h_controls := []; h_etas := []; h_bounds := [];
                  h_battery := [p_batt0 p] |} |}.

(** _qlaw.py:372 *)
Definition guard (p : problem) (s : lstate) : bool :=
  nabs (last (h_times (l_hist s)) ($0)) <? nabs (p_tf_max p).

Definition replace_last {A} (l : list A) (x : A) : list A := removelast l ++ [x].

(** _qlaw.py:373-375.  elements_safety writes into the array it is given, which is the one stored
    as states[-1]. *)
Definition safety (o : qlaw) (s : lstate) : lstate :=
  match q_etype o with
  | Keplerian =>
      let c := elements_safety (l_oe s) (q_oe_min o) (q_oe_max o) in
      let h := l_hist s in
      {| l_t := l_t s; l_oe := c; l_mass := l_mass s; l_batt := l_batt s;
         l_nrel := l_nrel s; l_nnan := l_nnan s; l_duty := l_duty s; l_ton := l_ton s;
         l_toff := l_toff s; l_chg := l_chg s; l_ab := l_ab s;
         l_hist := {| h_Qs := h_Qs h; h_dQdts := h_dQdts h; h_times := h_times h;
                      h_states := replace_last (h_states h) c; h_masses := h_masses h;
                      h_controls := h_controls h; h_etas := h_etas h; h_bounds := h_bounds h;
                      h_battery := h_battery h |} |}
  | MeeWithA => s
  end.

(** _qlaw.py:377-398: the time step before battery truncation *)
Definition local_step (o : qlaw) (p : problem) (oe : vec6 N) : Res car :=
  if q_sundman o then
    do ecc_E0 <- (match q_etype o with
                  | Keplerian => do E0 <- ta2ea (v6_5 oe) (v6_1 oe); Ok (v6_1 oe, E0)
                  | MeeWithA => do E0 <- mee2ea oe; Ok (nsqrt (sq (v6_1 oe) + sq (v6_2 oe)), E0)
                  end);
    let '(ecc, E0) := ecc_E0 in
    let period := $2 * npi * nsqrt (cube (v6_0 oe) / q_mu o) in
    let E1 := E0 + p_t_step p in
    let M0 := E0 - ecc * nsin E0 in
    let M1 := E1 - ecc * nsin E1 in
    if M0 <? M1 then Ok ((M1 / ($2 * npi) - M0 / ($2 * npi)) * period)
    else Ok ((M1 / ($2 * npi) + $1 - M0 / ($2 * npi)) * period)
  else Ok (p_t_step p).

(** _qlaw.py:400-407 *)
Definition duty_phase (p : problem) (t : car) (duty : bool) (ton toff : car) : bool * car * car :=
  let '(duty1, toff1) := if (p_duty_on p <? t - ton) && duty then (false, t) else (duty, toff) in
  let '(duty2, ton2) := if (p_duty_off p <? t - toff1) && negb duty1 then (true, t) else (duty1, ton) in
  (duty2, ton2, toff1).

(** _qlaw.py:409-418: (step, duty, t_last_OFF, charging).  The division is plain Python/numpy; the
    theorems show its divisor is never zero when it is reached. *)
Definition battery_phase (p : problem) (t batt dt : car) (duty : bool) (toff : car) (chg : bool)
  : car * bool * car * bool :=
  if batt <=? p_cap_lo p + dec 1 12 then (dt, false, t, true)
  else if (batt - p_discharge p * dt <? p_cap_lo p) && negb chg
       then ((batt - p_cap_lo p) / p_discharge p, duty, toff, chg)
       else (dt, duty, toff, chg).

(** _qlaw.py:420-423 *)
Definition recharge_phase (p : problem) (batt : car) (duty chg : bool) : bool :=
  if p_full p && chg && (batt <? p_cap_hi p) then false else duty.

(** What the scheduling part of an iteration (lines 377-423) decides. *)
Record plan_t : Type := mkplan { pl_dt : car; pl_duty : bool; pl_ton : car; pl_toff : car; pl_chg : bool }.
Definition plan (o : qlaw) (p : problem) (s : lstate) : Res plan_t :=
  do dt0 <- local_step o p (l_oe s);
  let '(duty1, ton, toff1) := duty_phase p (l_t s) (l_duty s) (l_ton s) (l_toff s) in
  let '(dt, duty2, toff, chg) := battery_phase p (l_t s) (l_batt s) dt0 duty1 toff1 (l_chg s) in
  Ok {| pl_dt := dt; pl_duty := recharge_phase p (l_batt s) duty2 chg;
        pl_ton := ton; pl_toff := toff; pl_chg := chg |}.

(** _qlaw.py:426 *)
Definition accel_thrust (p : problem) (dt mass : car) : car := npsign dt * p_tmax p / mass.

(** _qlaw.py:614-645: (max, min) of dQ/dt over the anomaly grid.  Returned in this order and bound
    to (qdot_min, qdot_max) by the caller. *)
Definition evaluate_osculating_qdot (o : qlaw) (p : problem) (oe : vec6 N) (acc : car) : Res (car * car) :=
  let 'mk6 o0 o1 o2 o3 o4 o5 := oe in
  let pts := tl (linspace o5 (o5 + $2 * npi) (S (q_grid o))) in
  do qs <- mapM (fun an => q_dqdt o (q_mu o) acc (mk6 o0 o1 o2 o3 o4 an) (p_oeT p) (q_rpmin o) (q_m o)
                             (q_n o) (q_r o) (q_b o) (q_k o) (q_wp o) (p_woe p)) pts;
  do M <- pymaxl qs; do m <- pyminl qs; Ok (M, m).

Definition eta_now (e : eta_arg) (t : car) (oe : vec6 N) (mass batt : car) : car :=
  match e with EtaFloat v => v | EtaFun f => f t oe mass batt | EtaOther => nnan end.

(** Result of the control part (lines 428-511). *)
Record ctl_t : Type := mkctl {
  c_ab : option (car * car); c_thr : Z; c_u : vec3 N; c_psi : psi_t N; c_q : car; c_qdot : car;
  c_etas : car * car; c_bounds : car * car; c_nnan : Z }.
Inductive ctl_res : Type := Ctl (c : ctl_t) | NanBreak.

Definition lyap_call (o : qlaw) (p : problem) (acc : car) (oe : vec6 N) :=
  lyapunov_control_angles (q_lyap o) (q_mu o) acc oe (p_oeT p) (q_rpmin o) (q_m o) (q_n o) (q_r o)
    (q_b o) (q_k o) (q_wp o) (p_woe p).

(** _qlaw.py:428-511 *)
Definition control (o : qlaw) (p : problem) (ea er : eta_arg) (s : lstate) (pl : plan_t) (acc : car)
  : Res ctl_res :=
  if pl_duty pl then
    do out <- lyap_call o p acc (l_oe s);
    let '(alpha, beta, _, psi, q, qdot) := out in
    if nisnan alpha || nisnan beta then
      let n' := (l_nnan s + 1)%Z in
      if Z.ltb (q_nan_thr o) n' then Ok NanBreak
      else Ok (Ctl {| c_ab := Some ($0, $0); c_thr := 0; c_u := v3zero; c_psi := psi; c_q := q;
                      c_qdot := qdot; c_etas := (nnan, nnan); c_bounds := (nnan, nnan); c_nnan := n' |})
    else
      let u := v3scal acc (mk3 (ncos beta * nsin alpha) (ncos beta * ncos alpha) (nsin beta)) in
      let ea_v := eta_now ea (l_t s) (l_oe s) (l_mass s) (l_batt s) in
      let er_v := eta_now er (l_t s) (l_oe s) (l_mass s) (l_batt s) in
      if ($0 <? er_v) || ($0 <? ea_v) then
        do mm <- evaluate_osculating_qdot o p (l_oe s) acc;
        let '(qdot_min, qdot_max) := mm in
        let va := nabs (qdot / qdot_min) in
        let vr := nabs ((qdot - qdot_max) / (qdot_min - qdot_max)) in
        let off := (va <? ea_v) || (vr <? er_v) in
        Ok (Ctl {| c_ab := Some (alpha, beta); c_thr := if off then 0 else 1;
                   c_u := if off then v3zero else u; c_psi := psi; c_q := q; c_qdot := qdot;
                   c_etas := (va, vr); c_bounds := (ea_v, er_v); c_nnan := l_nnan s |})
      else
        Ok (Ctl {| c_ab := Some (alpha, beta); c_thr := 1; c_u := u; c_psi := psi; c_q := q;
                   c_qdot := qdot; c_etas := (nnan, nnan); c_bounds := (ea_v, er_v);
                   c_nnan := l_nnan s |})
  else
    do out <- lyap_call o p acc (l_oe s);
    let '(_, _, _, psi, q, qdot) := out in
    Ok (Ctl {| c_ab := l_ab s; c_thr := 0; c_u := v3zero; c_psi := psi; c_q := q; c_qdot := qdot;
               c_etas := (nnan, nnan); c_bounds := (nnan, nnan); c_nnan := l_nnan s |}).

(** _qlaw.py:513-517 *)
Definition perturbation (o : qlaw) (s : lstate) : Res (vec3 N) :=
  match q_ptrb o with
  | Some f => f (l_t s) (l_oe s) (q_etype o)
  | None => Ok v3zero
  end.

(** _qlaw.py:519-549: (oe_next, t, mass, step seen by the battery update).  With rkf45 the local
    step is overwritten by the clamped suggestion for the next step (line 547). *)
Definition propagate (o : qlaw) (p : problem) (s : lstate) (pl : plan_t) (c : ctl_t) (ptrb : vec3 N)
  : Res (vec6 N * car * car * car) :=
  let prm := {| op_mu := q_mu o; op_u := c_u c; op_psi := c_psi c; op_ptrb := ptrb |} in
  let dt := pl_dt pl in
  let t' := l_t s + dt in
  let mass' := if Z.eqb (c_thr c) 1 then l_mass s - p_mdot p * dt else l_mass s in
  match q_integ o with
  | RK4 => do oe' <- rk4 (q_eom o) (l_t s) dt (l_oe s) prm; Ok (oe', t', mass', dt)
  | RKF45 =>
      do yh <- rkf45 (q_eom o) (l_t s) dt (l_oe s) prm (q_ode_tol o);
      let '(oe', hn) := yh in
      Ok (oe', t', mass', pymax (q_step_min o) (pymin (q_step_max o) hn))
  end.

(** _qlaw.py:551-559: (battery, charging) *)
Definition battery_update (p : problem) (batt dtb : car) (duty chg : bool) : car * bool :=
  if duty then (npclip (batt - p_discharge p * dtb) (p_cap_lo p) (p_cap_hi p), chg)
  else
    let b := npclip (batt + p_charge p * dtb) (p_cap_lo p) (p_cap_hi p) in
    (b, if b =? p_cap_hi p then false else chg).

(** _qlaw.py:562-564: the three appends before [controls.append] can fail *)
Definition push3 (h : hist) (t : car) (oe : vec6 N) (mass : car) : hist :=
  {| h_Qs := h_Qs h; h_dQdts := h_dQdts h; h_times := h_times h ++ [t];
     h_states := h_states h ++ [oe]; h_masses := h_masses h ++ [mass];
     h_controls := h_controls h; h_etas := h_etas h; h_bounds := h_bounds h;
     h_battery := h_battery h |}.
(** _qlaw.py:565-570 *)
Definition push6 (h : hist) (alpha beta : car) (c : ctl_t) (batt : car) : hist :=
  {| h_Qs := h_Qs h ++ [c_q c]; h_dQdts := h_dQdts h ++ [c_qdot c]; h_times := h_times h;
     h_states := h_states h; h_masses := h_masses h;
     h_controls := h_controls h ++ [(alpha, beta, c_thr c)]; h_etas := h_etas h ++ [c_etas c];
     h_bounds := h_bounds h ++ [c_bounds c]; h_battery := h_battery h ++ [batt] |}.

(** How one iteration of the loop body ends. *)
Inductive outcome : Type :=
| Next (s : lstate)                            (* continue with the while test *)
| Stop (code : Z) (conv : bool) (s : lstate)   (* break; conv: self.converge was set to True *)
| Fail (e : exn) (s : lstate).                 (* an exception leaves solve *)

Definition with_hist (s : lstate) (h : hist) : lstate :=
  {| l_t := l_t s; l_oe := l_oe s; l_mass := l_mass s; l_batt := l_batt s; l_nrel := l_nrel s;
     l_nnan := l_nnan s; l_duty := l_duty s; l_ton := l_ton s; l_toff := l_toff s; l_chg := l_chg s;
     l_ab := l_ab s; l_hist := h |}.
Definition with_nrel (s : lstate) (n : Z) : lstate :=
  {| l_t := l_t s; l_oe := l_oe s; l_mass := l_mass s; l_batt := l_batt s; l_nrel := n;
     l_nnan := l_nnan s; l_duty := l_duty s; l_ton := l_ton s; l_toff := l_toff s; l_chg := l_chg s;
     l_ab := l_ab s; l_hist := l_hist s |}.

(** _qlaw.py:572-601, on the state with the new row recorded *)
Definition exit_check (o : qlaw) (p : problem) (s : lstate) : outcome :=
  match q_check o (l_oe s) (p_oeT p) (p_woe p) (q_tol o) with
  | Err e => Fail e s
  | Ok true => Stop 1 true s
  | Ok false =>
      match q_check o (l_oe s) (p_oeT p) (p_woe p) (q_tol_relaxed o) with
      | Err e => Fail e s
      | Ok rel =>
          let s' := with_nrel s (if rel then l_nrel s + 1 else l_nrel s)%Z in
          if rel && Z.leb (q_exit_relaxed o) (l_nrel s') then Stop 2 true s'
          else if l_mass s' <=? p_mass_min p then Stop (-1) false s'
          else Next s'
      end
  end.

(** _qlaw.py:373-601: one iteration of the while body *)
Definition step (o : qlaw) (p : problem) (ea er : eta_arg) (s0 : lstate) : outcome :=
  let s := safety o s0 in
  match plan o p s with
  | Err e => Fail e s
  | Ok pl =>
      let acc := accel_thrust p (pl_dt pl) (l_mass s) in
      match control o p ea er s pl acc with
      | Err e => Fail e s
      | Ok NanBreak => Stop (-3) false s
      | Ok (Ctl c) =>
          match perturbation o s with
          | Err e => Fail e s
          | Ok ptrb =>
              match propagate o p s pl c ptrb with
              | Err e => Fail e s
              | Ok (oe', t', mass', dtb) =>
                  let '(batt', chg') := battery_update p (l_batt s) dtb (pl_duty pl) (pl_chg pl) in
                  let h3 := push3 (l_hist s) t' oe' mass' in
                  match c_ab c with
                  | None => Fail UnboundLocalError (with_hist s h3)     (* line 565 *)
                  | Some (alpha, beta) =>
                      exit_check o p
                        {| l_t := t'; l_oe := oe'; l_mass := mass'; l_batt := batt';
                           l_nrel := l_nrel s; l_nnan := c_nnan c; l_duty := pl_duty pl;
                           l_ton := pl_ton pl; l_toff := pl_toff pl; l_chg := chg';
                           l_ab := c_ab c; l_hist := push6 h3 alpha beta c batt' |}
                  end
              end
          end
      end
  end.

(** The while loop, with explicit fuel: [LFuel] means "still running". *)
Inductive lres : Type :=
| LEnd (s : lstate)                            (* while test false *)
| LStop (code : Z) (conv : bool) (s : lstate)
| LFail (e : exn) (s : lstate)
| LFuel (s : lstate).
Fixpoint loop (fuel : nat) (o : qlaw) (p : problem) (ea er : eta_arg) (s : lstate) : lres :=
  if guard p s then
    match fuel with
    | O => LFuel s
    | S n => match step o p ea er s with
             | Next s' => loop n o p ea er s'
             | Stop c v s' => LStop c v s'
             | Fail e s' => LFail e s'
             end
    end
  else LEnd s.

(** self.oe0 and the caller's array are the object stored as states[0] *)
Definition with_oe0 (p : problem) (h : hist) : problem :=
  {| p_oe0 := hd (p_oe0 p) (h_states h); p_oeT := p_oeT p; p_mass0 := p_mass0 p; p_tmax := p_tmax p;
     p_mdot := p_mdot p; p_tf_max := p_tf_max p; p_t_step := p_t_step p; p_mass_min := p_mass_min p;
     p_woe := p_woe p; p_duty_on := p_duty_on p; p_duty_off := p_duty_off p; p_batt0 := p_batt0 p;
     p_cap_lo := p_cap_lo p; p_cap_hi := p_cap_hi p; p_charge := p_charge p;
     p_discharge := p_discharge p; p_full := p_full p |}.

(** The object after the loop, lines 603-611.  [code]/[conv]: attributes after the loop. *)
Definition finish (o : qlaw) (p : problem) (h : hist) (conv : bool) (code : Z) : qlaw :=
  let code' := if negb conv && Z.eqb code 0 then (-2)%Z else code in
  with_run o (Some (with_oe0 p h)) (Some h) conv code'.

Inductive sres : Type :=
| Returns (o : qlaw)               (* normal return; the object afterwards *)
| Raises (e : exn) (o : qlaw)      (* exception; the object as it is left *)
| Running.                         (* fuel exhausted *)

(** _qlaw.py:317-611 *)
Definition solve (fuel : nat) (o : qlaw) (ea er : eta_arg) : sres :=
  match q_problem o with
  | None => Raises AssertionError o
  | Some p =>
      match ea with
      | EtaOther => Raises ValueError o
      | _ =>
          match loop fuel o p ea er (init_state p) with
          | LEnd s => Returns (finish o p (l_hist s) (q_converge o) (q_exitcode o))
          | LStop code conv s => Returns (finish o p (l_hist s) (conv || q_converge o) code)
          | LFail e s =>
              Raises e (with_run o (Some (with_oe0 p (l_hist s))) (Some (l_hist s))
                                 (q_converge o) (q_exitcode o))
          | LFuel _ => Running
          end
      end
  end.
End Qlaw.
Arguments qlaw : clear implicits.
Arguments problem : clear implicits.
Arguments hist : clear implicits.
Arguments lstate : clear implicits.
Arguments eta_arg : clear implicits.
Arguments outcome : clear implicits.
Arguments plan_t : clear implicits.
Arguments ctl_t : clear implicits.
Arguments lres : clear implicits.
Arguments sres : clear implicits.

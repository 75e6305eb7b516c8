(** C73-C77 and the exact battery law of C18: what one recorded step is, why a step coasts, what the defaults mean. *)
From Coq Require Import Reals ZArith String List Bool Lra.
From Verif Require Import RMath Num Base Elements Integrate Eom Lyapunov Perturb Qlaw Spec XSpec RSpec MaxSpec RunSpec
  RunProofs XReason RunReals RunDefaults XEnergy Sim XRuns ExportRuns RunRuns EllSpec NanSpec NanRun.
Import ListNotations.
Local Open Scope list_scope.

(** C73.  The recorded history is a solution: there are the raw states [zs] the integrator produced, each recorded state is
    the previous raw state inside its bounds ([raws]), and each raw state is one integrator step of the object's equations
    of motion from the recorded time and state, with thrust along the recorded angles exactly when the recorded throttle
    is 1, with the perturbation at the recorded time, and with the recorded Q and dQ/dt. *)
Theorem C73_recorded_steps_are_flown : forall (N : Num) (o : qlaw N) p ea er fuel o' h, ran fuel o ea er p o' h ->
  exists zs, raws o (p_oe0 p) h zs /\ length zs = length (h_controls h) /\
    forall k z, nth_error zs k = Some z -> exists hn, flown o p h k z hn.
Proof. exact @flown_lem. Qed.
Print Assumptions C73_recorded_steps_are_flown.
(** The angles recorded for a coasting step are the law's, or 0 if the law answers nan, or those of the step before. *)
Theorem C73_coasting_angles : forall (N : Num) (o : qlaw N) p ea er fuel o' h k al be,
  ran fuel o ea er p o' h -> nth_error (h_controls h) k = Some (al, be, 0%Z) ->
  exists t dt m oe al0 be0 D psi q qd,
    nth_error (h_times h) k = Some t /\ nth_error (h_times h) (S k) = Some (nadd t dt) /\
    nth_error (h_masses h) k = Some m /\ nth_error (h_states h) k = Some oe /\
    law o p (thrust_acc p dt m) oe = Ok (al0, be0, D, psi, q, qd) /\
    (al = al0 /\ be = be0 \/
     al = nofZ 0 /\ be = nofZ 0 /\ (nisnan al0 || nisnan be0)%bool = true \/
     exists j thr', k = S j /\ nth_error (h_controls h) j = Some (al, be, thr')).
Proof. exact @angles_lem. Qed.
Print Assumptions C73_coasting_angles.
(** The run [run_cycle] burns at step 0 and coasts at step 2. *)
Example C73_example : exists o' h, ran 10 (toyX RK4 a_cycle) noX noX (probX a_cycle) o' h /\ length (h_controls h) = 7%nat /\
  throttle h 0 1 /\ throttle h 2 0.
Proof. exact C73_case. Qed.

(** C18, exact form, over every number type: the level after a step is the level before it minus discharge, or plus charge,
    times the battery time, clipped to the capacity; the battery time is the step length, but with rkf45 the
    clamped suggestion for the next step. *)
Theorem C18_exact_update : forall (N : Num) (o : qlaw N) p ea er fuel o' h k,
  ran fuel o ea er p o' h -> (k < length (h_controls h))%nat ->
  exists z hn t dt b al be thr (on : bool),
    flown o p h k z hn /\ nth_error (h_times h) k = Some t /\ nth_error (h_times h) (S k) = Some (nadd t dt) /\
    nth_error (h_battery h) k = Some b /\ nth_error (h_controls h) k = Some (al, be, thr) /\
    (thr = 1%Z -> on = true) /\
    nth_error (h_battery h) (S k) = Some (npclip
      (if on then nsub b (nmul (p_discharge p) (battery_time o dt hn)) else nadd b (nmul (p_charge p) (battery_time o dt hn)))
      (p_cap_lo p) (p_cap_hi p)).
Proof. exact @battery_lem. Qed.
Print Assumptions C18_exact_update.

Local Open Scope R_scope.
(** C17 without require_full_recharge.  Missing: thrusting steps before the battery was full again after its last depletion. *)
Theorem C17_energy_after_full_charge_partial : forall (o : qlaw XNum) p ea er a, regular o p a ->
  forall fuel o' h k t t' b, ran fuel o ea er p o' h -> q_integ o = RK4 ->
  0 < a_ts a -> 0 <= a_dis a -> a_lo a + 1 / 10 ^ 12 < a_hi a -> a_b0 a <= a_hi a ->
  (forall i, (i < k)%nat -> depleted a h i -> exists j, (i < j <= k)%nat /\ entry (h_battery h) j (a_hi a)) ->
  throttle h k 1 ->
  entry (h_times h) k t -> entry (h_times h) (S k) t' -> entry (h_battery h) k b ->
  a_lo a <= b - a_dis a * (t' - t) /\ entry (h_battery h) (S k) (b - a_dis a * (t' - t)).
Proof. exact C17_full_since. Qed.
Print Assumptions C17_energy_after_full_charge_partial.
(** a run without the option whose step 6 thrusts after a depletion at step 2 and a full battery at step 6 *)
Example C17_example_full : regular (toyX RK4 a_rest) (probX a_rest) (parX a_rest) /\ a_full (parX a_rest) = false /\
  a_lo (parX a_rest) + 1 / 10 ^ 12 < a_hi (parX a_rest) /\
  exists o' h, ran 20 (toyX RK4 a_rest) noX noX (probX a_rest) o' h /\ throttle h 6 1 /\ depleted (parX a_rest) h 2 /\
    forall i, (i < 6)%nat -> depleted (parX a_rest) h i ->
      exists j, (i < j <= 6)%nat /\ entry (h_battery h) j (a_hi (parX a_rest)).
Proof. exact C17_full_case. Qed.

(** C74.  Over the reals: on every thrusting step the applied acceleration [u] has magnitude tmax/m, and among all
    accelerations of at most that magnitude it makes dt * (gradient . u), the change of Q over the step, smallest. *)
Theorem C74_thrust_is_steepest : forall fuel (o : qlaw RNum) ea er p o' h k,
  ran fuel o ea er p o' h -> throttle h k 1 ->
  exists t dt m oe al be out,
    nth_error (h_times h) k = Some t /\ nth_error (h_times h) (S k) = Some (t + dt) /\
    nth_error (h_masses h) k = Some m /\ nth_error (h_states h) k = Some oe /\ nth_error (h_controls h) k = Some (al, be, 1%Z) /\
    q_lyap o (q_mu o) (thrust_acc p dt m) oe (p_oeT p) (q_rpmin o) (q_m o) (q_n o) (q_r o) (q_b o) (q_k o) (q_wp o) (p_woe p) = Ok out /\
    let D := lo_u out in let u := scale (thrust_acc p dt m) (direction al be) in
    0 <= p_tmax p -> 0 < m -> dt <> 0 -> v3_0 D <> 0 \/ v3_1 D <> 0 ->
    norm u = p_tmax p / m /\ forall w, norm w <= p_tmax p / m -> dt * dot D u <= dt * dot D w.
Proof. exact C74_lem. Qed.
Print Assumptions C74_thrust_is_steepest.
Example C74_example : exists o' h out, ran 1 o_turn (EtaFloat (N:=RNum) 0) (EtaFloat (N:=RNum) 0) p_turn o' h /\ throttle h 0 1 /\
  0 < p_tmax p_turn /\ nth_error (h_masses h) 0 = Some 1 /\
  (forall acc oe, q_lyap o_turn (q_mu o_turn) acc oe (p_oeT p_turn) (q_rpmin o_turn) (q_m o_turn) (q_n o_turn) (q_r o_turn)
    (q_b o_turn) (q_k o_turn) (q_wp o_turn) (p_woe p_turn) = Ok out) /\ v3_1 (lo_u out) <> 0.
Proof. exact C74_case. Qed.

(** C75.  Every coasting step has one of four reasons: the law asks for no thrust, the battery is depleted, a full
    recharge is due, or the duty cycle is in its pause. *)
Theorem C75_coast_has_a_reason : forall (o : qlaw XNum) p ea er a, regular o p a -> forall fuel o' h k,
  ran fuel o ea er p o' h -> 0 <= a_on a -> 0 <= a_off a -> throttle h k 0 ->
  law_coasts o p ea er h k \/ depleted a h k \/ recharging a h k \/ resting o p ea er a h k.
Proof. exact coast_reason. Qed.
Print Assumptions C75_coast_has_a_reason.
(** In [run_cycle] step 2 coasts on a depleted battery and step 3 while it recharges; in [run_duty] step 3 coasts
    although the battery is not depleted at any step and no full recharge is asked for. *)
Example C75_example_battery : regular (toyX RK4 a_cycle) (probX a_cycle) (parX a_cycle) /\ 0 <= a_on (parX a_cycle) /\ 0 <= a_off (parX a_cycle) /\
  exists o' h, ran 10 (toyX RK4 a_cycle) noX noX (probX a_cycle) o' h /\
    throttle h 2 0 /\ depleted (parX a_cycle) h 2 /\ throttle h 3 0 /\ ~ depleted (parX a_cycle) h 3 /\ recharging (parX a_cycle) h 3.
Proof. exact C75_case_battery. Qed.
Example C75_example_duty : regular (toyX RK4 a_duty) (probX a_duty) (parX a_duty) /\ 0 <= a_on (parX a_duty) /\ 0 <= a_off (parX a_duty) /\
  a_full (parX a_duty) = false /\
  exists o' h, ran 20 (toyX RK4 a_duty) noX noX (probX a_duty) o' h /\ throttle h 3 0 /\ forall k, (k < 10)%nat -> ~ depleted (parX a_duty) h k.
Proof. exact C75_case_duty. Qed.

(** C76.  With the defaults of set_problem the battery and the duty cycle never stop the thrust, whatever the thresholds ... *)
Theorem C76_default_problem_coasts_only_by_law : forall (o o' : qlaw XNum) oe0 oeT mass0 tmax mdot ea er fuel o2 p h k,
  reachable o -> q_sundman o = false -> set_problem_defaults o oe0 oeT (Fin mass0) tmax (Fin mdot) = Ok o' ->
  ran fuel o' ea er p o2 h -> throttle h k 0 -> law_coasts o' p ea er h k.
Proof. exact default_coasts. Qed.
Print Assumptions C76_default_problem_coasts_only_by_law.
(** ... and with the default thresholds a step coasts only if the law has no direction there. *)
Theorem C76_default_solve_coasts_only_on_nan : forall (o o' : qlaw XNum) oe0 oeT mass0 tmax mdot fuel o2 p h k,
  reachable o -> q_sundman o = false -> set_problem_defaults o oe0 oeT (Fin mass0) tmax (Fin mdot) = Ok o' ->
  ran fuel o' (EtaFloat eta_default) (EtaFloat eta_default) p o2 h -> throttle h k 0 ->
  exists t dt m oe, nth_error (h_times h) k = Some t /\ nth_error (h_times h) (S k) = Some (nadd (Num:=XNum) t dt) /\
    nth_error (h_masses h) k = Some m /\ nth_error (h_states h) k = Some oe /\ nan_at o' p (thrust_acc p dt m) oe.
Proof. exact default_coasts_nan. Qed.
Print Assumptions C76_default_solve_coasts_only_on_nan.
(** More generally, an on-time as long as the run and a battery that does not discharge never stop the thrust. *)
Theorem C76_unlimited_power : forall (o : qlaw XNum) p ea er a, regular o p a -> forall fuel o' h k,
  ran fuel o ea er p o' h -> Rabs (a_tf a) <= a_on a -> 0 <= a_off a -> 0 < a_ts a -> a_dis a = 0 -> 0 <= a_ch a ->
  a_lo a + 1 / 10 ^ 12 < a_b0 a -> a_lo a + 1 / 10 ^ 12 < a_hi a -> throttle h k 0 -> law_coasts o p ea er h k.
Proof. exact unlimited. Qed.
Print Assumptions C76_unlimited_power.
Example C76_example : exists o o', init_defaults (N:=XNum) = Ok o /\ reachable o /\ q_sundman o = false /\
  set_problem_defaults (N:=XNum) o [Fin 1; Fin 0; Fin 0; Fin 0; Fin 0; Fin 0] [Fin 2; Fin 0; Fin 0; Fin 0; Fin 0] (Fin 1) (Fin 1) (Fin 1) = Ok o'.
Proof. exact default_case. Qed.

(** C77.  The constructor stores what it is given, and the documented value where it is given nothing. *)
Theorem C77_constructor_stores : forall (N : Num) mu rpmin k m n r b wp et ig grid tol omin omax thr sun ptrb rf ear (o : qlaw N),
  init mu rpmin k m n r b wp et ig grid tol omin omax thr sun ptrb rf ear = Ok o ->
  q_mu o = mu /\ q_rpmin o = rpmin /\ q_k o = k /\ q_m o = m /\ q_n o = n /\ q_r o = r /\ q_b o = b /\ q_wp o = wp /\
  (et = "keplerian"%string /\ q_etype o = Keplerian \/ et = "mee_with_a"%string /\ q_etype o = MeeWithA) /\
  (ig = "rk4"%string /\ q_integ o = RK4 \/ ig = "rkf45"%string /\ q_integ o = RKF45) /\
  q_grid o = grid /\ q_nan_thr o = thr /\ q_sundman o = sun /\ q_ptrb o = ptrb /\ q_exit_relaxed o = ear /\
  vec5_to_list (q_tol o) = match tol with Some l => l | None => repeat (dec 1 3) 5 end /\
  vec5_to_list (q_tol_relaxed o) = map (nmul rf) (vec5_to_list (q_tol o)) /\
  vec5_to_list (q_oe_min o) = match omin with
    | Some v => vec5_to_list v
    | None => match q_etype o with
              | Keplerian => [dec 5 2; dec 1 4; dec 1 4; dec 1 4; dec 1 4]
              | MeeWithA => [dec 5 2; nopp ninf; nopp ninf; nopp ninf; nopp ninf] end end /\
  vec5_to_list (q_oe_max o) = match omax with
    | Some v => vec5_to_list v
    | None => match q_etype o with
              | Keplerian => [nofZ 100; dec 95 2; npi; ninf; ninf]
              | MeeWithA => [nofZ 100; nofZ 10; nofZ 10; ninf; ninf] end end /\
  q_step_min o = dec 1 4 /\ q_step_max o = nofZ 2 /\ q_ode_tol o = dec 1 5 /\
  q_problem o = None /\ q_hist o = None /\ q_converge o = false /\ q_exitcode o = 0%Z.
Proof. exact @init_stores. Qed.
Print Assumptions C77_constructor_stores.
(** set_problem stores its arguments, dropping a sixth target element, and changes nothing else. *)
Theorem C77_set_problem_stores : forall (N : Num) (o o' : qlaw N) oe0 oeT mass0 tmax mdot tf ts mm woe don doff b0 lo hi ch dis full,
  set_problem o oe0 oeT mass0 tmax mdot tf ts mm woe don doff b0 lo hi ch dis full = Ok o' ->
  exists p, o' = with_run o (Some p) (q_hist o) (q_converge o) (q_exitcode o) /\
    vec6_to_list (p_oe0 p) = oe0 /\ p_oeT p = (if Nat.eqb (length oeT) 6 then firstn 5 oeT else oeT) /\
    p_mass0 p = mass0 /\ p_tmax p = tmax /\ p_mdot p = mdot /\ p_tf_max p = tf /\ p_t_step p = ts /\ p_mass_min p = mm /\
    vec5_to_list (p_woe p) = match woe with Some l => l | None => repeat (nofZ 1) 5 end /\
    p_duty_on p = don /\ p_duty_off p = doff /\ p_batt0 p = b0 /\ p_cap_lo p = lo /\ p_cap_hi p = hi /\
    p_charge p = ch /\ p_discharge p = dis /\ p_full p = full.
Proof. exact @set_problem_stores. Qed.
Print Assumptions C77_set_problem_stores.
(** The setters change one attribute each; elements_type is a name only (C29). *)
Theorem C77_setters_store : forall (N : Num) (o : qlaw N) mu et ig,
  (forall o', set_mu o mu = Ok o' -> (q_mu o', q_etype o', q_integ o') = (mu, q_etype o, q_integ o) /\ settings o' = settings o /\ results o' = results o) /\
  (forall o', set_elements_type o et = Ok o' -> q_mu o' = q_mu o /\
    (et = "keplerian"%string /\ q_etype o' = Keplerian \/ et = "mee_with_a"%string /\ q_etype o' = MeeWithA) /\
    q_integ o' = q_integ o /\ settings o' = settings o /\ results o' = results o) /\
  (forall o', set_integrator o ig = Ok o' -> q_mu o' = q_mu o /\ q_etype o' = q_etype o /\
    (ig = "rk4"%string /\ q_integ o' = RK4 \/ ig = "rkf45"%string /\ q_integ o' = RKF45) /\ settings o' = settings o /\ results o' = results o).
Proof. exact @setters_store. Qed.
Print Assumptions C77_setters_store.
(** set_problem and solve keep every setting. *)
Theorem C77_solve_keeps_settings : forall (N : Num) fuel (o o' : qlaw N) ea er, solve fuel o ea er = Returns o' \/ (exists e, solve fuel o ea er = Raises e o') ->
  (q_mu o', q_etype o', q_integ o') = (q_mu o, q_etype o, q_integ o) /\ settings o' = settings o.
Proof. exact @solve_keeps. Qed.
Print Assumptions C77_solve_keeps_settings.
(** QLaw() and set_problem(oe0, oeT, mass0, tmax, mdot): the documented defaults (mu 1, rpmin 0.1, k 1, m 3, n 4, r 2, b 0.01,
    wp 1, equinoctial elements, rk4, 5 grid points, threshold 10, factor 10, 100 relaxed steps; tf 100000, step 0.1, minimal
    mass 0.1, weights 1, on-time 1e16, no off-time, battery 1 in [0.2, 1] without charge or discharge). *)
Theorem C77_defaults : forall (N : Num) (o1 o : qlaw N) oe0 oeT mass0 tmax mdot,
  init_defaults = Ok o1 -> set_problem_defaults o1 oe0 oeT mass0 tmax mdot = Ok o ->
  q_mu o = nofZ 1 /\ q_rpmin o = dec 1 1 /\ q_k o = nofZ 1 /\ q_m o = nofZ 3 /\ q_n o = nofZ 4 /\ q_r o = nofZ 2 /\ q_b o = dec 1 2 /\
  q_wp o = nofZ 1 /\ q_etype o = MeeWithA /\ q_integ o = RK4 /\ q_grid o = 5%nat /\ q_nan_thr o = 10%Z /\ q_sundman o = false /\
  q_ptrb o = None /\ q_exit_relaxed o = 100%Z /\ vec5_to_list (q_tol_relaxed o) = repeat (nmul (nofZ 10) (dec 1 3)) 5 /\
  exists p, q_problem o = Some p /\ p_tf_max p = nofZ 100000 /\ p_t_step p = dec 1 1 /\ p_mass_min p = dec 1 1 /\
    vec5_to_list (p_woe p) = repeat (nofZ 1) 5 /\ p_duty_on p = nofZ (10 ^ 16) /\ p_duty_off p = nofZ 0 /\ p_batt0 p = nofZ 1 /\
    p_cap_lo p = dec 2 1 /\ p_cap_hi p = nofZ 1 /\ p_charge p = nofZ 0 /\ p_discharge p = nofZ 0 /\ p_full p = false.
Proof. exact @defaults_stored. Qed.
Print Assumptions C77_defaults.
Example C77_example : exists o o', init_defaults (N:=XNum) = Ok o /\
  set_problem_defaults (N:=XNum) o [Fin 1; Fin 0; Fin 0; Fin 0; Fin 0; Fin 0] [Fin 2; Fin 0; Fin 0; Fin 0; Fin 0] (Fin 1) (Fin 1) (Fin 1) = Ok o'.
Proof. destruct default_case as (o & o' & E & _ & _ & E'). exists o, o'. auto. Qed.

(** C82.  A Keplerian run whose law exponent n_petro is not an integer and which starts below its target semimajor axis never
    thrusts: it coasts nan_angles_threshold steps along the initial orbit, draining the battery all the same, and gives up
    with code -3. *)
Theorem C82_fractional_exponent_never_thrusts : forall (o : qlaw XNum) p ea er a, let n := Z.to_nat (q_nan_thr o) in
  fractional_law o -> below_target o p -> finite_problem p a -> room_for n a -> q_problem o = Some p -> ea <> EtaOther ->
  forall fuel, (n < fuel)%nat -> exists o' h, ran fuel o ea er p o' h /\ q_exitcode o' = (-3)%Z /\ q_converge o' = q_converge o /\
    h_controls h = repeat (Fin 0, Fin 0, 0%Z) n /\ length (h_states h) = S n /\
    forall k, (k <= n)%nat -> entry (h_times h) k (INR k * a_ts a)%R /\ entry (h_masses h) k (a_mass0 a) /\
      entry (h_battery h) k (a_b0 a - a_dis a * a_ts a * INR k)%R /\
      exists z, nth_error (h_states h) k = Some z /\ slow z = slow (p_oe0 p) /\ proper_ellipse Keplerian z.
Proof. exact C82_lem. Qed.
Print Assumptions C82_fractional_exponent_never_thrusts.
(** The general statement: a law that is nan all along the initial orbit (NanSpec.nan_along), either element set. *)
Theorem C82_nan_law_gives_up : forall et (o : qlaw XNum) p ea er a, let n := Z.to_nat (q_nan_thr o) in
  plain et o -> proper_ellipse et (p_oe0 p) -> guarded o (p_oe0 p) = p_oe0 p -> nan_along o p (p_oe0 p) -> unmet_along o p (p_oe0 p) ->
  finite_problem p a -> room_for n a -> q_problem o = Some p -> ea <> EtaOther ->
  forall fuel, (n < fuel)%nat -> exists o' h, ran fuel o ea er p o' h /\ gives_up et n a p o o' h.
Proof. exact C82_nan_lem. Qed.
Print Assumptions C82_nan_law_gives_up.
Example C82_example : fractional_law o_low /\ below_target o_low p_low /\ finite_problem p_low a_low /\
  room_for (Z.to_nat (q_nan_thr o_low)) a_low /\ q_problem o_low = Some p_low.
Proof. exact C82_case. Qed.
Example C82_nan_example : plain Keplerian o_low /\ proper_ellipse Keplerian (p_oe0 p_low) /\ guarded o_low (p_oe0 p_low) = p_oe0 p_low /\
  nan_along o_low p_low (p_oe0 p_low) /\ unmet_along o_low p_low (p_oe0 p_low).
Proof. exact C82_nan_case. Qed.

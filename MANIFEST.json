{
 "claims": [
  {
   "property": "C01",
   "status": "proved",
   "theorems": [
    "C01_histories_aligned",
    "C01_first_entries"
   ],
   "note": ""
  },
  {
   "property": "C02",
   "status": "proved",
   "theorems": [
    "C02_exit1_target_met",
    "C02_exit1_check_passed"
   ],
   "note": ""
  },
  {
   "property": "C03",
   "status": "proved",
   "theorems": [
    "C03_exit2_relaxed_count",
    "C03_relaxed_tolerance"
   ],
   "note": ""
  },
  {
   "property": "C04",
   "status": "proved",
   "theorems": [
    "C04_exit_minus1_mass_out"
   ],
   "note": ""
  },
  {
   "property": "C05",
   "status": "proved",
   "theorems": [
    "C05_exit_minus2_time_out"
   ],
   "note": ""
  },
  {
   "property": "C06",
   "status": "proved",
   "theorems": [
    "C06_exit_minus3_nan_count",
    "C06_no_more_nan_steps"
   ],
   "note": "stated for a non-negative threshold; the steps counted are the recorded nan steps plus the one that stops the run"
  },
  {
   "property": "C07",
   "status": "proved",
   "theorems": [
    "C07_exit_codes_total"
   ],
   "note": ""
  },
  {
   "property": "C08",
   "status": "partial",
   "theorems": [
    "C08_resolve_reports_new_outcome_refuted",
    "C08_resolve_report_partial"
   ],
   "note": "refuted as stated; the exact report of a re-used object is proved"
  },
  {
   "property": "C09",
   "status": "proved",
   "theorems": [
    "C09_stops_at_first_converged"
   ],
   "note": ""
  },
  {
   "property": "C10",
   "status": "proved",
   "theorems": [
    "C10_mass_bookkeeping"
   ],
   "note": ""
  },
  {
   "property": "C11",
   "status": "proved",
   "theorems": [
    "C11_mass_monotone"
   ],
   "note": ""
  },
  {
   "property": "C12",
   "status": "proved",
   "theorems": [
    "C12_time_grid"
   ],
   "note": ""
  },
  {
   "property": "C13",
   "status": "proved",
   "theorems": [
    "C13_termination"
   ],
   "note": ""
  },
  {
   "property": "C14",
   "status": "proved",
   "theorems": [
    "C14_battery_within_capacity"
   ],
   "note": ""
  },
  {
   "property": "C15",
   "status": "proved",
   "theorems": [
    "C15_no_thrust_when_depleted",
    "C15_no_thrust_when_depleted_any"
   ],
   "note": ""
  },
  {
   "property": "C16",
   "status": "proved",
   "theorems": [
    "C16_full_recharge"
   ],
   "note": ""
  },
  {
   "property": "C17",
   "status": "partial",
   "theorems": [
    "C17_energy_refuted",
    "C17_energy_partial",
    "C17_energy_after_full_charge_partial"
   ],
   "note": "refuted as stated (after a partial recharge without require_full_recharge); proved with the option, and without it when the battery was full after every earlier depletion"
  },
  {
   "property": "C18",
   "status": "partial",
   "theorems": [
    "C18_battery_integration_partial",
    "C18_rkf45_wrong_everywhere",
    "C18_battery_integration_refuted",
    "C18_exact_update"
   ],
   "note": "refuted for rkf45; proved for rk4"
  },
  {
   "property": "C19",
   "status": "proved",
   "theorems": [
    "C19_truncation",
    "C19_no_division_by_zero"
   ],
   "note": ""
  },
  {
   "property": "C20",
   "status": "proved",
   "theorems": [
    "C20_duty_on_limit"
   ],
   "note": ""
  },
  {
   "property": "C21",
   "status": "proved",
   "theorems": [
    "C21_duty_off_rest"
   ],
   "note": ""
  },
  {
   "property": "C22",
   "status": "proved",
   "theorems": [
    "C22_coasting_preserves_slow_elements",
    "C22_on_ellipses",
    "C22_rk4_stays_on_ellipse",
    "C22_default_bounds"
   ],
   "note": ""
  },
  {
   "property": "C23",
   "status": "proved",
   "theorems": [
    "C23_effectivity_gate"
   ],
   "note": ""
  },
  {
   "property": "C24",
   "status": "partial",
   "theorems": [
    "C24_eta_a_rejected_partial",
    "C24_wrong_eta_r_means_no_threshold",
    "C24_eta_r_rejected_refuted"
   ],
   "note": "eta_a is rejected, eta_r is not"
  },
  {
   "property": "C25",
   "status": "partial",
   "theorems": [
    "C25_depleted_start_refuted",
    "C25_depleted_start_never_returns",
    "C25_charged_start_partial"
   ],
   "note": "refuted; the exact region where it holds is proved"
  },
  {
   "property": "C26",
   "status": "partial",
   "theorems": [
    "C26_oe0_after_solve_partial",
    "C26_oe0_unmodified_refuted"
   ],
   "note": "refuted for Keplerian elements; exact contents of the array afterwards proved for both element sets"
  },
  {
   "property": "C27",
   "status": "proved",
   "theorems": [
    "C27_keplerian_states_safeguarded",
    "C27_in_range"
   ],
   "note": ""
  },
  {
   "property": "C28",
   "status": "proved",
   "theorems": [
    "C28_constructor_validates",
    "C28_set_problem_validates",
    "C28_solve_needs_problem",
    "C28_setters_validate"
   ],
   "note": ""
  },
  {
   "property": "C29",
   "status": "partial",
   "theorems": [
    "C29_object_consistent_partial",
    "C29_elements_type_setter_refuted"
   ],
   "note": "refuted after assignment to elements_type; proved for every other sequence of calls"
  },
  {
   "property": "C30",
   "status": "partial",
   "theorems": [
    "C30_forward_partial",
    "C30_backward_partial",
    "C30_backward_refuted"
   ],
   "note": "forward in time proved for both element sets; refuted backward, where strongest and weakest are exchanged (exact behaviour proved)"
  },
  {
   "property": "C31",
   "status": "partial",
   "theorems": [
    "C31_forward_partial",
    "C31_formula_partial",
    "C31_backward_partial",
    "C31_backward_refuted"
   ],
   "note": "proved for t_step > 0 against two-body motion; refuted for -2 pi < t_step <= 0, where the step is positive (exact formula proved)"
  },
  {
   "property": "C32",
   "status": "partial",
   "theorems": [
    "C32_backward_time",
    "C32_backward_duty_never_enforced",
    "C32_backward_duty_refuted"
   ],
   "note": "time and propellant proved; duty-cycle part refuted"
  },
  {
   "property": "C33",
   "status": "proved",
   "theorems": [
    "C33_thrust_is_steepest_descent"
   ],
   "note": "any control law, any gradient with non-zero in-plane part"
  },
  {
   "property": "C34",
   "status": "partial",
   "theorems": [
    "C34_singular_gradient_coasts_partial",
    "C34_normal_gradient_raises_refuted",
    "C34_infinite_normal_refuted"
   ],
   "note": "proved for zero, nan and in-plane infinite gradients; refuted for gradients without in-plane part (ZeroDivisionError)"
  },
  {
   "property": "C35",
   "status": "partial",
   "theorems": [
    "C35_keplerian_Q",
    "C35_equinoctial_Q",
    "C35_keplerian_noninteger_power_refuted"
   ],
   "note": "both laws; for the Keplerian law the hypothesis power_ok is needed, and Q is nan without it (refuted)"
  },
  {
   "property": "C36",
   "status": "proved",
   "theorems": [
    "C36_keplerian_gradient",
    "C36_equinoctial_gradient"
   ],
   "note": "both laws, on the explicit set where every operation in Q is differentiable"
  },
  {
   "property": "C37",
   "status": "proved",
   "theorems": [
    "C37_keplerian_rate",
    "C37_equinoctial_rate"
   ],
   "note": "both laws, on the set of C36"
  },
  {
   "property": "C38",
   "status": "proved",
   "theorems": [
    "C38_keplerian_normalisers"
   ],
   "note": "all five elements; argument of periapsis through the cubic for the optimal anomaly"
  },
  {
   "property": "C39",
   "status": "partial",
   "theorems": [
    "C39_equinoctial_shape_partial",
    "C39_h_k_partial",
    "C39_f_g_partial",
    "C39_equinoctial_normalisers_refuted"
   ],
   "note": "refuted; exact conditions proved: a always right, h iff f<=0, k iff g<=0, f iff g=0, g never"
  },
  {
   "property": "C40",
   "status": "proved",
   "theorems": [
    "C40_keplerian_motion"
   ],
   "note": "psi is the one the control law returns for the same state; kep2sv is the modelled function"
  },
  {
   "property": "C41",
   "status": "partial",
   "theorems": [
    "C41_equinoctial_motion_partial",
    "C41_wrong_for_every_negative_f",
    "C41_equinoctial_motion_refuted",
    "C41_raises_at_f_zero"
   ],
   "note": "proved for f > 0; refuted for every f < 0 (a-rate wrong because of atan(g/f)); f = 0 raises ZeroDivisionError"
  },
  {
   "property": "C42",
   "status": "partial",
   "theorems": [
    "C42_keplerian_free_motion",
    "C42_equinoctial_free_motion_partial",
    "C42_equinoctial_free_motion_refuted"
   ],
   "note": "Keplerian in full; equinoctial for f <> 0, refuted at f = 0 (ZeroDivisionError)"
  },
  {
   "property": "C43",
   "status": "proved",
   "theorems": [
    "C43_rk4_cubic",
    "C43_quartic_is_the_primitive",
    "C43_rk4_linear"
   ],
   "note": ""
  },
  {
   "property": "C44",
   "status": "partial",
   "theorems": [
    "C44_constant_rate_refuted",
    "C44_weight",
    "C44_exact_step_refuted",
    "C44_no_constant_rate_is_integrated_exactly"
   ],
   "note": "refuted: the stage weights do not sum to one, and zero rates divide by zero; the exact result is proved"
  },
  {
   "property": "C45",
   "status": "partial",
   "theorems": [
    "C45_rk4_fourth_order_refuted",
    "C45_rk4_step_is_euler_partial"
   ],
   "note": "refuted by an explicit solution of the Gauss equations: error of one step at least dt^2; slow elements take an explicit Euler step (proved)"
  },
  {
   "property": "C46",
   "status": "proved",
   "theorems": [
    "C46_kep2sv_orbit"
   ],
   "note": ""
  },
  {
   "property": "C47",
   "status": "proved",
   "theorems": [
    "C47_keplerian_round_trip"
   ],
   "note": "for orbits whose node line and eccentricity vector pass the code's own 1e-12 threshold"
  },
  {
   "property": "C48",
   "status": "partial",
   "theorems": [
    "C48_keplerian_mee_keplerian_partial",
    "C48_mee_keplerian_mee_partial",
    "C48_mee_with_a_keplerian_partial",
    "C48_equatorial_refuted"
   ],
   "note": "proved where the conversion keeps the periapsis direction (exact condition periapsis_kept); refuted for equatorial orbits"
  },
  {
   "property": "C49",
   "status": "proved",
   "theorems": [
    "C49_mee_to_a_and_back",
    "C49_a_to_mee_and_back",
    "C49_kep2mee_with_a_composed"
   ],
   "note": ""
  },
  {
   "property": "C50",
   "status": "partial",
   "theorems": [
    "C50_mee_state_partial",
    "C50_equatorial_refuted"
   ],
   "note": "proved for inclined orbits; refuted for equatorial orbits"
  },
  {
   "property": "C51",
   "status": "proved",
   "theorems": [
    "C51_eccentric_anomaly",
    "C51_eccentric_anomaly_mee"
   ],
   "note": "away from the half-turn where tan is undefined"
  },
  {
   "property": "C52",
   "status": "proved",
   "theorems": [
    "C52_vis_viva",
    "C52_orbital_period"
   ],
   "note": ""
  },
  {
   "property": "C53",
   "status": "proved",
   "theorems": [
    "C53_orbit_samples"
   ],
   "note": ""
  },
  {
   "property": "C54",
   "status": "proved",
   "theorems": [
    "C54_keplerian_convergence",
    "C54_mee_convergence"
   ],
   "note": ""
  },
  {
   "property": "C55",
   "status": "proved",
   "theorems": [
    "C55_relaxed_is_weaker"
   ],
   "note": ""
  },
  {
   "property": "C56",
   "status": "proved",
   "theorems": [
    "C56_clamping"
   ],
   "note": ""
  },
  {
   "property": "C57",
   "status": "partial",
   "theorems": [
    "C57_wrap_range_partial",
    "C57_same_angle_refuted",
    "C57_wrong_on_interval"
   ],
   "note": "the range is proved; the value is a different angle on an interval (refuted)"
  },
  {
   "property": "C58",
   "status": "proved",
   "theorems": [
    "C58_third_body"
   ],
   "note": ""
  },
  {
   "property": "C59",
   "status": "partial",
   "theorems": [
    "C59_J2_gradient_partial",
    "C59_J2_gradient_refuted"
   ],
   "note": "refuted (5 z^2 instead of 5 z^2/r^2); proved on the unit sphere and in the equatorial plane"
  },
  {
   "property": "C60",
   "status": "proved",
   "theorems": [
    "C60_solar_pressure"
   ],
   "note": ""
  },
  {
   "property": "C61",
   "status": "proved",
   "theorems": [
    "C61_rtn_frame"
   ],
   "note": ""
  },
  {
   "property": "C62",
   "status": "partial",
   "theorems": [
    "C62_assembly_partial",
    "C62_unknown_type_rejected",
    "C62_given_constants",
    "C62_no_third_bodies_refuted"
   ],
   "note": "proved for lists of bodies, including the empty list; refuted for third_bodies_names=None, which the constructor accepts"
  },
  {
   "property": "C63",
   "status": "proved",
   "theorems": [
    "C63_sphere",
    "C63_ellipsoid",
    "C63_sphere_grid",
    "C63_ellipsoid_grid"
   ],
   "note": ""
  },
  {
   "property": "C64",
   "status": "proved",
   "theorems": [
    "C64_equal_axes",
    "C64_exact_limits"
   ],
   "note": ""
  },
  {
   "property": "C65",
   "status": "partial",
   "theorems": [
    "C65_saved_lengths",
    "C65_saved_controls",
    "C65_saved_angles",
    "C65_saved_states_equinoctial_partial",
    "C65_saved_states_keplerian_partial",
    "C65_saved_states_refuted"
   ],
   "note": "lengths and controls proved; states proved for equinoctial elements inside the unit disc; refuted for Keplerian elements (mee_with_a2mee applied to Keplerian states), exact content proved"
  },
  {
   "property": "C66",
   "status": "partial",
   "theorems": [
    "C66_columns_partial",
    "C66_columns_refuted",
    "C66_steps_bounded",
    "C66_steps_value",
    "C66_interpolated",
    "C66_short_run_cannot_be_drawn"
   ],
   "note": "columns are right exactly when the conversion keeps the periapsis direction (always for Keplerian elements), refuted otherwise; default sample count bounded and its value proved; interpolation through an oracle"
  },
  {
   "property": "C67",
   "status": "partial",
   "theorems": [
    "C67_circular_start_raises_refuted",
    "C67_circular_start_raises_partial",
    "C67_circular_start_threshold_zero_partial"
   ],
   "note": "refuted: the run ends in ZeroDivisionError instead of exit code -3, unless the threshold is zero (exact behaviour proved for both cases)"
  },
  {
   "property": "C68",
   "status": "proved",
   "theorems": [
    "C68_mee_gauss_motion"
   ],
   "note": "textbook Cartesian state of equinoctial elements"
  },
  {
   "property": "C69",
   "status": "partial",
   "theorems": [
    "C69_battery_curve",
    "C69_Q_curves",
    "C69_control_curves",
    "C69_efficiency_curves_partial",
    "C69_efficiency_curves_refuted"
   ],
   "note": "battery, Q and control curves for every run; efficiency curves for every run with at least one step, refuted for a run without steps"
  },
  {
   "property": "C70",
   "status": "partial",
   "theorems": [
    "C70_element_curves_partial",
    "C70_periapsis_condition_partial",
    "C70_periapsis_refuted",
    "C70_to_keplerian"
   ],
   "note": "proved with the exact condition under which the periapsis curve is the periapsis radius; refuted for equinoctial elements without conversion"
  },
  {
   "property": "C71",
   "status": "partial",
   "theorems": [
    "C71_control_steps_refuted",
    "C71_control_steps_shifted_partial"
   ],
   "note": "refuted: with where='pre' each control is drawn over the interval before it; that shifted statement is proved"
  },
  {
   "property": "C72",
   "status": "partial",
   "theorems": [
    "C72_printed_errors_partial",
    "C72_printed_errors_refuted"
   ],
   "note": "within tolerance for weighted elements: all five equinoctial, the first three Keplerian; refuted for the Keplerian angles across a turn"
  },
  {
   "property": "C73",
   "status": "proved",
   "theorems": [
    "C73_recorded_steps_are_flown",
    "C73_coasting_angles"
   ],
   "note": ""
  },
  {
   "property": "C74",
   "status": "proved",
   "theorems": [
    "C74_thrust_is_steepest"
   ],
   "note": "for any control law; the gradient is the vector the law returns"
  },
  {
   "property": "C75",
   "status": "proved",
   "theorems": [
    "C75_coast_has_a_reason"
   ],
   "note": "finite parameters, no Sundman steps; non-negative duty cycle"
  },
  {
   "property": "C76",
   "status": "proved",
   "theorems": [
    "C76_default_problem_coasts_only_by_law",
    "C76_default_solve_coasts_only_on_nan",
    "C76_unlimited_power"
   ],
   "note": "finite mass and mass-flow rate, no Sundman steps"
  },
  {
   "property": "C77",
   "status": "proved",
   "theorems": [
    "C77_constructor_stores",
    "C77_set_problem_stores",
    "C77_setters_store",
    "C77_solve_keeps_settings",
    "C77_defaults"
   ],
   "note": ""
  },
  {
   "property": "C78",
   "status": "partial",
   "theorems": [
    "C78_linear_partial",
    "C78_time_only_partial",
    "C78_comparison_quadrature",
    "C78_order_refuted"
   ],
   "note": "refuted (error of one step at least h^2/5 on a linear system, because stage increments carry the step twice); exact result and suggested step proved for linear systems and time-only rates"
  },
  {
   "property": "C79",
   "status": "partial",
   "theorems": [
    "C79_figure_2d_partial",
    "C79_figure_3d_partial",
    "C79_far_points_are_cut_off",
    "C79_target_in_view_refuted"
   ],
   "note": "curves and limits proved for ellipses whose periapsis direction the conversion keeps; refuted: the target orbit can lie outside the 3D limits"
  },
  {
   "property": "C80",
   "status": "proved",
   "theorems": [
    "C80_are_rotations",
    "C80_angles"
   ],
   "note": ""
  },
  {
   "property": "C81",
   "status": "partial",
   "theorems": [
    "C81_units_partial",
    "C81_units_refuted"
   ],
   "note": "proved without J2, or on the equator, or at distance one LU; refuted with J2 elsewhere (5z^2); bodies given by name, their GMs from SPICE"
  },
  {
   "property": "C82",
   "status": "proved",
   "theorems": [
    "C82_fractional_exponent_never_thrusts",
    "C82_nan_law_gives_up"
   ],
   "note": ""
  },
  {
   "property": "C83",
   "status": "partial",
   "theorems": [
    "C83_units",
    "C83_rkf45_refuted"
   ],
   "note": "proved with rk4; refuted with rkf45 (one step of y' = y); the battery's unit of charge is not converted (its tolerance 1e-12 is absolute)"
  },
  {
   "property": "C84",
   "status": "partial",
   "theorems": [
    "C84_keplerian_turns",
    "C84_longitude_turns",
    "C84_default_bounds_refuted",
    "C84_equinoctial_axes_refuted",
    "C84_equinoctial_axes"
   ],
   "note": "proved for Keplerian runs and for whole turns of the true longitude; refuted for default bounds and for turned axes in the equinoctial law"
  },
  {
   "property": "C85",
   "status": "proved",
   "theorems": [
    "C85_propellant_is_burn_time",
    "C85_rocket_equation",
    "C85_rocket_equation_backward",
    "C85_tank_bounds_run"
   ],
   "note": ""
  },
  {
   "property": "C86",
   "status": "proved",
   "theorems": [
    "C86_every_state_has_elements",
    "C86_state_round_trip",
    "C86_equatorial_round_trip",
    "C86_orbit_kept",
    "C86_circular_refuted",
    "C86_retrograde_refuted",
    "C86_units_refuted"
   ],
   "note": ""
  },
  {
   "property": "C87",
   "status": "proved",
   "theorems": [
    "C87_stopping_only_cuts",
    "C87_later_final_time"
   ],
   "note": ""
  },
  {
   "property": "C88",
   "status": "proved",
   "theorems": [
    "C88_only_ratios_of_weights"
   ],
   "note": ""
  },
  {
   "property": "C89",
   "status": "proved",
   "theorems": [
    "C89_decisions_ignore_force",
    "C89_force_scales_q"
   ],
   "note": ""
  },
  {
   "property": "C90",
   "status": "proved",
   "theorems": [
    "C90_regular_law_finite",
    "C90_regular_iteration_thrusts",
    "C90_regular_iteration_thresholds",
    "C90_nan_exit_is_singular",
    "C90_nan_exit_forward"
   ],
   "note": ""
  },
  {
   "property": "C91",
   "status": "partial",
   "theorems": [
    "C91_equinoctial_partial",
    "C91_keplerian_shape_partial",
    "C91_keplerian_angles_partial",
    "C91_zero_weight_refuted"
   ],
   "note": "Proved for equinoctial elements, for Keplerian eccentricity and inclination, and for Keplerian angles while no recorded state is exactly at or opposite a target; refuted for states on an angle target. The semimajor axis target is not covered (its power function can be nan whatever the weight)."
  },
  {
   "property": "C92",
   "status": "proved",
   "theorems": [
    "C92_on_angle_never_thrusts"
   ],
   "note": ""
  },
  {
   "property": "C93",
   "status": "proved",
   "theorems": [
    "C93_runs_can_be_taken_up",
    "C93_stock_is_steady",
    "C93_unlimited_is_powered",
    "C93_duty_cycle_refuted",
    "C93_full_recharge_refuted"
   ],
   "note": ""
  },
  {
   "property": "C94",
   "status": "proved",
   "theorems": [
    "C94_keplerian_short_step",
    "C94_equinoctial_short_step",
    "C94_long_step_refuted"
   ],
   "note": ""
  },
  {
   "property": "C95",
   "status": "proved",
   "theorems": [
    "C95_thresholds_act_on_throttle",
    "C95_stricter_switches_off",
    "C95_idle_thresholds",
    "C95_greater_is_stricter",
    "C95_not_positive_is_idle"
   ],
   "note": ""
  },
  {
   "property": "C96",
   "status": "proved",
   "theorems": [
    "C96_mirror",
    "C96_keplerian_elements",
    "C96_equinoctial_elements",
    "C96_same_reflection"
   ],
   "note": ""
  },
  {
   "property": "C97",
   "status": "proved",
   "theorems": [
    "C97_stays_in_plane"
   ],
   "note": ""
  },
  {
   "property": "C98",
   "status": "proved",
   "theorems": [
    "C98_pull_in_plane",
    "C98_perturbed_run_in_plane",
    "C98_mirrored_sky",
    "C98_floats",
    "C98_mirrored_object"
   ],
   "note": ""
  },
  {
   "property": "C99",
   "status": "proved",
   "theorems": [
    "C99_stays_in_plane",
    "C99_equinoctial_refuted"
   ],
   "note": ""
  },
  {
   "property": "C100",
   "status": "partial",
   "theorems": [
    "C100_nan_stays_partial",
    "C100_nan_replaced",
    "C100_keplerian_refuted"
   ],
   "note": "refuted for Keplerian elements, whose bounds replace nan by numbers (exact replacement proved); proved for equinoctial elements"
  },
  {
   "property": "C101",
   "status": "proved",
   "theorems": [
    "C101_printing_changes_nothing"
   ],
   "note": ""
  },
  {
   "property": "C102",
   "status": "partial",
   "theorems": [
    "C102_last_line_is_the_verdict_partial",
    "C102_used_object_refuted",
    "C102_second_timeout_refuted"
   ],
   "note": "refuted on re-used objects (a time-out after a converged run announces success; a second time-out is silent); proved on fresh objects"
  },
  {
   "property": "C103",
   "status": "proved",
   "theorems": [
    "C103_transcript",
    "C103_rows_are_history"
   ],
   "note": ""
  },
  {
   "property": "C104",
   "status": "partial",
   "theorems": [
    "C104_pretty_shows_the_problem_partial",
    "C104_after_solve_refuted"
   ],
   "note": "refuted after a Keplerian solve (the safeguarded start is shown); proved after set_problem"
  },
  {
   "property": "C105",
   "status": "partial",
   "theorems": [
    "C105_double_arithmetic",
    "C105_times_never_decrease_partial",
    "C105_times_strictly_increase_refuted"
   ],
   "note": "never decreasing is proved; strictly increasing is refuted (a shortened step below half an ulp repeats the time)"
  },
  {
   "property": "C106",
   "status": "partial",
   "theorems": [
    "C106_mass_never_increases_partial",
    "C106_thrust_burns_refuted"
   ],
   "note": "never increasing is proved; strict decrease in thrusting steps is refuted"
  },
  {
   "property": "C107",
   "status": "proved",
   "theorems": [
    "C107_battery_within_capacity",
    "C107_battery_is_a_number",
    "C107_no_division_by_zero"
   ],
   "note": ""
  },
  {
   "property": "C108",
   "status": "proved",
   "theorems": [
    "C108_keplerian_bounds"
   ],
   "note": ""
  },
  {
   "property": "C109",
   "status": "partial",
   "theorems": [
    "C109_times_exact_partial",
    "C109_step_count_partial",
    "C109_step_count_refuted",
    "C109_schedule_refuted"
   ],
   "note": "proved for steps on a binary grid; refuted for t_step = 0.1 (extra step, shorter duty window)"
  },
  {
   "property": "C110",
   "status": "proved",
   "theorems": [
    "C110_on_time",
    "C110_off_time"
   ],
   "note": ""
  },
  {
   "property": "C111",
   "status": "partial",
   "theorems": [
    "C111_terminates_partial",
    "C111_time_advances_partial",
    "C111_overshoot",
    "C111_stuck",
    "C111_terminates_refuted"
   ],
   "note": "proved when the duration is at most 2^53 times a power of two below the step and the battery is not discharged; refuted beyond (time stops at 2^53 steps)"
  },
  {
   "property": "C112",
   "status": "proved",
   "theorems": [
    "C112_file_is_result",
    "C112_no_path",
    "C112_unambiguous",
    "C112_content"
   ],
   "note": ""
  },
  {
   "property": "C113",
   "status": "partial",
   "theorems": [
    "C113_failed_save_partial",
    "C113_failed_save_refuted"
   ],
   "note": "refuted: a failed save destroys the earlier file; what it leaves is described exactly"
  },
  {
   "property": "C114",
   "status": "proved",
   "theorems": [
    "C114_settings_shown",
    "C114_type_assigned"
   ],
   "note": ""
  },
  {
   "property": "C115",
   "status": "partial",
   "theorems": [
    "C115_battery_ends_partial",
    "C115_battery_progress_partial",
    "C115_battery_ends_refuted",
    "C115_small_battery_refuted"
   ],
   "note": "proved when the duty cycle does not rest before tf_max, one step cannot empty a full battery and the duration is at most 2^53 times a power of two below the step; refuted without either of the first two"
  },
  {
   "property": "C116",
   "status": "proved",
   "theorems": [
    "C116_duty_budget",
    "C116_propellant_budget"
   ],
   "note": ""
  },
  {
   "property": "C117",
   "status": "partial",
   "theorems": [
    "C117_energy_budget_partial",
    "C117_energy_budget_refuted"
   ],
   "note": "proved with rk4 and require_full_recharge; refuted without full recharge; for rkf45 see C18"
  },
  {
   "property": "C118",
   "status": "proved",
   "theorems": [
    "C118_only_at_step_starts",
    "C118_empty_model_is_none"
   ],
   "note": ""
  },
  {
   "property": "C119",
   "status": "proved",
   "theorems": [
    "C119_times",
    "C119_step_count"
   ],
   "note": ""
  },
  {
   "property": "C120",
   "status": "proved",
   "theorems": [
    "C120_masses"
   ],
   "note": ""
  },
  {
   "property": "C121",
   "status": "proved",
   "theorems": [
    "C121_times",
    "C121_masses",
    "C121_battery",
    "C121_only_the_law_coasts"
   ],
   "note": ""
  },
  {
   "property": "C122",
   "status": "proved",
   "theorems": [
    "C122_times",
    "C122_steps"
   ],
   "note": ""
  },
  {
   "property": "C123",
   "status": "proved",
   "theorems": [
    "C123_above_the_floor",
    "C123_last_mass",
    "C123_never_negative"
   ],
   "note": ""
  },
  {
   "property": "C124",
   "status": "proved",
   "theorems": [
    "C124_times",
    "C124_masses",
    "C124_steps"
   ],
   "note": ""
  }
 ]
}

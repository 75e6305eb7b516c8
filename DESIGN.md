# Formal model of pyqlaw in Rocq (Coq 8.16.1)

`properties.jsonl` states the properties in words, `rocq/theories/Prop_*.v` states them as theorems,
`MANIFEST.json` connects the two, `seeded/LOG.jsonl` records the wrong programs the theorems were tested against.
This file says what is modelled, how each property is proved, and what has to be trusted.

Contents: 1 approach, 2 layout, 3 what is modelled and what is not, 4 simplifications, 5 properties one by one,
6 trusted base, 7 findings, 8 tools and mutation testing.

## 1. Approach

* The Python code is transcribed function by function into Gallina, **once**, over a record `Num` of numeric
  operations without laws (`Num.v`).  Every definition cites its file and lines.  Exceptions are values (`Res`, `Base.v`);
  a scalar division inside a numba-jitted function is `jdiv`, which raises `ZeroDivisionError` as numba's default error
  model does.  Theorems are proved at four levels:
  1. *law-free*, for every `Num`, hence also for IEEE doubles: control flow of `solve`, exit codes, histories, thrust
     gating, argument validation, aliasing, what a recorded step is;
  2. over `XNum` = extended reals `Fin r | PInf | MInf | NaN` (exact arithmetic, nan propagation and comparisons as in
     numpy): time, mass, battery and duty-cycle arithmetic of `solve`, nan behaviour of the control law;
  3. over `RNum` = Coq's reals: conversions, dynamics, integrators, symbolic Q-law, effectivities, perturbations, plots.
     Division by zero is not used silently: where the code raises, the model returns `Err`; where numpy would give nan or
     inf (array division), the theorems have hypotheses that exclude it or are stated over `XNum`;
  4. over `FNum L` = IEEE binary64 with rounding (`Float64.v`, on the standard library's `SpecFloat`; `L` is any library
     of elementary functions): the bookkeeping of `solve` as it is executed (C105-C111, C115, C119-C124).
* The object `QLaw` is a record; its function-valued attributes (`eom`, `lyap_fun`, `dqdt_fun`, `check_convergence`,
  `perturbations`) are Coq functions, as they are attributes in Python.  Theorems about `solve` quantify over all such
  functions unless they say otherwise; `init` is the constructor that installs the concrete ones.
* `while` loops are recursion on fuel.  Running out of fuel is the outcome `Running`, which no theorem treats as a
  result: `ran` requires `Returns`.  Termination is its own theorem (C13).
* sympy: Q is a syntax tree (`Symbolic.v`), `sym.diff` is a Coq function on trees and `lambdify` is evaluation.  That
  `diff` computes the derivative is proved (`DiffProofs.v`), on the set where every operation in the tree is differentiable.
* Each `Prop_*.v` file has only theorems (`exact lemma`), `Print Assumptions` and `Example`s that exhibit a case meeting
  the hypotheses.  The vocabulary of the statements is in the `*Spec.v` files and does not use model helpers beyond the
  function the theorem is about; proofs are in the other files.
* Names: `…_refuted` has a witness against the property as stated; `…_partial` is a true statement weaker than the
  property, whose full statement is in the comment above it.

## 2. Layout of rocq/theories

| files | content |
|---|---|
| Num, Base | numeric structure and its exact instances; exceptions, vectors, numpy helpers |
| Elements, Convergence, Integrate, Eom, Lyapunov, Symbolic, SymKep, SymMee, Perturb, PlotHelper, Qlaw, Export, Json, Report, PlotMethods | the model |
| Float64 | the instance for IEEE doubles |
| Spec, XSpec, RSpec, LawSpec, MaxSpec, GaussSpec, EffSpec, ExportSpec, RunSpec, FehlSpec, TrajSpec, UnitSpec, ScaleSpec, TurnSpec, DvSpec, InvSpec, CutSpec, WeightSpec, FinSpec, EllSpec, NanSpec, ZeroSpec, RestartSpec, EtaSpec, MirrorSpec, SkySpec, PlaneSpec, ReportSpec, FloatSpec, JsonSpec, LocalSpec, ErrSpec, BackSpec | vocabulary of the statements |
| Trace, SolveProofs, ExitProofs, GateProofs, StateProofs, RunProofs, ReportProofs, SettingsProofs, JsonProofs, LocalProofs | invariants of `solve`, law-free |
| XTrace, XProofs, XSolve, XReason, XEnergy, CoastProofs, BudgetProofs, NanCount, RunDefaults | invariants of `solve` over extended reals |
| FloatProofs, FloatMono | rounding in binary64: signs, exact cases, nearest and monotone |
| FloatRun, FloatDuty, FloatTerm, FloatBatt, FloatErr, FloatBack, FloatMirror, FloatFloor, FloatSame | invariants, duty cycle, termination, accumulated rounding and backward runs of `solve` in doubles |
| RMath, RLib, ElemProofs, …, the other *Proofs files | analysis and trigonometry over the reals |
| Sim, Runs, XRuns, EffRuns, SundRuns, MaxRuns, GateRuns, ExportRuns, RunRuns, RunReals, TrajRuns, FinRuns, ZeroCase, ReportRuns, FloatRuns, FloatTermRuns, FloatBattRuns, FloatErrRuns, FloatBackRuns, FloatMirrorRuns, FloatFloorRuns, FloatSameRuns, JsonRuns, NanCountRuns | concrete runs used as examples and witnesses |
| Prop_* | the theorems named in MANIFEST.json |

`Sim.v` runs the bookkeeping of `solve` on rational data (`QNum`, `vm_compute`) and transfers the result to `XNum` by a
proved simulation, so the examples over the extended reals are complete runs and not assumptions.

## 3. What is modelled

| source | modelled | not modelled |
|---|---|---|
| `_transformations.py` | everything | |
| `_elements.py` | everything | |
| `_convergence.py` | everything, including that `elements_safety` writes into its argument | |
| `_integrate.py` | everything | |
| `_eom.py` | all three right-hand sides | |
| `_lyapunov.py` | everything | |
| `_symbolic.py` | both Q expressions, their derivatives, psi, D, dqdt, argument order of the lambdified functions | `cse`, printing to files; how sympy simplifies (see 4) |
| `_perturbations.py` | the four functions; `SpicePerturbations` constructor and `get_perturbations_RTN` | SPICE itself: `spkpos`, `pxform`, `bodvrd`, `convrt` are arbitrary functions |
| `_plot_helper.py` | coordinates of sphere and ellipsoid, `set_equal_axis` | the matplotlib calls |
| `_plot_methods.py` | data, limits and order of the curves of `plot_elements_history`, `plot_battery_history`, `plot_controls`, `plot_efficiency`, `plot_Q`, `plot_trajectory_2d/3d`; meaning of `step(where=…)` | pixels, colours, labels, figure objects |
| `_qlaw.py` | constructor, setters, `set_problem`, `solve` with every branch, `evaluate_osculating_qdot`, `interpolate_states`, `get_cartesian_history`, `pretty`, `pretty_results` and `pretty_settings` (values), the lines printed by `solve`, `save_to_dict` (values, and the file as JSON tokens), `NumpyEncoder` | number formatting, layout of the JSON text, failing file operations, `tqdm`, `scipy.interpolate.interp1d` (an arbitrary function) |

Also outside: numba compilation, numpy itself, Python's object model beyond the aliasing of `oe0`/`oe_iter`, the scripts
in `examples`, `dev`, `experiments` and `docs`.

## 4. Simplifications

* **Rounding.**  `XNum` and `RNum` are exact.  Law-free theorems hold for floating point as they stand, C105-C111,
  C115 and C119-C124 are about doubles; the others hold for the real-number reading of the code.  In `FNum` nan has no sign or payload, and
  decimal literals such as 1e-12 are one correctly rounded division, 1/10^12, which is the double nearest the literal.
* **sympy's automatic simplification.**  sympy may cancel factors in the derivative it builds (for example
  `(a-aT)**2/(a-aT)`), so at points where the derivative tree of the model divides 0 by 0 the generated code may have a
  value.  No theorem depends on the value of `diff` at such points: C36, C37, C30 exclude them, and C67 needs only
  that `atan(g/f)` in psi is nan at f = g = 0, which sympy does not rewrite, C82 only that dQ/da still contains the
  power of `(a-aT)/(m*aT)` from Q, and C91 (refutation) and C92 that the derivative of `acos(cos(x))` is kept as
  `sin(x)/sqrt(1-cos(x)**2)`, whose sign depends on x so that there is nothing to cancel.
* **`lambdify` without numba.**  The generated functions are plain Python on numpy scalars, so their divisions do not raise
  (`ndiv`), unlike those of the jitted functions (`jdiv`).  A subexpression of Python floats only, `1/r_petro` with
  `r_petro = 0`, would raise; no theorem has this case.  Element vectors are numpy arrays, not lists.
* **`min` and `max` in jitted code** keep their first argument unless the second is strictly smaller or greater, as in
  Python; C27 and C100 depend on this for nan.
* **Thresholds given as callables** are pure functions of (t, oe, mass, battery).
* **`np.sum(check_array)==len(tol_oe)`** is kept as a count; arrays of fixed length are records.
* **`atan2`, `pow`, `%` with infinite arguments** are collapsed to nan in `XNum`; no theorem reaches them.
* **IndexError** for targets with fewer than five entries is `Err IndexError`; negative Python indices do not occur.
* **Unit scaling of axes, strings of labels, file paths** are arguments that do not influence the modelled values.

## 5. Properties

**C01 Result histories are aligned** (proved). Law-free. A trace relation (`Trace.v`) lists the loop iterations of a run; the histories are shown to be projections of it, so their lengths agree on every exit path. Holds for every control law, dynamics and number type.  
Theorems: `C01_histories_aligned`, `C01_first_entries`.

**C02 Exit code 1 means the target is met** (proved). Law-free for the control flow (a fresh object ends with code 1 only through the strict check on the last state); the check is unfolded to the tolerance statement of the specification (angles modulo a turn).  
Theorems: `C02_exit1_target_met`, `C02_exit1_check_passed`.

**C03 Exit code 2 means the relaxed target was met the configured number of times** (proved). Law-free. The relaxed counter equals the number of raw states meeting the relaxed check; the last one is among them; none met the strict one. The relaxed tolerance is the factor times the tolerance.  
Theorems: `C03_exit2_relaxed_count`, `C03_relaxed_tolerance`.

**C04 Exit code -1 means mass ran out** (proved). Law-free. Break branch for mass; all earlier post-step masses are above the floor.  
Theorems: `C04_exit_minus1_mass_out`.

**C05 Exit code -2 means time ran out** (proved). Law-free. The loop guard is false at the end and no break was taken.  
Theorems: `C05_exit_minus2_time_out`.

**C06 Exit code -3 means the control law returned nan too often** (proved). Law-free. The nan counter is the number of thrust-enabled steps whose law answers nan. NanCount adds the converse: rows at which neither battery nor recharge nor duty cycle stands against thrust (the reasons of C75) and the law answers nan are at most nan_angles_threshold in any run, so the count is exact.  
Theorems: `C06_exit_minus3_nan_count`, `C06_no_more_nan_steps`.

**C07 Exit code classification is total and agrees with converge** (proved). Law-free. Case analysis over the exits of the loop.  
Theorems: `C07_exit_codes_total`.

**C08 Re-solving reports the new outcome** (partial). Refuted with two successive runs on one object (the second reports code and flag of the first); the exact report of a re-used object is proved: the flag is never cleared, and "time ran out" is masked by the previous code.  
Theorems: `C08_resolve_reports_new_outcome_refuted`, `C08_resolve_report_partial`.

**C09 solve() stops at the first converged state** (proved). Law-free induction on the trace.  
Theorems: `C09_stops_at_first_converged`.

**C10 Mass bookkeeping** (proved). Extended reals; per-step mass equation read off the trace, any finite parameters.  
Theorems: `C10_mass_bookkeeping`.

**C11 Mass never increases and stays above the floor until the end** (proved). Extended reals, induction on the trace with C10.  
Theorems: `C11_mass_monotone`.

**C12 Time grid is strictly monotone and overshoots tf_max by less than one step** (proved). Extended reals, `regular` problems (finite parameters, no Sundman step): the step is t_step or the battery-limited one, which is positive and not longer.  
Theorems: `C12_time_grid`.

**C13 solve() terminates** (proved). Extended reals. Every step is at least `smallest_step`, so |tf|/smallest_step fuel suffices; forward and backward versions.  
Theorems: `C13_termination`.

**C14 Battery level stays within capacity** (proved). Extended reals: np.clip between lo <= hi.  
Theorems: `C14_battery_within_capacity`.

**C15 No thrust on a depleted battery** (proved). Extended reals and a law-free version (`nleb` test with the 1e-12 margin).  
Theorems: `C15_no_thrust_when_depleted`, `C15_no_thrust_when_depleted_any`.

**C16 Full recharge lock-out** (proved). Extended reals: invariant on the charging flag over the chain of steps.  
Theorems: `C16_full_recharge`.

**C17 Thrust never uses energy the battery does not have** (partial). Extended reals. Refuted by a complete run (partial recharge, then a full-length burn on half a unit of energy); proved with require_full_recharge, and without it whenever the battery was full again after every earlier depletion.  
Theorems: `C17_energy_refuted`, `C17_energy_partial`, `C17_energy_after_full_charge_partial`.

**C18 Battery is integrated over the elapsed time** (partial). rk4 proved; rkf45 refuted by a run and shown wrong on every step (the battery is integrated over the clamped suggestion for the next step). `C18_exact_update` gives the exact law-free update for both integrators.  
Theorems: `C18_battery_integration_partial`, `C18_rkf45_wrong_everywhere`, `C18_battery_integration_refuted`, `C18_exact_update`.

**C19 Battery-limited step truncation is sound** (proved). Extended reals: arithmetic of the truncated step and absence of the zero division.  
Theorems: `C19_truncation`, `C19_no_division_by_zero`.

**C20 Duty-cycle ON limit** (proved). Extended reals: induction on consecutive thrusting steps with the duty timer.  
Theorems: `C20_duty_on_limit`.

**C21 Duty-cycle OFF rest** (proved). Extended reals: the timer of the last switch-off bounds the coasting block.  
Theorems: `C21_duty_off_rest`.

**C22 Coasting preserves the orbit** (proved). Extended reals for both integrators and both element sets: with zero thrust and zero perturbation the slow rates are exactly 0 whenever the matrix psi is finite, and all stages add 0. psi is shown finite on every ellipse that is not singular for the element set (evaluation in extended reals equals evaluation in reals wherever every operation is inside its domain), and the default Keplerian bounds leave no other finite state than i = pi. With RK4 the next state is such an ellipse again. The example is a complete run of an object with default bounds.  
Theorems: `C22_coasting_preserves_slow_elements`, `C22_on_ellipses`, `C22_rk4_stays_on_ellipse`, `C22_default_bounds`.

**C23 Effectivity thresholds gate thrust** (proved). Law-free; both effectivities and both thresholds, including thresholds given as functions.  
Theorems: `C23_effectivity_gate`.

**C24 Efficiency arguments of the wrong type are rejected** (partial). Law-free. eta_a of a wrong type raises before anything is recorded; eta_r of a wrong type is silently treated as 'no threshold' (refuted).  
Theorems: `C24_eta_a_rejected_partial`, `C24_wrong_eta_r_means_no_threshold`, `C24_eta_r_rejected_refuted`.

**C25 A depleted initial battery is handled** (partial). Law-free. Refuted by a run that reads an unbound name; no run on a depleted initial battery ever returns; with a charged start the name is always bound.  
Theorems: `C25_depleted_start_refuted`, `C25_depleted_start_never_returns`, `C25_charged_start_partial`.

**C26 solve() does not modify the caller's arrays** (partial). The model tracks that `oe_iter` and `oe0` are the same array until the first step: for Keplerian elements the caller's array is overwritten by the clamp (refuted), for equinoctial elements it is untouched.  
Theorems: `C26_oe0_after_solve_partial`, `C26_oe0_unmodified_refuted`.

**C27 Keplerian states are safeguarded** (proved). Law-free for the clamp; `C27_in_range` turns it into inequalities over the reals.  
Theorems: `C27_keplerian_states_safeguarded`, `C27_in_range`.

**C28 Constructor and setters validate their arguments** (proved). Law-free, both directions of every assertion, and the order of evaluation.  
Theorems: `C28_constructor_validates`, `C28_set_problem_validates`, `C28_solve_needs_problem`, `C28_setters_validate`.

**C29 elements_type and the dynamics agree** (partial). Invariant over all call sequences (`reachable`); refuted for assignment to `elements_type`, which changes the name but not the functions.  
Theorems: `C29_object_consistent_partial`, `C29_elements_type_setter_refuted`.

**C30 Effectivities are fractions** (partial). Reals. D is a 2pi-periodic trigonometric expression of the anomaly, dqdt = f|D| up to sign, so the grid maximum bounds the current value; backward in time the sign flips and min/max exchange roles (refuted, exact behaviour proved).  
Theorems: `C30_forward_partial`, `C30_backward_partial`, `C30_backward_refuted`.

**C31 Sundman steps are Kepler time of flight** (partial). Reals. Kepler's equation is solved by the motion on the ellipse, shown to be two-body motion; for t_step <= 0 the code adds a whole period (refuted).  
Theorems: `C31_forward_partial`, `C31_formula_partial`, `C31_backward_partial`, `C31_backward_refuted`.

**C32 Backward propagation mirrors forward propagation** (partial). Extended reals. Time and mass proved; the duty cycle compares signed times and is never enforced backward (refuted, and shown for every run).  
Theorems: `C32_backward_time`, `C32_backward_duty_never_enforced`, `C32_backward_duty_refuted`.

**C33 Thrust direction is steepest descent of Q** (proved). Reals: Cauchy-Schwarz plus the quadrant analysis of atan2/arcsin.  
Theorems: `C33_thrust_is_steepest_descent`.

**C34 Singular control gradients are detected, not thrust along** (partial). Extended reals: zero, nan, and in-plane infinite gradients give nan angles; a gradient with no in-plane part divides by zero in jitted code (refuted).  
Theorems: `C34_singular_gradient_coasts_partial`, `C34_normal_gradient_raises_refuted`, `C34_infinite_normal_refuted`.

**C35 Q is a Lyapunov candidate** (partial). Reals, both laws: the tree of Q evaluates to a weighted sum of squares; the (…)**(1/r) factor needs `power_ok` for the Keplerian law.  
Theorems: `C35_keplerian_Q`, `C35_equinoctial_Q`, `C35_keplerian_noninteger_power_refuted`.

**C36 The reported dQ/doe is the gradient of Q** (proved). Reals, both laws: soundness of `diff` on trees, instantiated at the five slow elements.  
Theorems: `C36_keplerian_gradient`, `C36_equinoctial_gradient`.

**C37 Both dQ/dt evaluations agree and equal the decrease rate** (proved). Reals, both laws: dqdt of the law and of the stand-alone function agree, equal f times the norm of D, and are minus the derivative of Q along any motion whose slow elements move as psi says.  
Theorems: `C37_keplerian_rate`, `C37_equinoctial_rate`.

**C38 Keplerian Q normalisers are the maximal rates** (proved). Reals: explicit maxima over direction and anomaly; the periapsis rate through the cubic of the optimal anomaly.  
Theorems: `C38_keplerian_normalisers`.

**C39 Equinoctial Q normalisers are the maximal rates** (partial). Refuted; exact conditions for each of the five normalisers are proved.  
Theorems: `C39_equinoctial_shape_partial`, `C39_h_k_partial`, `C39_f_g_partial`, `C39_equinoctial_normalisers_refuted`.

**C40 Keplerian dynamics are Newton's law** (proved). Reals, `derivable_pt_lim` of the standard library: time derivative of kep2sv along the Gauss rates equals velocity and Newton's acceleration.  
Theorems: `C40_keplerian_motion`.

**C41 Equinoctial dynamics are Newton's law** (partial). As C40 for f > 0; for f < 0 the sign of the a-rate is wrong on a whole half-space (refuted for every such state); f = 0 raises.  
Theorems: `C41_equinoctial_motion_partial`, `C41_wrong_for_every_negative_f`, `C41_equinoctial_motion_refuted`, `C41_raises_at_f_zero`.

**C42 Unperturbed dynamics are two-body motion** (partial). C40/C41 with zero acceleration, where the f < 0 defect disappears; f = 0 raises (refuted).  
Theorems: `C42_keplerian_free_motion`, `C42_equinoctial_free_motion_partial`, `C42_equinoctial_free_motion_refuted`.

**C43 rk4 is a consistent fourth-order step** (proved). Reals: rk4 on polynomial right-hand sides and on linear systems, arbitrary coefficients.  
Theorems: `C43_rk4_cubic`, `C43_quartic_is_the_primitive`, `C43_rk4_linear`.

**C44 rkf45 is a consistent integrator** (partial). Refuted: the weights of the code sum to 1 + 6591/16830504 (`C44_weight`), not 1, and zero rates divide by zero; the exact result for a constant rate is proved.  
Theorems: `C44_constant_rate_refuted`, `C44_weight`, `C44_exact_step_refuted`, `C44_no_constant_rate_is_integrated_exactly`.

**C45 The integrator option gives fourth-order accuracy for the slow elements** (partial). Refuted by an explicit solution; a step of the slow elements with frozen psi and thrust is proved to be explicit Euler.  
Theorems: `C45_rk4_fourth_order_refuted`, `C45_rk4_step_is_euler_partial`.

**C46 kep2sv produces the orbit it was asked for** (proved). Reals: rotation matrices and perifocal coordinates, all zero-angle branches.  
Theorems: `C46_kep2sv_orbit`.

**C47 Keplerian/Cartesian round trip** (proved). Reals: all five angle functions inverted, on the set given by the code's 1e-12 threshold.  
Theorems: `C47_keplerian_round_trip`.

**C48 Keplerian/equinoctial round trip** (partial). Reals, with the exact condition `periapsis_kept`; equatorial orbits refuted.  
Theorems: `C48_keplerian_mee_keplerian_partial`, `C48_mee_keplerian_mee_partial`, `C48_mee_with_a_keplerian_partial`, `C48_equatorial_refuted`.

**C49 Equinoctial / equinoctial-with-SMA round trip** (proved). Reals: field identities.  
Theorems: `C49_mee_to_a_and_back`, `C49_a_to_mee_and_back`, `C49_kep2mee_with_a_composed`.

**C50 mee_with_a2sv gives the right Cartesian state** (partial). C48 composed with kep2sv; equatorial orbits refuted.  
Theorems: `C50_mee_state_partial`, `C50_equatorial_refuted`.

**C51 True to eccentric anomaly** (proved). Reals: half-angle formulas.  
Theorems: `C51_eccentric_anomaly`, `C51_eccentric_anomaly_mee`.

**C52 Period and semimajor axis** (proved). Reals: energy identity, sign cases.  
Theorems: `C52_vis_viva`, `C52_orbital_period`.

**C53 Orbit sampling** (proved). Reals: C46 at every sample; the first and last anomaly differ by a turn.  
Theorems: `C53_orbit_samples`.

**C54 Convergence tests** (proved). Reals: arccos of cosine compared with the tolerance is the distance on the circle.  
Theorems: `C54_keplerian_convergence`, `C54_mee_convergence`.

**C55 Relaxed tolerance is weaker** (proved). Reals: monotonicity.  
Theorems: `C55_relaxed_is_weaker`.

**C56 Element safeguarding clamps** (proved). Reals: min/max projection.  
Theorems: `C56_clamping`.

**C57 wrap returns the same angle in [-pi,pi)** (partial). Python's precedence makes the expression ((a+pi) % 2)*pi - pi: range proved, same-angle refuted, with an interval of wrong values.  
Theorems: `C57_wrap_range_partial`, `C57_same_angle_refuted`, `C57_wrong_on_interval`.

**C58 Third-body perturbation** (proved). Reals: Battin's q-form is algebraically the direct form.  
Theorems: `C58_third_body`.

**C59 J2 perturbation** (partial). Refuted (5z^2 instead of 5z^2/r^2); proved where the two agree.  
Theorems: `C59_J2_gradient_partial`, `C59_J2_gradient_refuted`.

**C60 Solar radiation pressure** (proved). Reals.  
Theorems: `C60_solar_pressure`.

**C61 RTN frame is a rotation** (proved). Reals: orthonormality, determinant, images of r, v, r x v.  
Theorems: `C61_rtn_frame`.

**C62 Perturbation model assembly** (partial). Reals with SPICE as arbitrary functions; `third_bodies_names=None`, which the constructor accepts and tests for, raises on evaluation (refuted). With `third_bodies_gms` given, the values are used as they are (C62_given_constants).  
Theorems: `C62_assembly_partial`, `C62_unknown_type_rejected`, `C62_given_constants`, `C62_no_third_bodies_refuted`.

**C63 Plot sphere and ellipsoid lie on their surfaces** (proved). Reals, every mesh point.  
Theorems: `C63_sphere`, `C63_ellipsoid`, `C63_sphere_grid`, `C63_ellipsoid_grid`.

**C64 Equal axis limits** (proved). Reals, both two- and three-dimensional calls.  
Theorems: `C64_equal_axes`, `C64_exact_limits`.

**C65 Exported dictionary** (partial). Lengths law-free; values over the reals; Keplerian states are passed to the equinoctial conversion (refuted, exact content proved).  
Theorems: `C65_saved_lengths`, `C65_saved_controls`, `C65_saved_angles`, `C65_saved_states_equinoctial_partial`, `C65_saved_states_keplerian_partial`, `C65_saved_states_refuted`.

**C66 Cartesian history** (partial). Columns over the reals with the exact condition; the default sample count through an arbitrary `round` with its bounds.  
Theorems: `C66_columns_partial`, `C66_columns_refuted`, `C66_steps_bounded`, `C66_steps_value`, `C66_interpolated`, `C66_short_run_cannot_be_drawn`.

**C67 Singular equinoctial start is reported** (partial). Extended reals: the law is nan because psi contains atan(g/f), so the step coasts, and the jitted equations of motion raise on the same quotient (refuted); threshold 0 ends with -3.  
Theorems: `C67_circular_start_raises_refuted`, `C67_circular_start_raises_partial`, `C67_circular_start_threshold_zero_partial`.

**C68 p-based equinoctial dynamics are Newton's law** (proved). As C40 for the p-based elements.  
Theorems: `C68_mee_gauss_motion`.

**C69 Plotted curves are complete** (partial). Law-free: lengths of the histories against the slices used; efficiency plot of a run without steps raises (refuted).  
Theorems: `C69_battery_curve`, `C69_Q_curves`, `C69_control_curves`, `C69_efficiency_curves_partial`, `C69_efficiency_curves_refuted`.

**C70 Element history plot** (partial). Curve by curve, with the exact condition for the periapsis curve; refuted for equinoctial elements, where e is replaced by f.  
Theorems: `C70_element_curves_partial`, `C70_periapsis_condition_partial`, `C70_periapsis_refuted`, `C70_to_keplerian`.

**C71 Control plot shows the control in force** (partial). Against the documented meaning of step(where='pre'): each control is drawn over the interval before it (refuted).  
Theorems: `C71_control_steps_refuted`, `C71_control_steps_shifted_partial`.

**C72 Printed errors agree with the exit code** (partial). From C02; Keplerian angles may differ by a turn (refuted).  
Theorems: `C72_printed_errors_partial`, `C72_printed_errors_refuted`.

**C73 The recorded history is a solution** (proved). Law-free: the raw states are the integrator's outputs, each iteration is inverted into the control phase, the perturbation and the integrator call.  
Theorems: `C73_recorded_steps_are_flown`, `C73_coasting_angles`.

**C74 Thrust is applied in full along steepest descent** (proved). C73 with C33 over the reals, both signs of dt.  
Theorems: `C74_thrust_is_steepest`.

**C75 Every coast has a reason** (proved). Extended reals: induction on the chain of battery, charging and duty flags; every reason is stated on the recorded histories only.  
Theorems: `C75_coast_has_a_reason`.

**C76 Defaults mean unlimited power** (proved). Instance of C75 in which the other three reasons are impossible; the defaults are shown to satisfy the hypotheses.  
Theorems: `C76_default_problem_coasts_only_by_law`, `C76_default_solve_coasts_only_on_nan`, `C76_unlimited_power`.

**C77 Arguments are stored** (proved). Law-free unfolding of the constructor and set_problem against a field-by-field statement. The setters and solve keep every other setting (RunSpec.settings).  
Theorems: `C77_constructor_stores`, `C77_set_problem_stores`, `C77_setters_store`, `C77_solve_keeps_settings`, `C77_defaults`.

**C78 rkf45 is a fourth-order step with step-size control** (partial). Reals. Refuted: stage increments are multiplied by the step twice, so a linear system is integrated with one-step error of order h^2; the exact result, including the suggested step, is proved for every linear system and every rate that depends on time only. Missing: general right-hand sides, for which no closed form exists.  
Theorems: `C78_linear_partial`, `C78_time_only_partial`, `C78_comparison_quadrature`, `C78_order_refuted`.

**C79 Trajectory figures** (partial). Reals: the curves are compared with the closed formulas of C46/C50 at the sampled angles; limits from the extrema of the data (C64). Refuted: limits ignore the target orbit, witness a run that starts far inside its target. Missing: equinoctial orbits in the reference plane.  
Theorems: `C79_figure_2d_partial`, `C79_figure_3d_partial`, `C79_far_points_are_cut_off`, `C79_target_in_view_refuted`.

**C80 Elementary rotations** (proved). Reals: orthonormality and the addition theorems.  
Theorems: `C80_are_rotations`, `C80_angles`.

**C81 Perturbations do not depend on units** (partial). Reals: homogeneity of every term, composed with C62. Refuted with J2 (5z^2): the physical result of the same orbit differs between two length units. Proved without J2, and with it on the equator and at distance one LU.  
Theorems: `C81_units_partial`, `C81_units_refuted`.

**C82 A law that is nan gives up cleanly** (proved). Extended reals, complete run by induction over the loop: the gradient with respect to the semimajor axis is nan below the target, the angles are nan, the coast succeeds (no division by zero on an ellipse) and keeps the slow elements, so the next state is again below the target. The induction is done for any law that is nan along the orbit (C82_nan_law_gives_up); C92 is another instance.  
Theorems: `C82_fractional_exponent_never_thrusts`, `C82_nan_law_gives_up`.

**C83 Runs do not depend on units** (partial). Extended reals (nan and infinities included), whole runs. Every subexpression of both laws, their gradients and rates is given dimensions by a checker proved sound (DimProofs) and run on the two laws by computation; the dynamics, rk4, Sundman step, battery, duty cycle, thresholds and convergence test are shown to respect the conversion; a simulation lemma for the loop (SymRun) gives the run. rkf45 is refuted on y' = y: its stage increments carry the step twice.  
Theorems: `C83_units`, `C83_rkf45_refuted`.

**C84 Runs do not depend on the reference axis or on whole turns** (partial). Extended reals, whole runs, both integrators. A checker proved sound shows that both laws see angles only through sines and cosines, and the node only through its difference to the target's; same simulation lemma as C83. Refuted with the default bounds (they are not turned) and for the equinoctial law, whose Q depends on the reference axis.  
Theorems: `C84_keplerian_turns`, `C84_longitude_turns`, `C84_default_bounds_refuted`, `C84_equinoctial_axes_refuted`, `C84_equinoctial_axes`.

**C85 A run obeys the rocket equation and cannot outspend its tank** (proved). DvProofs telescopes C10 (mass of one step) over the recorded steps and bounds each step with ln x <= x - 1; throttles are 0 or 1 by RunProofs.ctl_inv. The whole-run bound uses C11 (mass never more than one step below mass_min) and C12 (times increase). tmax in the sums is a free number: C73/C74 tie the flown acceleration to tmax/m.  
Theorems: `C85_propellant_is_burn_time`, `C85_rocket_equation`, `C85_rocket_equation_backward`, `C85_tank_bounds_run`.

**C86 From a Cartesian state to elements and back** (proved). ElemInv builds the elements of an arbitrary elliptic state (the plane from the angular momentum, then the planar Kepler problem), proves the textbook formulas give the state back, and combines this with C47 for the regular case; get_omega below its threshold is computed for the equatorial case and for the three counterexamples.  
Theorems: `C86_every_state_has_elements`, `C86_state_round_trip`, `C86_equatorial_round_trip`, `C86_orbit_kept`, `C86_circular_refuted`, `C86_retrograde_refuted`, `C86_units_refuted`.

**C87 Stopping criteria only cut a run off** (proved). CutProofs runs the two loops side by side: up to the first row at which either stops they hold the same state, so the shorter history is a prefix; only the in-place clamping of the last Keplerian state (which happens one row later) can differ. The second theorem adds that with |tf| enlarged the shorter run is always the original one. The first theorem uses no law of arithmetic.  
Theorems: `C87_stopping_only_cuts`, `C87_later_final_time`.

**C88 Only ratios of weights matter** (proved). Extended reals, whole runs. The dimension checker of C83 is run with the weights as the unit: Q, its gradient, the control vector and dQ/dt are of degree one, psi of degree zero; the loop simulation of SymRun gives the run.  
Theorems: `C88_only_ratios_of_weights`.

**C89 Thrust decisions do not depend on the force level** (proved). Extended reals, one iteration. The same checker with mu of degree two in sqrt(d) and the acceleration of degree one in t; angles are ratios, effectivities are ratios of rates.  
Theorems: `C89_decisions_ignore_force`, `C89_force_scales_q`.

**C90 The law always has an answer on regular states** (proved). XLaw.defined says that every operation of an expression is applied inside its domain; then extended-real and real evaluation agree. FinProofs shows that a smooth expression (DiffProofs) is defined together with all its derivatives, so that both laws, their gradients and, for non-zero gradients, dQ/dt are finite on EffSpec.regular states. The control step is then computed case by case. With C06 this gives that every code -3 is due to singular states.  
Theorems: `C90_regular_law_finite`, `C90_regular_iteration_thrusts`, `C90_regular_iteration_thresholds`, `C90_nan_exit_is_singular`, `C90_nan_exit_forward`.

**C91 The target of an element without weight has no influence** (partial). ZeroProofs evaluates a small abstract domain on the expressions of both laws: what a sub-expression can be when the environment is replaced by one with the other targets (same value, or zero because multiplied by the weight). One kernel computation per choice of zero weights shows that all outputs of the laws are the same; at Keplerian angle targets this needs that neither difference has sine zero. ZeroSolve lifts this over the loop. The refutation is a complete run (ZeroCase): on the node target it gives up at once, with another node target and the same zero weight its first iteration thrusts (C90).  
Theorems: `C91_equinoctial_partial`, `C91_keplerian_shape_partial`, `C91_keplerian_angles_partial`, `C91_zero_weight_refuted`.

**C92 A Keplerian run that starts on its node or periapsis target never thrusts** (proved). ZeroRuns: the derivative of acos(cos(x)) is sin(x)/sqrt(1-cos(x)^2), nan at x = 0; the nan survives the product with the weight, so the out-of-plane component of the gradient and then all angles are nan along the whole orbit; C82_nan_law_gives_up finishes.  
Theorems: `C92_on_angle_never_thrusts`.

**C93 A run can be taken up again from any of its rows** (proved). RestartProofs: while powered, the duty flag stays on, the switch-on time stays 0 and the charging flag stays off, so one iteration is a function of state, mass and battery alone; induction over the rows of both runs, using that clamping a clamped state changes nothing. Two toy runs (duty cycle, full recharge) show the conditions are needed.  
Theorems: `C93_runs_can_be_taken_up`, `C93_stock_is_steady`, `C93_unlimited_is_powered`, `C93_duty_cycle_refuted`, `C93_full_recharge_refuted`.

**C94 A short thrust step lowers Q, a long one may not** (proved). DescProofs: a step moves the slow elements like an explicit Euler step (C45) and its stages stay in the open domain of the equations for short h, so it succeeds; Q does not depend on the fast element, and C37 gives its derivative along the Euler line. DescRuns: at apoapsis of a = 1, f = 1/2 the step h = (29/40)/sqrt(3/4) carries f from 1/2 to -19/20 and Q from 1/12 to 1805/1534.  
Theorems: `C94_keplerian_short_step`, `C94_equinoctial_short_step`, `C94_long_step_refuted`.

**C95 Effectivity thresholds act only through the throttle** (proved). EtaProofs: thresholds enter only the control part. On one state two settings give the same angles, psi, Q, dQ/dt and nan count, and the same force if they give the same throttle; so two runs whose states agree (recorded effectivities and thresholds apart) either agree after one more row or choose different throttles there. Induction over both loops; that the finished histories begin with the row is CutProofs (C87). Stricter thresholds: whatever effectivity is below the old threshold is below the new one, and a positive threshold stays positive.  
Theorems: `C95_thresholds_act_on_throttle`, `C95_stricter_switches_off`, `C95_idle_thresholds`, `C95_greater_is_stricter`, `C95_not_positive_is_idle`.

**C96 Mirroring a transfer in the reference plane mirrors the run** (proved). MirrorProofs: an abstract interpretation of expressions with the parities even, odd, zero and half-turn angle, proved sound over the extended reals, computes that in both laws Q and dQ/dt are even, the steering vector has an odd normal part, and the rows of psi and of the gradient have the signs of their elements. Rates, rk4 and rkf45, convergence test, safeguard and thresholds follow; MirrorSolve carries it through the iteration and the loop. That the change of elements is a reflection of position and velocity is proved for the code's own conversions over the reals (C46, C50).  
Theorems: `C96_mirror`, `C96_keplerian_elements`, `C96_equinoctial_elements`, `C96_same_reflection`.

**C97 An equinoctial transfer in the reference plane stays in it** (proved). FlatProofs: a flat state is a fixed point of the reflection, so by C96's step lemma each iteration from a flat state is its own mirror image; a number equal to its negative is zero or nan, and recorded angles are never nan.  
Theorems: `C97_stays_in_plane`.

**C98 Built-in perturbations respect the reference plane** (proved). SkyProofs: numbers that are zero or nan form an ideal (sums, products with anything, quotients by anything), and the normal components of position, velocity and every acceleration stay in it; the mirror statement is proved term by term, the angular momentum changing sign. SkyFin: the same expressions on finite floats and on reals agree when square roots and array divisions are defined, which follows from the orbit being an ellipse.  
Theorems: `C98_pull_in_plane`, `C98_perturbed_run_in_plane`, `C98_mirrored_sky`, `C98_floats`, `C98_mirrored_object`.

**C99 Without weight on its plane a Keplerian run stays in it** (proved). PlaneProofs: the checker of C91 shows that without weight on slots 2-4 the out-of-plane component of the Keplerian gradient is zero or nan for every argument; then the recorded angle is zero, and the equations of motion move inclination and node only through the normal acceleration, so each stage of both integrators adds zero or nan. The equinoctial refutation evaluates the gradient of Q at a = 1, f = g = 1/2, h = 1, k = 0, L = pi/2, where f and g themselves react to normal thrust.  
Theorems: `C99_stays_in_plane`, `C99_equinoctial_refuted`.

**C100 A nan in the state stays visible** (partial). False for Keplerian elements: elements_safety computes min(max(lower, x), upper), which is the lower bound for x = nan, and works in place on the recorded array (refuted by a run with the default bounds and a perturbation that answers nan; the exact replacement is proved). Proved for equinoctial elements, which are never clamped: both integrators add to the old element.  
Theorems: `C100_nan_stays_partial`, `C100_nan_replaced`, `C100_keplerian_refuted`.

**C101 Printing does not change a run** (proved). Report.v repeats the loop with the lines it prints; by induction on the fuel the result is that of the silent model. A progress line is formed only after the convergence test has answered, which with the library's tests implies a target of five entries, so forming it cannot raise.  
Theorems: `C101_printing_changes_nothing`.

**C102 The closing line tells how the run ended** (partial). False on re-used objects: converge is never cleared and the closing message looks at it, so a later run that ends on time announces success, and a second time-out says nothing (both refuted by runs). Proved on fresh objects for every exit.  
Theorems: `C102_last_line_is_the_verdict_partial`, `C102_used_object_refuted`, `C102_second_timeout_refuted`.

**C103 The progress table shows the run** (proved). The transcript is computed along the trace of completed iterations and equals a table specified separately (lines_at, table) applied to the recorded times and the integrator's results.  
Theorems: `C103_transcript`, `C103_rows_are_history`.

**C104 pretty() shows the transfer that was set** (partial). Proved for calls after set_problem. After a Keplerian solve the start shown is the safeguarded one, because solve works in place (refuted). element_names is an argument of the model: the elements_type setter does not change it.  
Theorems: `C104_pretty_shows_the_problem_partial`, `C104_after_solve_refuted`.

**C105 Time goes forward in double precision** (partial). Over `FNum L`: binary64 of Coq's `SpecFloat` on valid values, with an arbitrary library `L` of elementary functions; `C105_double_arithmetic` says the instance computes what the specification says. The proof shows that rounding a non-negative sum cannot fall below either summand (no real numbers or external library used). Strict increase is false: a step shortened to the remaining battery energy can be smaller than half a unit in the last place of the time.  
Theorems: `C105_double_arithmetic`, `C105_times_never_decrease_partial`, `C105_times_strictly_increase_refuted`.

**C106 Thrust burns propellant in double precision** (partial). Same arithmetic; the mass subtracted in a step is a product of non-negative numbers, and rounding cannot raise the difference above the minuend. In the run that refutes C105 a thrusting step leaves the mass unchanged.  
Theorems: `C106_mass_never_increases_partial`, `C106_thrust_burns_refuted`.

**C107 The battery stays within its capacity in double precision** (proved). Clamping by comparison is exact in any arithmetic that compares doubles; absence of nan needs finite rates and steps and is an invariant of the run. That the divisor of line 416 is positive follows from the two tests before it, after rounding.  
Theorems: `C107_battery_within_capacity`, `C107_battery_is_a_number`, `C107_no_division_by_zero`.

**C108 Keplerian elements stay within their bounds in double precision** (proved). The clamp assigns the bounds themselves, so it holds without rounding error; `max`/`min` keep the bound when the element is nan.  
Theorems: `C108_keplerian_bounds`.

**C109 In double precision a run takes the steps of exact arithmetic** (partial). Exact if step and duration are multiples n 2^e with all partial sums below 2^53 units: addition is exact there (`exact_round`), so row k has time k n 2^e and the run that times out has exactly tf_max/t_step steps. False for decimal steps: with the default t_step = 0.1 and tf_max = 1 the tenth time stamp is 1 - 2^-53, and an eleventh step follows; a duty window of 0.3 lasts three steps, not four, because 0.1+0.1+0.1 > 0.3 in doubles. Both refutations put the double run beside the exact one of the same problem.  
Theorems: `C109_times_exact_partial`, `C109_step_count_partial`, `C109_step_count_refuted`, `C109_schedule_refuted`.

**C110 The duty cycle holds in double precision** (proved). The scheduler's own subtractions t - t_last_ON and t - t_last_OFF are rounded, so the limit is stated for rounded differences. Needs that subtraction in binary64 is monotone: FloatMono shows that the result of + and - is the exact sum rounded to nearest even (`add_rounds`, `sub_rounds`) and that rounding is monotone (`rounds_mono`). The flag, t_last_ON and t_last_OFF then follow the invariants of C20/C21, including the recharging rule when the battery level is nan.  
Theorems: `C110_on_time`, `C110_off_time`.

**C111 solve() terminates in double precision** (partial). If the step is at least 2^e and the duration at most M 2^e with M <= 2^53, rounding never falls below the next multiple of 2^e (`near_grid`), so every step gains at least one unit, times increase strictly and at most M steps are taken; e and M may be chosen freely, so every problem with tf_max/t_step < 2^52 is covered. The last time exceeds tf_max by at most one step, in rounded arithmetic. Refuted without the bound: with step 1 and tf_max = 2^53 + 2 the time stays at 2^53 and solve never returns (`long_loop`: for every fuel); C111_stuck is the general form. With battery discharge see C115.  
Theorems: `C111_terminates_partial`, `C111_time_advances_partial`, `C111_overshoot`, `C111_stuck`, `C111_terminates_refuted`.

**C112 The saved file is the returned dictionary** (proved). Json.v models json.dump with an indent as the sequence of tokens it writes (layout and the spelling of numbers and strings are left out) and a file system as content per path. JsonSpec.v gives the JSON grammar (`text`) and the content of a Python object (`shows`) independently of the encoder. By induction over nested values (`emit_good`) what is written without an exception is a text of the content; texts are unambiguous (`text_prefix`), contents unique (`shows_fun`).  
Theorems: `C112_file_is_result`, `C112_no_path`, `C112_unambiguous`, `C112_content`.

**C113 A failed save leaves the earlier file alone** (partial). Refuted: the file is opened for writing first and written piece by piece, so an unencodable value leaves a truncated text (witness: two saves to the same path). Exact behaviour: whenever the units have no content in JSON, TypeError is raised, the file begins with t0, tf and the times, breaks off inside canonical_units and is the text of no value (an unclosed brace, `text_balanced`).  
Theorems: `C113_failed_save_partial`, `C113_failed_save_refuted`.

**C114 pretty_settings() shows the settings in force** (proved). Induction over the life of the object (`later`). Assigning elements_type afterwards is separate: the type shown changes, names and dynamics do not.  
Theorems: `C114_settings_shown`, `C114_type_assigned`.

**C115 solve() terminates in double precision with a battery in use** (partial). FloatBatt: a shortened step that cannot move the time still lowers the battery by at least one rounding unit, because solve() only shortens while more than 1e-12 is left above the lower limit (`drained`, `drops`), and the lower limit is reached within a number of such steps that depends on the capacities only; the time then moves by a full step (`batt_iter`, `ends`). So time and battery together make progress and the run ends. Hypotheses: duration at most 2^53 times a power of two below the step (as in C111), the duty cycle does not rest before tf_max, and one step cannot empty a full battery. Both last ones are needed: C115_battery_ends_refuted (a rest with charge rate 0) and C115_small_battery_refuted (positive charge rate) are runs that repeat the same state for every fuel, because the step is also shortened while the engine rests, and is then below the rounding unit of the time.  
Theorems: `C115_battery_ends_partial`, `C115_battery_progress_partial`, `C115_battery_ends_refuted`, `C115_small_battery_refuted`.

**C116 The duty cycle bounds the total thrust time** (proved). BudgetProofs: induction over the ON windows of a run (`windows`): from the first thrusting step of a window every thrusting step starts within ON, so a window contributes at most ON + step (`burn_window`); the next one starts only after more than OFF without thrust (the OFF-time rule of the duty cycle). The propellant bound follows because each step loses mass flow times throttle times step. Vocabulary: `logged` and `burn_time` of DvSpec. The bound leaves one window of slack (the `+ OFF`); the example has 3 of 5 units, where 3.6 are allowed.  
Theorems: `C116_duty_budget`, `C116_propellant_budget`.

**C117 Thrust is paid for by the battery** (partial). BudgetProofs: induction over the steps; in a thrusting step the recorded level falls by exactly discharge times the recorded step, because a step is shortened before it would pass the lower limit, and in a rest it rises by at most charge times step. With require_full_recharge the level never has to be cut off at the lower limit. C117_energy_budget_refuted: without it the engine fires again from an empty battery (C17), and the run thrusts for longer than the energy balance allows. The example attains the bound.  
Theorems: `C117_energy_budget_partial`, `C117_energy_budget_refuted`.

**C118 A perturbation model matters only where steps start** (proved). LocalProofs: law-free induction over the run; one iteration reads the model once, at the time and state where the step starts (the acceleration is then held over the whole step), so two models that agree there give the same next state. The second theorem computes what SpicePerturbations gives with empty lists and both flags off: on an elliptic orbit the conversion to Cartesian and the frame have finite components (SkyFin), so the sum is zero and the rotated vector is zero. The first example is a model that fails after time 1000.  
Theorems: `C118_only_at_step_starts`, `C118_empty_model_is_none`.

**C119 The recorded times drift by at most one rounding per step** (proved). FloatErr: the standard error bounds for binary64 are derived from the definitions in Coq's SpecFloat: an addition or subtraction with finite result has relative error at most 2^-53 (`add_err`, `sub_err`; no underflow term, small sums are exact), a multiplication that or 2^-1075 (`mul_err`). Every step that is made starts below tf_max, so each addition to the time errs by at most 2^-53 (tf_max + step); induction over the run gives `time_tr`. The step count follows from the loop condition at the last step and at the end. The vocabulary (`real64`, the real number a double stands for) is ErrSpec. The example is the run with step 0.1 up to 1, whose tenth time is 3/2 units of 2^-53 below ten steps, so that it makes an eleventh.  
Theorems: `C119_times`, `C119_step_count`.

**C120 The recorded masses drift by at most two roundings per thrusting step** (proved). FloatErr: as C119; a mass that is not negative was not negative before and the exact difference is not negative either, so each thrusting step errs by one rounding of at most the initial mass and one of the product (`mass_err`); resting steps copy the mass. A final negative mass (below mass_min, exit -1) is excluded by `fle f0 m`.  
Theorems: `C120_masses`.

**C121 Backward in time nothing but the law keeps the thruster off, in double precision** (proved). FloatBack: mirror images of the rounding lemmas of FloatProofs (adding or subtracting something of the wrong sign moves a double the right way or not at all). A step that is not positive makes discharge times step not positive, so the level after the step is not below the one before: the shortening branch (_qlaw.py:415) is never taken and the battery is never found empty; t - t_last_ON is never positive, so the ON limit is never exceeded (the double-precision side of C32's refuted duty cycle). With the flag always on, a coast is the law's own (`ctl_coast` of C75). The initial level and the capacity have to be above the empty level; the example checks that on a run with a duty cycle, a battery and full recharges required.  
Theorems: `C121_times`, `C121_masses`, `C121_battery`, `C121_only_the_law_coasts`.

**C122 Backward runs visit the opposite times in double precision** (proved). FloatMirror: rounding to nearest even does not look at the sign (`binary_round_aux` passes it through), so adding the opposites gives the opposite, up to the sign of zero. Every forward step has its full length because nothing drains the battery (C105's `full_step`), every backward step has it by C121; induction on the row. The while test compares absolute values, so both runs stop at the same row. The example has the eleven steps of 0.1 to time 1 in both directions.  
Theorems: `C122_times`, `C122_steps`.

**C123 The mass floor holds in double precision** (proved). FloatFloor: the mass check of the loop (_qlaw.py:594) lets no mass at or below the floor start a further step, and masses of a forward run are numbers (C106), so the negated comparison is a strict one. The last bound is monotony of rounded subtraction in its first argument; that the difference is not negative follows from rounding a non-negative number. The bound on the last mass needs full steps and so is stated without discharge. In the example rounding makes a sixth step out of five.  
Theorems: `C123_above_the_floor`, `C123_last_mass`, `C123_never_negative`.

**C124 Times and masses are bookkeeping of step and throttle only** (proved). FloatSame: without discharge every step has its full length (`full_step`), so time and mass follow recurrences in which only the step, the mass flow and the throttle occur; induction on the row for two runs at once. The while test then fails at the same row in both. The example compares a run with and without a duty cycle.  
Theorems: `C124_times`, `C124_masses`, `C124_steps`.

## 6. Trusted base

* The Coq 8.16.1 kernel (and `coqchk` on the compiled files); `vm_compute` is used in examples and in the simulated runs.
* No axiom, parameter, functor, module type, plugin or switched-off check is declared in the development.  The reals of
  the standard library bring `ClassicalDedekindReals.sig_forall_dec`, `ClassicalDedekindReals.sig_not_dec` and
  `FunctionalExtensionality.functional_extensionality_dep`; case analysis on real propositions brings `Classical_Prop.classic`.
  The opaque constants of the standard library's module `RbaseSymbolsImpl`/`RinvImpl`, and those of `ssrunder`, appear in
  `coqchk -o` as module-sealed definitions, not as assumptions of a theorem.
* That the model says what the Python says: section 3 and 4, and the citations in the model files.
* That the numpy/numba/sympy operations behave as described in `Num.v`, `Base.v` and section 4.

What `Print Assumptions` lists, theorem by theorem (regenerate with `python3 tools/assumptions.py`):

* **closed under the global context (no axiom)** (100):
  C01_first_entries, C01_histories_aligned, C02_exit1_check_passed, C02_exit1_target_met, C03_exit2_relaxed_count, C03_relaxed_tolerance, C04_exit_minus1_mass_out, C05_exit_minus2_time_out, C06_exit_minus3_nan_count, C07_exit_codes_total, C08_resolve_report_partial, C08_resolve_reports_new_outcome_refuted, C09_stops_at_first_converged, C101_printing_changes_nothing, C102_last_line_is_the_verdict_partial, C102_second_timeout_refuted, C102_used_object_refuted, C103_rows_are_history, C103_transcript, C104_after_solve_refuted, C104_pretty_shows_the_problem_partial, C105_double_arithmetic, C105_times_never_decrease_partial, C105_times_strictly_increase_refuted, C106_mass_never_increases_partial, C106_thrust_burns_refuted, C107_battery_is_a_number, C107_battery_within_capacity, C107_no_division_by_zero, C108_keplerian_bounds, C109_step_count_partial, C109_times_exact_partial, C110_off_time, C110_on_time, C111_overshoot, C111_stuck, C111_terminates_partial, C111_terminates_refuted, C111_time_advances_partial, C112_content, C112_file_is_result, C112_no_path, C112_unambiguous, C113_failed_save_partial, C114_settings_shown, C114_type_assigned, C115_battery_ends_partial, C115_battery_ends_refuted, C115_battery_progress_partial, C115_small_battery_refuted, C118_only_at_step_starts, C121_battery, C121_masses, C121_only_the_law_coasts, C121_times, C122_steps, C122_times, C123_above_the_floor, C123_last_mass, C123_never_negative, C124_masses, C124_steps, C124_times, C15_no_thrust_when_depleted_any, C18_exact_update, C23_effectivity_gate, C24_eta_a_rejected_partial, C24_eta_r_rejected_refuted, C24_wrong_eta_r_means_no_threshold, C25_charged_start_partial, C25_depleted_start_never_returns, C25_depleted_start_refuted, C26_oe0_after_solve_partial, C26_oe0_unmodified_refuted, C27_keplerian_states_safeguarded, C28_constructor_validates, C28_set_problem_validates, C28_setters_validate, C28_solve_needs_problem, C29_object_consistent_partial, C62_no_third_bodies_refuted, C62_unknown_type_rejected, C65_saved_angles, C65_saved_lengths, C66_steps_bounded, C69_Q_curves, C69_battery_curve, C69_control_curves, C69_efficiency_curves_partial, C73_coasting_angles, C73_recorded_steps_are_flown, C77_constructor_stores, C77_defaults, C77_set_problem_stores, C77_setters_store, C77_solve_keeps_settings, C87_stopping_only_cuts, C95_idle_thresholds, C95_stricter_switches_off, C95_thresholds_act_on_throttle.
* **`ClassicalDedekindReals.sig_forall_dec`, `FunctionalExtensionality.functional_extensionality_dep`** (6):
  C119_step_count, C119_times, C120_masses, C43_quartic_is_the_primitive, C44_weight, C78_comparison_quadrature.
* **`ClassicalDedekindReals.sig_forall_dec`, `ClassicalDedekindReals.sig_not_dec`, `FunctionalExtensionality.functional_extensionality_dep`** (1):
  C70_periapsis_condition_partial.
* **`ClassicalDedekindReals.sig_forall_dec`, `ClassicalDedekindReals.sig_not_dec`, `Classical_Prop.classic`, `FunctionalExtensionality.functional_extensionality_dep`** (205):
  C06_no_more_nan_steps, C100_keplerian_refuted, C100_nan_replaced, C100_nan_stays_partial, C109_schedule_refuted, C109_step_count_refuted, C10_mass_bookkeeping, C113_failed_save_refuted, C116_duty_budget, C116_propellant_budget, C117_energy_budget_partial, C117_energy_budget_refuted, C118_empty_model_is_none, C11_mass_monotone, C12_time_grid, C13_termination, C14_battery_within_capacity, C15_no_thrust_when_depleted, C16_full_recharge, C17_energy_after_full_charge_partial, C17_energy_partial, C17_energy_refuted, C18_battery_integration_partial, C18_battery_integration_refuted, C18_rkf45_wrong_everywhere, C19_no_division_by_zero, C19_truncation, C20_duty_on_limit, C21_duty_off_rest, C22_coasting_preserves_slow_elements, C22_default_bounds, C22_on_ellipses, C22_rk4_stays_on_ellipse, C27_in_range, C29_elements_type_setter_refuted, C30_backward_partial, C30_backward_refuted, C30_forward_partial, C31_backward_partial, C31_backward_refuted, C31_formula_partial, C31_forward_partial, C32_backward_duty_never_enforced, C32_backward_duty_refuted, C32_backward_time, C33_thrust_is_steepest_descent, C34_infinite_normal_refuted, C34_normal_gradient_raises_refuted, C34_singular_gradient_coasts_partial, C35_equinoctial_Q, C35_keplerian_Q, C35_keplerian_noninteger_power_refuted, C36_equinoctial_gradient, C36_keplerian_gradient, C37_equinoctial_rate, C37_keplerian_rate, C38_keplerian_normalisers, C39_equinoctial_normalisers_refuted, C39_equinoctial_shape_partial, C39_f_g_partial, C39_h_k_partial, C40_keplerian_motion, C41_equinoctial_motion_partial, C41_equinoctial_motion_refuted, C41_raises_at_f_zero, C41_wrong_for_every_negative_f, C42_equinoctial_free_motion_partial, C42_equinoctial_free_motion_refuted, C42_keplerian_free_motion, C43_rk4_cubic, C43_rk4_linear, C44_constant_rate_refuted, C44_exact_step_refuted, C44_no_constant_rate_is_integrated_exactly, C45_rk4_fourth_order_refuted, C45_rk4_step_is_euler_partial, C46_kep2sv_orbit, C47_keplerian_round_trip, C48_equatorial_refuted, C48_keplerian_mee_keplerian_partial, C48_mee_keplerian_mee_partial, C48_mee_with_a_keplerian_partial, C49_a_to_mee_and_back, C49_kep2mee_with_a_composed, C49_mee_to_a_and_back, C50_equatorial_refuted, C50_mee_state_partial, C51_eccentric_anomaly, C51_eccentric_anomaly_mee, C52_orbital_period, C52_vis_viva, C53_orbit_samples, C54_keplerian_convergence, C54_mee_convergence, C55_relaxed_is_weaker, C56_clamping, C57_same_angle_refuted, C57_wrap_range_partial, C57_wrong_on_interval, C58_third_body, C59_J2_gradient_partial, C59_J2_gradient_refuted, C60_solar_pressure, C61_rtn_frame, C62_assembly_partial, C62_given_constants, C63_ellipsoid, C63_ellipsoid_grid, C63_sphere, C63_sphere_grid, C64_equal_axes, C64_exact_limits, C65_saved_controls, C65_saved_states_equinoctial_partial, C65_saved_states_keplerian_partial, C65_saved_states_refuted, C66_columns_partial, C66_columns_refuted, C66_interpolated, C66_short_run_cannot_be_drawn, C66_steps_value, C67_circular_start_raises_partial, C67_circular_start_raises_refuted, C67_circular_start_threshold_zero_partial, C68_mee_gauss_motion, C69_efficiency_curves_refuted, C70_element_curves_partial, C70_periapsis_refuted, C70_to_keplerian, C71_control_steps_refuted, C71_control_steps_shifted_partial, C72_printed_errors_partial, C72_printed_errors_refuted, C74_thrust_is_steepest, C75_coast_has_a_reason, C76_default_problem_coasts_only_by_law, C76_default_solve_coasts_only_on_nan, C76_unlimited_power, C78_linear_partial, C78_order_refuted, C78_time_only_partial, C79_far_points_are_cut_off, C79_figure_2d_partial, C79_figure_3d_partial, C79_target_in_view_refuted, C80_angles, C80_are_rotations, C81_units_partial, C81_units_refuted, C82_fractional_exponent_never_thrusts, C82_nan_law_gives_up, C83_rkf45_refuted, C83_units, C84_default_bounds_refuted, C84_equinoctial_axes, C84_equinoctial_axes_refuted, C84_keplerian_turns, C84_longitude_turns, C85_propellant_is_burn_time, C85_rocket_equation, C85_rocket_equation_backward, C85_tank_bounds_run, C86_circular_refuted, C86_equatorial_round_trip, C86_every_state_has_elements, C86_orbit_kept, C86_retrograde_refuted, C86_state_round_trip, C86_units_refuted, C87_later_final_time, C88_only_ratios_of_weights, C89_decisions_ignore_force, C89_force_scales_q, C90_nan_exit_forward, C90_nan_exit_is_singular, C90_regular_iteration_thresholds, C90_regular_iteration_thrusts, C90_regular_law_finite, C91_equinoctial_partial, C91_keplerian_angles_partial, C91_keplerian_shape_partial, C91_zero_weight_refuted, C92_on_angle_never_thrusts, C93_duty_cycle_refuted, C93_full_recharge_refuted, C93_runs_can_be_taken_up, C93_stock_is_steady, C93_unlimited_is_powered, C94_equinoctial_short_step, C94_keplerian_short_step, C94_long_step_refuted, C95_greater_is_stricter, C95_not_positive_is_idle, C96_equinoctial_elements, C96_keplerian_elements, C96_mirror, C96_same_reflection, C97_stays_in_plane, C98_floats, C98_mirrored_object, C98_mirrored_sky, C98_perturbed_run_in_plane, C98_pull_in_plane, C99_equinoctial_refuted, C99_stays_in_plane.

## 7. Findings

Behaviour of the code that contradicts what it says it does; each has a theorem.

1. `solve` on a re-used object can report the exit code and flag of the previous run (C08).
2. Without `require_full_recharge` a burn can use energy the battery does not have; the clip hides it (C17).
3. With rkf45 the battery is integrated over the suggestion for the next step (C18).
4. A wrong-typed `eta_r` is ignored (C24).
5. A depleted initial battery ends in `UnboundLocalError` (C25).
6. The caller's `oe0` is overwritten for Keplerian elements (C26).
7. Assigning `elements_type` does not change the dynamics (C29).
8. Backward in time: effectivities exchange strongest and weakest (C30), Sundman steps go forward (C31), the duty cycle is
   not enforced (C32).
9. A purely out-of-plane gradient raises `ZeroDivisionError` (C34); so does every equinoctial state with f = 0 (C41, C42,
   C67), which includes every circular start.
10. Non-integer powers make the Keplerian Q nan (C35).
11. Four of the equinoctial normalisers are not the maximal rates on part of the state space (C39).
12. atan(g/f) instead of atan2(g,f): wrong semimajor-axis rate for every f < 0 (C41).
13. The rkf45 weights do not sum to one (2197/4101 for 2197/4104); zero rates divide by zero (C44); stage increments are
    multiplied by the step twice, so the method has no order (C78).
14. psi and thrust are frozen over a step, so the slow elements take an Euler step whatever the integrator (C45).
15. Equatorial orbits lose their periapsis direction in mee2kep (C48, C50, C66).
16. `wrap` has a precedence error (C57); it only affects the anomaly curve of `plot_controls`.
17. The J2 term uses 5z^2 where 5z^2/r^2 is meant (C59), so the physical acceleration depends on the length unit (C81).
18. `third_bodies_names=None` is accepted by the constructor but raises on evaluation (C62).
19. `save_to_dict` converts Keplerian states with an equinoctial function (C65).
20. Plots: efficiency plot of an empty run raises (C69), periapsis curve uses f for e (C70), controls are drawn one interval
    early (C71), `plot_Q` labels the signed dQ/dt as |dQ/dt| on a logarithmic axis; `plot_controls` computes radii it does
    not use; the 3D axis limits look at the transfer only, so the target orbit can be cut off (C79).
21. Printed errors of Keplerian angles can be a whole turn after convergence (C72).
22. A non-integer `n_petro` makes a Keplerian run from below the target coast until it gives up with code -3, draining the
    battery at the discharge rate meanwhile (C82).
23. A Keplerian run that starts exactly on its node or periapsis target never thrusts, even if that element has no weight
    (C92); a restart forgets duty cycle and recharge (C93); a thrust step can raise Q, there is no line search (C94).
24. The Keplerian bounds replace nan by the lower bound in the recorded states, so a lost state looks like an orbit with
    a = 0.05 and e = 0.0001 (C100).
25. The closing message of `solve` repeats an earlier success on a re-used object, and a second time-out is silent (C102).
26. In doubles, t_step = 0.1 and tf_max = 1 give eleven steps, and a duty window of 0.3 three thrusting steps instead of
    four; a step cut to the last battery energy can repeat the time stamp and burn no mass (C105, C106, C109).  With step 1 and tf_max = 2^53 + 2
    the time stops growing and solve never returns (C111).
27. `save_to_dict` opens the file before it encodes: units that json cannot encode leave a truncated file in place of the
    earlier one (C113).  nan and infinities are written as json.dump spells them, which is not standard JSON.
28. The step is cut to the remaining battery energy even while the engine rests (lines 415-418 do not look at `duty`).  In
    doubles such a step can be too small to move the time, and if resting does not change the battery either, solve never
    returns (C115).
29. Without `require_full_recharge` a run can thrust for longer than the battery's charge and all recharging together allow
    (C117, same cause as C17).
30. The perturbing acceleration is evaluated once per step and held over it, in every stage of rk4 and rkf45 (C118).

## 8. Tools and mutation testing

* `tools/props.py` writes `properties.jsonl`; `tools/manifest.py` with `tools/notes.json` writes `MANIFEST.json`;
  `tools/assumptions.py` writes the list in section 6; `tools/design.py` assembles this file from `tools/design.in.md`.
* Wrong programs: a definition of the model is edited in a copy of the development, proofs are re-checked, and the failing
  theorems are recorded in `seeded/LOG.jsonl`.  An edit that breaks nothing is a gap: either a theorem was tightened
  (also recorded) or the log says why the edit cannot be distinguished.
  `failed_theorems` lists the theorems whose proof, or a lemma their proof uses, no longer checks; that alone does not show
  that the statement is false for the edited program (M650 breaks the proof of `C124_steps`, but the statement compares
  two runs of the same program).  `first_failing_lemmas` are the places where checking stopped.  Entries were made while
  the development grew, so a theorem younger than an entry is not in it; C119-C124 were tested with M650-M657 only.

"""Source of properties.jsonl (run: python3 tools/props.py > properties.jsonl)."""
import json
Q="pyqlaw/_qlaw.py"; EL="pyqlaw/_elements.py"; CV="pyqlaw/_convergence.py"; IG="pyqlaw/_integrate.py"
EO="pyqlaw/_eom.py"; LY="pyqlaw/_lyapunov.py"; SY="pyqlaw/_symbolic.py"; PT="pyqlaw/_perturbations.py"
TR="pyqlaw/_transformations.py"; PH="pyqlaw/_plot_helper.py"
P=[]
def p(title, statement, quantifier, why, *anchors):
    P.append(dict(id="C%02d"%(len(P)+1), title=title, statement=statement, quantifier=quantifier,
                  why_tests_cant=why, anchors=list(anchors)))

p("Result histories are aligned",
  "Whenever solve() returns, len(times)=len(states)=len(masses)=len(battery)=n+1 and len(controls)=len(etas)=len(etas_bounds)=len(Qs)=len(dQdts)=n for the same n; entry 0 of times, masses, battery is 0, mass0, battery_initial and entry 0 of states is the oe0 array.",
  "every problem, every control law / dynamics / perturbation behaviour, every number of steps, every exit path",
  "a test sees a handful of runs; a dropped append on one exit path (nan break, relaxed break) only shows on runs that take it",
  f"{Q}:QLaw.solve")
p("Exit code 1 means the target is met",
  "If solve() on a fresh problem object ends with exitcode 1, then converge is True and the last recorded state is within tol_oe of oeT on every element whose weight is non-zero (RAAN and argument of periapsis compared on the circle for Keplerian elements).",
  "every problem and every run length", "requires all trajectories, including those a test would never reach", f"{Q}:QLaw.solve", f"{CV}:check_convergence_keplerian", f"{CV}:check_convergence_mee")
p("Exit code 2 means the relaxed target was met the configured number of times",
  "If solve() on a fresh object ends with exitcode 2, exactly max(1,exit_at_relaxed) post-step states satisfied the relaxed tolerance (relaxed_tol_factor*tol_oe), the last one is among them, and none satisfied the strict tolerance.",
  "every problem and every run", "counting along an arbitrary trajectory", f"{Q}:QLaw.solve")
p("Exit code -1 means mass ran out",
  "If solve() ends with exitcode -1 the last recorded mass is <= mass_min, every earlier post-step mass was > mass_min, and no post-step state met the strict tolerance.",
  "every problem and every run", "depends on the whole history", f"{Q}:QLaw.solve")
p("Exit code -2 means time ran out",
  "If solve() on a fresh object ends with exitcode -2, |times[-1]| >= |tf_max|, no post-step state met the strict tolerance, fewer than exit_at_relaxed met the relaxed one, and every post-step mass exceeds mass_min.",
  "every problem and every run", "depends on the whole history", f"{Q}:QLaw.solve")
p("Exit code -3 means the control law returned nan too often",
  "If solve() ends with exitcode -3, the control law returned a nan angle in exactly nan_angles_threshold+1 thrust-enabled steps (for a non-negative threshold), and |times[-1]| < |tf_max|.",
  "every problem, every control law", "nan-producing inputs are hard to reach by example", f"{Q}:QLaw.solve")
p("Exit code classification is total and agrees with converge",
  "After solve() returns on a fresh object, exitcode is one of 1, 2, -1, -2, -3 and converge is True exactly when exitcode is 1 or 2.",
  "every problem and every run", "needs every exit path", f"{Q}:QLaw.solve")
p("Re-solving reports the new outcome",
  "Calling set_problem() and solve() again on the same object reports an exitcode and converge flag describing the new run only.",
  "every pair of successive problems", "depends on histories of calls; tests build a fresh object each time", f"{Q}:QLaw.__init__", f"{Q}:QLaw.set_problem", f"{Q}:QLaw.solve")
p("solve() stops at the first converged state",
  "Every post-step state except the last fails the strict tolerance check, so the returned history never contains a converged state followed by more steps.",
  "every problem and every run", "for all step counts", f"{Q}:QLaw.solve")
p("Mass bookkeeping",
  "For every step i, masses[i+1] = masses[i] - throttle_i*mdot*(times[i+1]-times[i]); in particular mass is unchanged by a coast step.",
  "every problem, integrator, step", "relation between three histories at every index", f"{Q}:QLaw.solve")
p("Mass never increases and stays above the floor until the end",
  "Propagating forward with mdot >= 0, the mass history is non-increasing, every entry but the first and last exceeds mass_min, and the last exceeds mass_min - mdot*(largest step).",
  "every forward problem", "inductive over the run", f"{Q}:QLaw.solve")
p("Time grid is strictly monotone and overshoots tf_max by less than one step",
  "With t_step > 0 and a fixed step, times is strictly increasing, every entry but the last is < tf_max, and the last is < tf_max + t_step.",
  "every problem without Sundman steps", "inductive over the run", f"{Q}:QLaw.solve")
p("solve() terminates",
  "With t_step > 0, a fixed step, non-negative battery rates and exact arithmetic, solve() stops after a number of steps bounded by tf_max divided by the smallest step (t_step or 1e-12/discharge rate).",
  "every problem", "non-termination cannot be observed by a finite test", f"{Q}:QLaw.solve")
p("Battery level stays within capacity",
  "Every battery entry after the first lies within battery_capacity=(lo,hi), lo <= hi.",
  "every problem, integrator, rates, step", "all interleavings of charge / discharge / truncation", f"{Q}:QLaw.solve")
p("No thrust on a depleted battery",
  "If throttle_i = 1 then the battery level at the start of step i exceeds battery_capacity[0] + 1e-12.",
  "every problem and step", "all interleavings of duty cycle, effectivity and battery", f"{Q}:QLaw.solve")
p("Full recharge lock-out",
  "With require_full_recharge=True, after the battery has been found depleted at the start of some step, no step thrusts until a step boundary at which the battery equals battery_capacity[1].",
  "every problem, every pair of steps", "arbitrary distance between depletion and the violating thrust", f"{Q}:QLaw.solve")
p("Thrust never uses energy the battery does not have",
  "Forward in time with rk4, a step in which the duty flag is on drains exactly discharge_rate*(elapsed time): the clip at the bottom of the battery never hides a deficit.",
  "every problem and step", "needs the interplay of charging flag and step truncation over all histories", f"{Q}:QLaw.solve")
p("Battery is integrated over the elapsed time",
  "For every step the change of battery level (before clipping at capacity) is rate*(times[i+1]-times[i]), for both integrators.",
  "every problem, both integrators", "every step; the defect only appears for one integrator option", f"{Q}:QLaw.solve")
p("Battery-limited step truncation is sound",
  "Forward in time, when a step is shortened because of the battery the shortened step is positive, not longer than the nominal step, and a thrust-enabled shortened step ends exactly at battery_capacity[0]; no division by zero can happen.",
  "every battery state and rates", "boundary arithmetic over all reals", f"{Q}:QLaw.solve")
p("Duty-cycle ON limit",
  "Forward in time with OFF >= 0: in any run of consecutive thrusting steps i..j, times[j]-times[i] <= ON, hence the burn is no longer than ON plus one step.",
  "every problem, every pair of steps", "arbitrarily long burns", f"{Q}:QLaw.solve")
p("Duty-cycle OFF rest",
  "Forward in time: if steps i<k both thrust and times[k]-times[i] > ON, then strictly between them there is a contiguous block of coasting steps lasting more than OFF.",
  "every problem, every pair of steps", "arbitrary histories", f"{Q}:QLaw.solve")
p("Coasting preserves the orbit",
  "A step with throttle 0 and no perturbation model leaves the five slow elements exactly unchanged (both integrators, both element sets).",
  "every state and step size", "exact equality for all reals", f"{Q}:QLaw.solve", f"{IG}:rk4", f"{IG}:rkf45", f"{EO}:eom_kep_gauss", f"{EO}:eom_mee_with_a_gauss")
p("Effectivity thresholds gate thrust",
  "If a threshold in force at a step is positive, the recorded effectivities satisfy: throttle 1 implies eta_a >= its threshold and eta_r >= its threshold; with finite angles and duty on, throttle is 0 exactly when one of them is below its threshold.",
  "every problem, threshold function, step", "all control-law outputs", f"{Q}:QLaw.solve")
p("Efficiency arguments of the wrong type are rejected",
  "solve(eta_a, eta_r) raises ValueError, before touching the histories, when either efficiency is neither a float nor a callable (for instance an int).",
  "every value of the two arguments", "all argument types and their combinations", f"{Q}:QLaw.solve")
p("A depleted initial battery is handled",
  "solve() does not raise when the first step cannot thrust (battery_initial at or below battery_capacity[0]); it coasts.",
  "every problem whose first step is thrust-disabled", "needs the exact condition under which the failure happens", f"{Q}:QLaw.solve")
p("solve() does not modify the caller's arrays",
  "The oe0 array passed to set_problem() has the same contents after solve() as before.",
  "every problem, both element sets", "aliasing across calls", f"{Q}:QLaw.solve", f"{CV}:elements_safety")
p("Keplerian states are safeguarded",
  "With Keplerian elements every state used for a step (hence every recorded state but the last) has its five slow elements within [oe_min, oe_max] when oe_min <= oe_max.",
  "every run", "all trajectories", f"{Q}:QLaw.solve", f"{CV}:elements_safety")
p("Constructor and setters validate their arguments",
  "QLaw(...) and the attribute setters raise AssertionError exactly when mu <= 0, elements_type/integrator is not one of the two accepted strings, relaxed_tol_factor < 1 or tol_oe does not have 5 entries; set_problem raises exactly when oe0 does not have 6 entries, mass_min < 1e-2 or woe does not have 5 entries; solve raises before set_problem.",
  "every argument combination", "all combinations and their order", f"{Q}:QLaw.__init__", f"{Q}:QLaw.set_problem", f"{Q}:QLaw.solve")
p("elements_type and the dynamics agree",
  "At any time the dynamics, control law and convergence check used by solve() are those of the object's current elements_type.",
  "every sequence of construction and attribute assignment", "histories of attribute writes", f"{Q}:QLaw.elements_type", f"{Q}:QLaw.__init__")
p("Effectivities are fractions",
  "The absolute and relative effectivities recorded for a step lie in [0,1] (when not all grid values coincide), with 1 at the best grid location, both forward and backward in time.",
  "every state, target, grid size, propagation direction", "sup over a continuum of states", f"{Q}:QLaw.solve", f"{Q}:QLaw.evaluate_osculating_qdot", f"{SY}:symbolic_qlaw_mee_with_a")
p("Sundman steps are Kepler time of flight",
  "With use_sundman, the step taken is the unperturbed time of flight for an eccentric-anomaly increment t_step: positive for t_step > 0 and negative for t_step < 0.",
  "every elliptic state, every increment", "all reals; transcendental equation", f"{Q}:QLaw.solve", f"{EL}:ta2ea", f"{EL}:mee2ea")
p("Backward propagation mirrors forward propagation",
  "With t_step < 0 time decreases, propellant is put back on thrust steps, and the duty-cycle limit is enforced on |t|.",
  "every backward problem", "histories of arbitrary length", f"{Q}:QLaw.solve")
p("Thrust direction is steepest descent of Q",
  "The unit thrust vector (cos b sin a, cos b cos a, sin b) built from the returned angles equals -D/|D| for the control gradient D, and minimises D.v over all unit vectors v; alpha lies in (-pi,pi], beta in [-pi/2,pi/2].",
  "every gradient with non-zero in-plane part", "continuum of directions", f"{LY}:_u_to_thrust_angles", f"{LY}:lyapunov_control_angles")
p("Singular control gradients are detected, not thrust along",
  "If the control gradient is zero or not finite the returned angles are nan, so solve() coasts for that step and counts it towards nan_angles_threshold.",
  "every non-finite or zero gradient", "nan propagation for all values", f"{LY}:_u_to_thrust_angles", f"{Q}:QLaw.solve")
p("Q is a Lyapunov candidate",
  "For an elliptic state, positive weights and target semimajor axis, and non-zero thrust acceleration, Q >= 0, and Q = 0 iff every element equals its target (angles on the circle); zero-weight elements do not contribute.",
  "every state/target/weights/parameters", "positivity over a continuum", f"{SY}:symbolic_qlaw_keplerian", f"{SY}:symbolic_qlaw_mee_with_a")
p("The reported dQ/doe is the gradient of Q",
  "Wherever Q is differentiable term by term, the five values returned next to q are the partial derivatives of q with respect to the slow elements.",
  "every state and parameter", "derivative identity over a continuum", f"{SY}:symbolic_qlaw_keplerian", f"{SY}:symbolic_qlaw_mee_with_a")
p("Both dQ/dt evaluations agree and equal the decrease rate",
  "The qdot of lyapunov_control_angles equals the stand-alone dqdt function at the same state, equals f*|D|, and thrusting along the returned direction makes Q decrease at exactly that rate through the slow-element equations.",
  "every state where Q is differentiable (as in C36) and the control gradient has a non-zero in-plane part", "identity over a continuum", f"{SY}:symbolic_qlaw_mee_with_a", f"{LY}:lyapunov_control_angles", f"{EO}:eom_mee_with_a_gauss")
p("Keplerian Q normalisers are the maximal rates",
  "The quantities dividing (a-aT),(e-eT),(i-iT),(RAAN-RAAN_T) in Q are the maxima over thrust direction and true anomaly of the corresponding Gauss rates; the one dividing the argument-of-periapsis difference is (Wi+b*Wo)/(1+b) with Wi, Wo the maxima over in-plane and over normal thrust.",
  "every elliptic orbit, every anomaly, every thrust direction", "sup over a continuum", f"{SY}:symbolic_qlaw_keplerian")
p("Equinoctial Q normalisers are the maximal rates",
  "The quantities dividing the five slow equinoctial differences in Q bound the Gauss rates over thrust direction and longitude, and are attained.",
  "every elliptic orbit, longitude, thrust direction", "sup over a continuum; the defect needs a sign condition", f"{SY}:symbolic_qlaw_mee_with_a")
p("Keplerian dynamics are Newton's law",
  "Elements moving with the rates of eom_kep_gauss (psi taken from the Keplerian Q-law) have a Cartesian state (kep2sv) with r' = v and v' = -mu r/|r|^3 + F, where F is thrust plus perturbation in the radial-transverse-normal frame.",
  "every non-circular, inclined elliptic state, every acceleration", "derivative identity over a continuum", f"{SY}:symbolic_qlaw_keplerian", f"{EO}:eom_kep_gauss", f"{EL}:kep2sv")
p("Equinoctial dynamics are Newton's law",
  "Elements moving with the rates of eom_mee_with_a_gauss (psi taken from the mee_with_a Q-law) have a Cartesian state with r' = v and v' = -mu r/|r|^3 + F, for every elliptic state.",
  "every elliptic state, every acceleration", "half of the state space behaves differently", f"{SY}:symbolic_qlaw_mee_with_a", f"{EO}:eom_mee_with_a_gauss")
p("Unperturbed dynamics are two-body motion",
  "With zero thrust and perturbation, following the equations of motion and converting to Cartesian gives r' = v and v' = -mu r/|r|^3.",
  "every elliptic state", "ODE identity over a continuum", f"{EO}:eom_kep_gauss", f"{EO}:eom_mee_with_a_gauss", f"{EL}:kep2sv")
p("rk4 is a consistent fourth-order step",
  "rk4 integrates any polynomial-in-time right-hand side of degree <= 3 exactly and reproduces the degree-4 Taylor polynomial of the flow on linear systems.",
  "every dimension, step, coefficients", "identity over all coefficients", f"{IG}:rk4")
p("rkf45 is a consistent integrator",
  "rkf45 integrates a constant right-hand side exactly.", "every constant right-hand side and step",
  "small coefficient error is hidden by test tolerances", f"{IG}:rkf45")
p("The integrator option gives fourth-order accuracy for the slow elements",
  "With integrator='rk4' one step of the slow elements agrees with the solution of the Gauss equations to fourth order.",
  "every state and step", "order conditions are about limits", f"{Q}:QLaw.solve", f"{EO}:eom_kep_gauss", f"{EO}:eom_mee_with_a_gauss")
p("kep2sv produces the orbit it was asked for",
  "kep2sv(kep,mu) has radius a(1-e^2)/(1+e cos ta), energy -mu/(2a), angular momentum of norm sqrt(mu a (1-e^2)) along the direction given by inc and raan, regardless of which angles are zero.",
  "every elliptic element set", "identities over a continuum, plus the zero-angle branches", f"{EL}:kep2sv", f"{TR}:rotmat1", f"{TR}:rotmat3")
p("Keplerian/Cartesian round trip",
  "sv2kep(kep2sv(kep,mu),mu) = kep for non-degenerate elliptic elements with angles in their principal ranges.",
  "every such element set whose node line and eccentricity vector pass the 1e-12 threshold of the code", "all quadrants and branches", f"{EL}:sv2kep", f"{EL}:kep2sv")
p("Keplerian/equinoctial round trip",
  "kep2mee and mee2kep are inverse to each other (angles on the circle); in particular kep2mee(mee2kep(m)) = m for every elliptic m.",
  "every elliptic element set", "degenerate inclination is measure zero", f"{EL}:kep2mee", f"{EL}:mee2kep")
p("Equinoctial / equinoctial-with-SMA round trip",
  "mee_with_a2mee and mee2mee_with_a are mutually inverse on elliptic elements and kep2mee_with_a = mee2mee_with_a o kep2mee.",
  "every elliptic element set", "identity over a continuum", f"{EL}:mee_with_a2mee", f"{EL}:mee2mee_with_a", f"{EL}:kep2mee_with_a")
p("mee_with_a2sv gives the right Cartesian state",
  "mee_with_a2sv(m,mu) equals the standard closed-form Cartesian state of the equinoctial elements, for every elliptic m including equatorial ones.",
  "every elliptic element set", "failure set has measure zero but is the common i=0 start", f"{EL}:mee_with_a2sv", f"{EL}:mee2kep")
p("True to eccentric anomaly",
  "ta2ea returns E with cos E=(e+cos ta)/(1+e cos ta), sin E=sqrt(1-e^2) sin ta/(1+e cos ta); mee2ea gives the same E for the equinoctial image of a Keplerian state.",
  "every eccentricity in [0,1) and every anomaly except odd multiples of pi, where tan(ta/2) is undefined", "all quadrants", f"{EL}:ta2ea", f"{EL}:mee2ea")
p("Period and semimajor axis",
  "get_semiMajorAxis satisfies the vis-viva energy relation for every state and get_period returns 2 pi sqrt(a^3/mu) on elliptic states and -1 on hyperbolic ones.",
  "every non-degenerate state vector", "continuum of states", f"{EL}:get_semiMajorAxis", f"{EL}:get_period")
p("Orbit sampling",
  "get_orbit_coordinates returns `steps` states all on the same orbit (equal energy and angular momentum), starting at periapsis, with first and last column equal when steps >= 2.",
  "every elliptic element set and steps", "all sizes", f"{EL}:get_orbit_coordinates")
p("Convergence tests",
  "check_convergence_* return True iff every element with non-zero weight is within tolerance; Keplerian angles are compared modulo 2 pi.",
  "every state, target, weights, tolerances", "all angle representatives", f"{CV}:check_convergence_keplerian", f"{CV}:check_convergence_mee")
p("Relaxed tolerance is weaker",
  "For non-negative tolerances and relaxed_tol_factor >= 1, a state within tol_oe is also within the relaxed tolerance.",
  "every state/target/weights", "monotonicity over a continuum", f"{Q}:QLaw.__init__", f"{CV}:check_convergence_mee")
p("Element safeguarding clamps",
  "elements_safety returns the componentwise projection of the first five elements on [oe_min,oe_max], leaves the sixth unchanged, is the identity in range, and is idempotent.",
  "every vector and bounds", "all boundary combinations", f"{CV}:elements_safety")
p("wrap returns the same angle in [-pi,pi)",
  "wrap(alpha) lies in [-pi,pi) and differs from alpha by a multiple of 2 pi.", "every angle", "all reals", f"{TR}:wrap")
p("Third-body perturbation",
  "perturbation_third_body_battin equals the direct third-body term -mu3*(d/|d|^3 + s/|s|^3), d=r-s.",
  "every pair of positions with d,s non-zero", "identity over a continuum", f"{PT}:perturbation_third_body_battin")
p("J2 perturbation",
  "perturbation_J2 is the gradient of the J2 disturbing potential, expressed in ECI, for every position and rotation.",
  "every position and rotation matrix", "identity over a continuum; unit tests at |r|=1 pass", f"{PT}:perturbation_J2")
p("Solar radiation pressure",
  "perturbation_SRP points away from the Sun with magnitude k_srp*(AU/d)^2 at distance d.", "every non-zero position", "continuum", f"{PT}:perturbation_SRP")
p("RTN frame is a rotation",
  "pxformECI2RTN(r,v) is orthonormal with determinant 1, maps r to (|r|,0,0), r x v to (0,0,|r x v|), v to zero normal component and positive transverse component, and so preserves the norm of every perturbation.",
  "every non-degenerate r,v", "identity over a continuum", f"{PT}:pxformECI2RTN", f"{PT}:SpicePerturbations.get_perturbations_RTN")
p("Perturbation model assembly",
  "get_perturbations_RTN is the RTN rotation of the sum of the enabled terms for any list of third bodies, including none, and rejects an unknown elements_type.",
  "every configuration", "all subsets of options", f"{PT}:SpicePerturbations")
p("Plot sphere and ellipsoid lie on their surfaces",
  "Every point returned by get_sphere_coordinates is at distance radius of center; every point of get_ellipsoid_coordinates satisfies the ellipsoid equation.",
  "every radius/center/grid", "all grid points and parameters", f"{PH}:get_sphere_coordinates", f"{PH}:get_ellipsoid_coordinates")
p("Equal axis limits",
  "set_equal_axis sets axis ranges of equal length on all axes, centred on the data, containing the data whenever scale >= 1.",
  "every limits and scale", "continuum", f"{PH}:set_equal_axis")
p("Exported dictionary",
  "save_to_dict pairs every time with an MEE state of the same orbit plus the mass, and with a unit RTN vector and throttle; the control list is as long as the time list.",
  "every solved problem, both element sets", "all histories", f"{Q}:QLaw.save_to_dict")
p("Cartesian history",
  "get_cartesian_history() without interpolation has one column per recorded time, each the Cartesian state of the recorded elements; the default number of interpolation samples is at most 8000 and non-negative.",
  "every history", "all sizes", f"{Q}:QLaw.get_cartesian_history")
p("Singular equinoctial start is reported",
  "Starting solve() with mee_with_a from an exactly circular orbit (f=g=0) makes the control law return nan on every step, so with a sufficiently large tf_max the run ends with exitcode -3 after nan_angles_threshold recorded coasting steps.",
  "every such problem and threshold", "nan propagation through the whole expression and loop", f"{SY}:symbolic_qlaw_mee_with_a", f"{Q}:QLaw.solve")
p("p-based equinoctial dynamics are Newton's law",
  "Elements (p,f,g,h,k,L) moving with the rates of eom_mee_gauss have a Cartesian state with r' = v and v' = -mu r/|r|^3 + F.",
  "every elliptic state, every acceleration", "derivative identity over a continuum", f"{EO}:eom_mee_gauss")
PM = "pyqlaw/_plot_methods.py"
p("Plotted curves are complete",
  "plot_battery_history, plot_Q, plot_controls and plot_efficiency draw every recorded value against its own recorded time, and never fail on curves of different lengths, after any run of solve().",
  "every run, every exit code, both step-control settings", "the sizes of eight histories on every path through the loop", f"{PM}:plot_battery_history", f"{PM}:plot_Q", f"{PM}:plot_controls", f"{PM}:plot_efficiency")
p("Element history plot",
  "plot_elements_history shows the recorded elements, the target with its tolerance band, the mass, and with plot_periapsis=True the periapsis radius a(1-e), for both element sets and both values of to_keplerian.",
  "every history", "identity over a continuum of states, two element sets", f"{PM}:plot_elements_history")
p("Control plot shows the control in force",
  "On each recorded interval the curves of plot_controls have the value of the control flown on that interval.",
  "every run and instant", "all instants of all runs", f"{PM}:plot_controls")
p("Printed errors agree with the exit code",
  "When the exit code is 1 every error printed by pretty_results (element minus target) is below the tolerance of its element.",
  "every run, both element sets", "all converged states", f"{Q}:QLaw.pretty_results", f"{CV}:check_convergence_keplerian")
p("The recorded history is a solution",
  "Every recorded state is the previous integrator output inside its bounds, and every integrator output is one step of the chosen integrator on the chosen equations of motion from the recorded time and state, with acceleration tmax/m along the recorded angles when the recorded throttle is 1 and none when it is 0, and with the perturbation at the recorded time; the recorded Q and dQ/dt are those of the control law there.",
  "every run, both integrators, both element sets, any perturbation", "relates six recorded lists on every path through the loop", f"{Q}:QLaw.solve")
p("Thrust is applied in full along steepest descent",
  "On every thrusting step the applied acceleration has magnitude tmax/m and among all accelerations of at most that magnitude it changes Q the most in the descending direction, forward and backward in time.",
  "every thrusting step of every run with non-negative thrust, positive mass and a gradient with an in-plane part", "minimum over a continuum of directions, every state", f"{Q}:QLaw.solve", f"{LY}:lyapunov_control_angles")
p("Every coast has a reason",
  "A recorded step without thrust happens only because the control law asks for it (nan direction or effectivity below a threshold), the battery is depleted, a full recharge is due, or the duty cycle is in its OFF time.",
  "every coasting step of every run", "history dependent: battery and duty cycle flags over arbitrarily many earlier steps", f"{Q}:QLaw.solve")
p("Defaults mean unlimited power",
  "With the default duty cycle, battery and thresholds a step coasts only when the control law returns nan angles.",
  "every run of a problem set with defaults", "all run lengths; the on-time of 1e16 must exceed any run", f"{Q}:QLaw.set_problem", f"{Q}:QLaw.solve")
p("Arguments are stored",
  "The constructor and set_problem store every argument unchanged (the target without its sixth element), relaxed tolerances are relaxed_tol_factor times the tolerances, omitted arguments get their documented defaults, and set_problem changes nothing else.",
  "every combination of arguments", "38 arguments, all values", f"{Q}:QLaw.__init__", f"{Q}:QLaw.set_problem")
p("rkf45 is a fourth-order step with step-size control",
  "One rkf45 step agrees with the solution of the differential equation through order four in the step, and suggests the next step 0.84*h*(tol/err)^(1/4) where err is the distance to the fifth-order solution.",
  "every linear system and every rate depending on time only, every state, step and tolerance", "order conditions are identities between 20 coefficients for all right-hand sides", f"{IG}:rkf45")
p("Trajectory figures",
  "plot_trajectory_2d and plot_trajectory_3d draw the initial and the target orbit as closed curves over one revolution and the transfer through every point of the Cartesian history with its first and last point marked; the axis limits of the 3D figure contain all three curves.",
  "every ellipse, both element sets, every Cartesian history", "compares 200 points with a continuum of orbits; limits for every history", f"{PM}:plot_trajectory_2d", f"{PM}:plot_trajectory_3d", f"{PH}:set_equal_axis")
p("Elementary rotations",
  "rotmat1, rotmat2 and rotmat3 are right-handed rotation matrices that lower by phi the angle of a vector about the first, second and third axis.",
  "every angle and vector", "identity over all angles; rotmat2 is used by no other function", f"{TR}:rotmat1", f"{TR}:rotmat2", f"{TR}:rotmat3")
p("Perturbations do not depend on units",
  "For an object built by the constructor, the result of get_perturbations_RTN times LU/TU^2 is the acceleration in km/s^2 due to the third bodies, the oblateness and the radiation pressure at the orbit and instant described by the arguments, whatever LU and TU.",
  "all units, orbits of both element sets, instants, ephemerides and lists of bodies", "relates runs of the same physical situation in all systems of units", f"{PT}:SpicePerturbations.__init__", f"{PT}:SpicePerturbations.get_perturbations_RTN")
p("A law that is nan gives up cleanly",
  "A run whose control law is nan at every state on its orbit coasts exactly nan_angles_threshold steps along that orbit and returns with code -3; in particular a Keplerian run with a non-integer n_petro that starts below its target semimajor axis never thrusts.",
  "every such Keplerian run with RK4, any threshold, orbit, target, step and battery that last long enough", "all run lengths with the real equations; nan does not satisfy the algebra of numbers", f"{Q}:QLaw.solve", f"{SY}:symbolic_qlaw_keplerian", f"{EO}:eom_kep_gauss")
p("Runs do not depend on units",
  "Converting a problem to other units of length, time and mass (state, target, tolerances, bounds, mu, rpmin, thrust, mass flow, times, perturbations, threshold functions) converts its run: same outcome and exit code, same thrust angles, throttles, effectivities and battery levels, converted times, states, masses, Q and dQ/dt.",
  "every problem, both element sets, all positive units, runs of any length, with nan and infinite entries", "relates runs in all systems of units; a hidden dimensional constant shows only in some units", f"{Q}:QLaw.solve", f"{SY}:symbolic_qlaw_keplerian", f"{SY}:symbolic_qlaw_mee_with_a", f"{EO}:eom_kep_gauss", f"{EO}:eom_mee_with_a_gauss", f"{IG}:rk4", f"{IG}:rkf45")
p("Runs do not depend on the reference axis or on whole turns",
  "Counting the ascending node from another axis, for state, target and bounds alike, and adding whole turns to angles of the state or the target changes nothing in a Keplerian run but the state angles by those amounts; an equinoctial run is unchanged by whole turns of the true longitude and by turning the axis.",
  "every problem, both integrators, with and without use_sundman, all angles, runs of any length", "relates runs for a continuum of axes and all numbers of turns", f"{Q}:QLaw.solve", f"{SY}:symbolic_qlaw_keplerian", f"{SY}:symbolic_qlaw_mee_with_a", f"{CV}:check_convergence_keplerian", f"{CV}:elements_safety")
p("A run obeys the rocket equation and cannot outspend its tank",
  "In every run, with any step-size rule, the propellant used is mdot times the time with the thruster on. Forward in time, the velocity change summed from the recorded accelerations tmax/m is at most (tmax/mdot) ln(m_first/m_last), and the sum with end-of-step masses is at least that. Backward in time the mass grows and the two sums swap. With fixed steps and finite parameters no run spends more than (tmax/mdot) ln(mass0/(mass_min - mdot*t_step)).",
  "all objects, problems, thresholds and numbers of steps; tmax >= 0, mdot > 0, positive masses",
  "The bound quantifies over every control history, coast pattern and run length; a test sees one trajectory, and the logarithm never appears in the code.",
  f"{Q}:QLaw.solve")

p("From a Cartesian state to elements and back",
  "Every bound state with non-zero angular momentum is the kep2sv of some elements; sv2kep followed by kep2sv succeeds on it and keeps energy and angular momentum, and returns the very state when |node line|*eccentricity is at least 1e-12 or the orbit is equatorial, counter-clockwise and eccentric. It does not return the state on circular and on equatorial retrograde orbits, and, because the threshold has no units, on some plainly eccentric inclined ones.",
  "every mu > 0 and every bound state", "a surjectivity statement over a six-dimensional continuum; the failures sit on sets of measure zero that random states never hit", f"{EL}:sv2kep", f"{EL}:kep2sv", f"{EL}:get_omega", f"{EL}:get_raan", f"{EL}:get_inclination", f"{EL}:get_trueanom")

p("Stopping criteria only cut a run off",
  "The tolerances, the relaxed tolerances with their hit count, the nan threshold, the final time and the minimum mass influence nothing but the row at which a run ends: of two runs that differ only in these settings one history is the beginning of the other. With a later final time a run goes on where it was cut off, and one that ended for another reason is unchanged.",
  "every object and problem, both integrators, any pair of stopping settings, runs of any length, any arithmetic", "relates two runs of arbitrary length for every pair of settings", f"{Q}:QLaw.solve")

p("Only ratios of weights matter",
  "Multiplying the five weights woe by one positive number multiplies the recorded Q and dQ/dt by it and changes nothing else in a run: outcome, exit code, times, states, masses, thrust angles, throttles, effectivities and battery levels are the same.",
  "every problem, both element sets and integrators, every positive factor, runs of any length, with nan and infinite entries", "relates runs for a continuum of factors", f"{Q}:QLaw.solve", f"{SY}:symbolic_qlaw_keplerian", f"{SY}:symbolic_qlaw_mee_with_a")
p("Thrust decisions do not depend on the force level",
  "At a given state, t times the acceleration around a body with d times the gravitational parameter gives the same thrust angles, effectivities and throttle; Q becomes d/t^2 times and dQ/dt sqrt(d)/t times as large.",
  "every state, law parameter, threshold, t > 0 and d > 0, both element sets, with nan and infinite entries", "homogeneity of two large generated expressions over a continuum", f"{Q}:QLaw.solve", f"{Q}:QLaw.evaluate_osculating_qdot", f"{LY}:lyapunov_control_angles", f"{SY}:symbolic_qlaw_keplerian", f"{SY}:symbolic_qlaw_mee_with_a")
p("The law always has an answer on regular states",
  "At a proper ellipse away from the kinks of Q every output of the control law is finite. Where the gradient of Q has an in-plane part, the iteration raises nothing, counts no nan answer, and thrusts along the steepest descent of Q unless an effectivity is below its threshold; where the rate is the same all around the orbit the relative effectivity is nan and never cuts thrust off.",
  "every regular state and parameter set, both element sets, any thresholds", "absence of nan over a continuum of states in expressions with dozens of divisions, roots and powers", f"{Q}:QLaw.solve", f"{LY}:lyapunov_control_angles", f"{SY}:symbolic_qlaw_keplerian", f"{SY}:symbolic_qlaw_mee_with_a")

p("The target of an element without weight has no influence",
  "Changing the target value of an element (other than the semimajor axis) whose weight is zero to any other finite value changes nothing in a run.",
  "every problem, both element sets and integrators, all finite target values, runs of any length", "relates runs for a continuum of targets; it fails for Keplerian angles only at states exactly on a target, where the gradient is 0/0 whatever the weight", f"{Q}:QLaw.solve", f"{SY}:symbolic_qlaw_keplerian", f"{SY}:symbolic_qlaw_mee_with_a", f"{CV}:check_convergence_keplerian", f"{CV}:check_convergence_mee")
p("A Keplerian run that starts on its node or periapsis target never thrusts",
  "An unperturbed Keplerian run with RK4 and fixed steps that starts with right ascension or argument of periapsis exactly equal to the target, whatever their weights, and with semimajor axis, eccentricity or inclination still off, coasts nan_angles_threshold steps along its initial orbit and returns with code -3.",
  "every such start, target, weight vector, threshold and law parameter; battery and time that last long enough", "starting values with measure zero that users choose often (equal initial and target angle); all run lengths", f"{Q}:QLaw.solve", f"{SY}:symbolic_qlaw_keplerian", f"{LY}:lyapunov_control_angles")

p("A run can be taken up again from any of its rows",
  "Starting a new run from the state, mass and battery level recorded at any row of a run, with any stopping criteria, repeats the old run from that row on with the clock set back, provided nothing depends on the time of day and neither the duty cycle nor an empty battery has interfered. With a duty cycle or with full recharges required this is false: the restarted run has a fresh on-time and has forgotten that it must recharge.",
  "every object and problem, both element sets and integrators, every row, any stopping settings of the second run, runs of any length, with nan and infinite entries", "relates two runs of arbitrary length for every cut", f"{Q}:QLaw.solve", f"{Q}:QLaw.set_problem")

p("A short thrust step lowers Q, a long one may not",
  "One RK4 step of length h along the thrust the law asks for, with the law's own psi and no perturbation, succeeds for short h and changes Q by -h times the recorded dQ/dt up to an error smaller than any multiple of |h|; so a short enough step, forward or backward, lowers Q. Steps of any length do not: there is no line search, and a thrusting step can end on an ellipse with larger Q.",
  "every regular state and parameter set with a gradient in the orbital plane, both element sets, all step lengths", "a limit statement over a continuum of states; samples of one step length say nothing about shorter ones", f"{Q}:QLaw.solve", f"{IG}:rk4", f"{LY}:lyapunov_control_angles", f"{EO}:eom_kep_gauss", f"{EO}:eom_mee_with_a_gauss")

p("Effectivity thresholds act only through the throttle",
  "Two runs of one problem that differ only in the effectivity thresholds given to solve are the same flight with the same exit, unless there is a first row where both ask for the same direction and one thrusts and the other coasts; everything recorded up to that decision agrees. With stricter (greater) thresholds that first difference is always thrust switched off, and thresholds that are never positive all give the same flight.",
  "every object and problem, both element sets and integrators, thresholds given as numbers or as functions of time, state, mass and battery, runs of any length, any arithmetic", "relates two runs of arbitrary length for every pair of thresholds, including arbitrary functions", f"{Q}:QLaw.solve", f"{Q}:QLaw.evaluate_osculating_qdot")

p("Mirroring a transfer in the reference plane mirrors the run",
  "The transfer reflected in the reference plane (node and argument of periapsis half a turn on, or h and k with the other sign; target, Keplerian bounds, perturbation and threshold functions alike) gives the reflected run: same outcome, times, masses, in-plane thrust angles, throttles, effectivities, battery levels, Q and dQ/dt, and out-of-plane angles of the other sign.",
  "every problem, both element sets and integrators, with use_sundman, runs of any length, with nan and infinite entries", "a symmetry of two large generated expressions, of their gradients and of every later stage, over a continuum of problems", f"{Q}:QLaw.solve", f"{LY}:lyapunov_control_angles", f"{SY}:symbolic_qlaw_keplerian", f"{SY}:symbolic_qlaw_mee_with_a", f"{EO}:eom_kep_gauss", f"{EO}:eom_mee_with_a_gauss", f"{IG}:rk4", f"{IG}:rkf45")
p("An equinoctial transfer in the reference plane stays in it",
  "An equinoctial run that starts in the reference plane, has its target there and meets no perturbation out of it records h and k equal to zero (or nan) in every row and never steers out of the plane.",
  "every such problem, any thresholds, both integrators, returns and exceptions alike, runs of any length", "an exact invariant over runs of arbitrary length", f"{Q}:QLaw.solve", f"{LY}:lyapunov_control_angles", f"{SY}:symbolic_qlaw_mee_with_a", f"{EO}:eom_mee_with_a_gauss")

p("Built-in perturbations respect the reference plane",
  "With the perturbing bodies in the reference plane and the axis of the oblate body normal to it, SpicePerturbations returns no normal acceleration for an equinoctial orbit in that plane, so a perturbed planar run stays planar. Under the sky reflected in the plane the reflected orbit gets the reflected acceleration, or the same exception; on finite floats the result is the one of the real numbers.",
  "every ephemeris, settings and orbit, both element sets for the reflection, runs of any length", "SPICE is replaced by an arbitrary ephemeris; exact zeros and exact symmetry over a continuum of states", f"{PT}:SpicePerturbations.get_perturbations_RTN", f"{PT}:perturbation_third_body_battin", f"{PT}:perturbation_J2", f"{PT}:perturbation_SRP", f"{PT}:pxformECI2RTN", f"{EL}:mee_with_a2sv", f"{Q}:QLaw.solve")

p("Without weight on its plane a Keplerian run stays in it",
  "A Keplerian run whose inclination, node and argument of periapsis have no weight, which starts within the bounds and meets no perturbation normal to its orbit records the inclination and node of the start in every row (or nan, or the bound that has replaced a nan) and never steers out of the plane. Equinoctial elements do not share this: weight on f or g alone can ask for thrust out of the plane.",
  "every such problem, any thresholds, both integrators, returns and exceptions alike, runs of any length, with nan and infinite entries", "an exact invariant over runs of arbitrary length and a continuum of states", f"{Q}:QLaw.solve", f"{LY}:lyapunov_control_angles", f"{SY}:symbolic_qlaw_keplerian", f"{SY}:symbolic_qlaw_mee_with_a", f"{EO}:eom_kep_gauss", f"{CV}:elements_safety")
p("A nan in the state stays visible",
  "An element that becomes nan during a run is nan in the recorded states from then on.",
  "every object and problem, both element sets and integrators, any perturbation, runs of any length", "nan arises only in rare states or from user-supplied perturbations; the claim is about every later row", f"{Q}:QLaw.solve", f"{CV}:elements_safety", f"{IG}:rk4", f"{IG}:rkf45")

p("Printing does not change a run",
  "Whatever verbosity and print_frequency are, solve() computes, returns or raises the same and leaves the same object.",
  "every object of the library and every problem, any verbosity and (non-zero) print frequency, runs of any length", "relates runs for every verbosity and frequency; forming a line could raise", f"{Q}:QLaw.solve")
p("The closing line tells how the run ended",
  "At verbosity 0 or less solve() prints nothing; at verbosity 1 it prints one line, the message that belongs to the exit code; at higher verbosity that line comes last, below the progress table.",
  "every object and problem, any arithmetic, runs of any length", "covers every way a run can end, including re-used objects", f"{Q}:QLaw.solve")
p("The progress table shows the run",
  "The progress lines are those of the steps 0, f, 2f, ... (f the print frequency) that did not end the run by convergence; the line of a step shows the time at its end, the gaps between the elements the integrator returned and the target, and the anomaly, with a header above every twentieth line. With equinoctial elements these are entries of the recorded histories.",
  "every object and problem, any arithmetic, any verbosity and frequency, runs of any length", "an exact description of a transcript of arbitrary length", f"{Q}:QLaw.solve")
p("pretty() shows the transfer that was set",
  "pretty() lists the five slow elements with the initial values, the targets and the weights given to set_problem.",
  "every problem, before and after solve", "solve() may overwrite what was set", f"{Q}:QLaw.pretty", f"{Q}:QLaw.set_problem", f"{Q}:QLaw.solve")

p("Time goes forward in double precision",
  "In IEEE double arithmetic the recorded times of a run with positive steps start at zero and each is greater than the one before.",
  "every object, dynamics, control law and elementary-function library, every problem with finite battery data, runs of any length, all rounding", "rounding errors over runs of arbitrary length and every binary64 input", f"{Q}:QLaw.solve")
p("Thrust burns propellant in double precision",
  "In IEEE double arithmetic the recorded mass never grows, and falls in every thrusting step.",
  "every object, dynamics, control law and elementary-function library, every problem with finite battery data and positive finite mass flow, runs of any length, all rounding", "rounding errors over runs of arbitrary length and every binary64 input", f"{Q}:QLaw.solve")
p("The battery stays within its capacity in double precision",
  "In IEEE double arithmetic every battery level after the first lies between the two capacities, exactly and not up to rounding; with positive charge rate and fixed RK4 steps it is never nan, and the division that shortens a step to the remaining energy never divides by zero or gives a negative step.",
  "every object and problem, runs of any length, all rounding", "rounding errors over runs of arbitrary length and every binary64 input", f"{Q}:QLaw.solve")
p("Keplerian elements stay within their bounds in double precision",
  "In IEEE double arithmetic every state a Keplerian run integrates from has its elements between elements_safety's bounds, whatever the dynamics produced, nan and infinity included.",
  "every object and problem, any dynamics and elementary functions, runs of any length, all rounding", "every binary64 value the dynamics could produce", f"{Q}:QLaw.solve", f"{CV}:elements_safety")
p("In double precision a run takes the steps of exact arithmetic",
  "Run in IEEE doubles, a problem with fixed steps takes as many steps to tf_max, and thrusts and rests in the same steps, as in exact arithmetic.",
  "every problem without battery use, step sizes and durations that are multiples of one power of two below 2^53, runs of any length", "accumulated rounding over runs of arbitrary length", f"{Q}:QLaw.solve")

p("The duty cycle holds in double precision",
  "In IEEE double arithmetic consecutive thrusting steps start no more than the ON time apart, and between two thrusting steps further apart there is a rest longer than the OFF time; both with the differences as solve() itself would compute them.",
  "every object and problem with fixed steps and finite battery data, runs of any length, all rounding", "rounded differences over runs of arbitrary length and every binary64 input", f"{Q}:QLaw.solve")
p("solve() terminates in double precision",
  "In IEEE double arithmetic a run with a positive fixed step and without battery discharge ends after finitely many steps, its times increase strictly, and it overshoots tf_max by at most one step.",
  "every object, dynamics, control law and elementary-function library, every problem, runs of any length, all rounding", "non-termination cannot be observed by testing, and the number of steps involved is beyond any test", f"{Q}:QLaw.solve")

p("The saved file is the returned dictionary",
  "Called with a path, save_to_dict leaves in that file a JSON text of exactly the dictionary it returns (times, states, controls and canonical units; numpy numbers and arrays as numbers and lists), which is the text of no other value; no other file changes, and without a path none does.",
  "every completed run, both control formats, any canonical units built from Python and numpy values, nested to any depth, any files", "ranges over nested objects of any shape; unambiguity is about all other values", f"{Q}:QLaw.save_to_dict", f"{Q}:NumpyEncoder.default")
p("A failed save leaves the earlier file alone",
  "If save_to_dict raises because the canonical units cannot be encoded, the file at the path is as it was before the call.",
  "every completed run, any canonical units, any files", "the claim is about every unencodable object wherever it is nested", f"{Q}:QLaw.save_to_dict", f"{Q}:NumpyEncoder.default")
p("pretty_settings() shows the settings in force",
  "pretty_settings() shows the element type, tolerances, relaxed tolerances and relaxed exit count given to the constructor, the names that belong to the element type and the integrator last chosen, whatever set_problem, solve and assignments to mu and integrator came between.",
  "every constructor call, any sequence of set_problem, solve and assignments", "quantifies over all histories of an object", f"{Q}:QLaw.pretty_settings", f"{Q}:QLaw.__init__")

p("solve() terminates in double precision with a battery in use",
  "In IEEE double arithmetic a run with fixed steps whose battery discharges and recharges ends after finitely many steps; every recorded row is later than the one before, or no earlier and with less energy in the battery.",
  "every object, dynamics, control law and elementary-function library, every problem with fixed steps and finite battery data, runs of any length, all rounding", "a shortened step can be too small to move the time; non-termination cannot be observed by testing", f"{Q}:QLaw.solve")

p("The duty cycle bounds the total thrust time",
  "Of any first part of a run at most the share (ON + step)/(ON + step + OFF) of the time is thrust, up to one window; the propellant used is bounded accordingly.",
  "every object, dynamics and control law, every forward problem with finite data, runs of any length", "a bound on accumulated thrust time over runs of arbitrary length", f"{Q}:QLaw.solve")
p("Thrust is paid for by the battery",
  "At any time of a run the energy used for thrusting is at most what the battery held at the start, less what it still holds, plus what it could have recharged while the engine was off.",
  "every object, dynamics and control law, every forward problem with finite data and a battery, runs of any length", "an energy balance over runs of arbitrary length", f"{Q}:QLaw.solve")
p("A perturbation model matters only where steps start",
  "The perturbation model influences a run only by the accelerations it gives at the times and states where recorded steps start: a model that agrees there gives the same run, and SpicePerturbations with no bodies, no J2 and no radiation pressure is the same as no model as long as the states are finite ellipses.",
  "every object, problem and perturbation model, runs of any length", "quantifies over all models, as arbitrary functions", f"{Q}:QLaw.solve", f"{PT}:SpicePerturbations")

p("The recorded times drift by at most one rounding per step",
  "In IEEE double arithmetic the k-th recorded time of a run with fixed steps differs from k steps by at most k times 2^-53 times (tf_max + step), and the number of steps to tf_max is tf_max/step up to the corresponding relative error.",
  "every object, dynamics, control law and elementary-function library, every problem without battery discharge, runs of any length, all rounding", "a bound on rounding errors accumulated over runs of arbitrary length", f"{Q}:QLaw.solve")
p("The recorded masses drift by at most two roundings per thrusting step",
  "In IEEE double arithmetic the recorded mass differs from the initial mass less mass flow times step for each thrusting step by at most 2^-53 times (initial mass + mass flow times step), and half the smallest double, per thrusting step; resting steps add no error.",
  "every object, dynamics, control law and elementary-function library, every problem without battery discharge and with positive mass flow, runs of any length as long as the mass is not negative, all rounding", "a bound on rounding errors accumulated over runs of arbitrary length", f"{Q}:QLaw.solve")
p("Backward in time nothing but the law keeps the thruster off, in double precision",
  "In IEEE double arithmetic a run with a step that is not positive takes every step in full; its times never increase, its masses never decrease and grow by mass flow times step when it thrusts, the battery never drains, and neither battery nor duty cycle ever prevents thrust.",
  "every object, dynamics, control law and elementary-function library, every problem with fixed RK4 steps and finite battery data whose battery is not empty at the start, runs of any length, all rounding", "every run length, every rounding", f"{Q}:QLaw.solve")
p("Backward runs visit the opposite times in double precision",
  "In IEEE double arithmetic, if one run has a fixed step h and another one the step -h, the k-th recorded time of the second is exactly minus the k-th recorded time of the first, whatever else differs between them; if both run out of time with the same |tf_max|, they take the same number of steps.",
  "every pair of objects, dynamics, control laws and an elementary-function library, a forward problem without battery discharge and a backward problem with RK4 and a battery that is not empty at the start, runs of any length, all rounding", "equality to the last bit after arbitrarily many rounded additions, for all pairs of runs", f"{Q}:QLaw.solve")
p("The mass floor holds in double precision",
  "In IEEE double arithmetic every mass from which a step of a forward run starts is above mass_min, no recorded mass is below mass_min less the propellant of one step (both operations rounded), and if the propellant of one step is at most mass_min no recorded mass is negative.",
  "every object, dynamics, control law and elementary-function library, every forward problem with finite data, positive mass flow and an initial mass above the floor (the last two claims without battery discharge), runs of any length, all rounding", "every run length, every rounding", f"{Q}:QLaw.solve")
p("Times and masses are bookkeeping of step and throttle only",
  "In IEEE double arithmetic two forward runs with the same fixed step record the same times bit by bit, whatever else differs between them; if initial mass and mass flow agree as well, they record the same masses for as long as they have thrusted at the same steps; and a run that ran out of time took at least as many steps as any other with this step and tf_max.",
  "every pair of objects, element sets, dynamics, control laws, weights, thresholds and duty cycles, every elementary-function library, forward problems without battery discharge, runs of any length, all rounding", "quantifies over pairs of runs of any length, equality to the last bit", f"{Q}:QLaw.solve")

if __name__=="__main__":
    for x in P: print(json.dumps(x))

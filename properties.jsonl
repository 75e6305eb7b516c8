{"id": "C01", "title": "Result histories are aligned", "statement": "Whenever solve() returns, len(times)=len(states)=len(masses)=len(battery)=n+1 and len(controls)=len(etas)=len(etas_bounds)=len(Qs)=len(dQdts)=n for the same n; entry 0 of times, masses, battery is 0, mass0, battery_initial and entry 0 of states is the oe0 array.", "quantifier": "every problem, every control law / dynamics / perturbation behaviour, every number of steps, every exit path", "why_tests_cant": "a test sees a handful of runs; a dropped append on one exit path (nan break, relaxed break) only shows on runs that take it", "anchors": ["pyqlaw/_qlaw.py:QLaw.solve"]}
{"id": "C02", "title": "Exit code 1 means the target is met", "statement": "If solve() on a fresh problem object ends with exitcode 1, then converge is True and the last recorded state is within tol_oe of oeT on every element whose weight is non-zero (RAAN and argument of periapsis compared on the circle for Keplerian elements).", "quantifier": "every problem and every run length", "why_tests_cant": "requires all trajectories, including those a test would never reach", "anchors": ["pyqlaw/_qlaw.py:QLaw.solve", "pyqlaw/_convergence.py:check_convergence_keplerian", "pyqlaw/_convergence.py:check_convergence_mee"]}
{"id": "C03", "title": "Exit code 2 means the relaxed target was met the configured number of times", "statement": "If solve() on a fresh object ends with exitcode 2, exactly max(1,exit_at_relaxed) post-step states satisfied the relaxed tolerance (relaxed_tol_factor*tol_oe), the last one is among them, and none satisfied the strict tolerance.", "quantifier": "every problem and every run", "why_tests_cant": "counting along an arbitrary trajectory", "anchors": ["pyqlaw/_qlaw.py:QLaw.solve"]}
{"id": "C04", "title": "Exit code -1 means mass ran out", "statement": "If solve() ends with exitcode -1 the last recorded mass is <= mass_min, every earlier post-step mass was > mass_min, and no post-step state met the strict tolerance.", "quantifier": "every problem and every run", "why_tests_cant": "depends on the whole history", "anchors": ["pyqlaw/_qlaw.py:QLaw.solve"]}
{"id": "C05", "title": "Exit code -2 means time ran out", "statement": "If solve() on a fresh object ends with exitcode -2, |times[-1]| >= |tf_max|, no post-step state met the strict tolerance, fewer than exit_at_relaxed met the relaxed one, and every post-step mass exceeds mass_min.", "quantifier": "every problem and every run", "why_tests_cant": "depends on the whole history", "anchors": ["pyqlaw/_qlaw.py:QLaw.solve"]}
{"id": "C06", "title": "Exit code -3 means the control law returned nan too often", "statement": "If solve() ends with exitcode -3, the control law returned a nan angle in exactly nan_angles_threshold+1 thrust-enabled steps (for a non-negative threshold), and |times[-1]| < |tf_max|.", "quantifier": "every problem, every control law", "why_tests_cant": "nan-producing inputs are hard to reach by example", "anchors": ["pyqlaw/_qlaw.py:QLaw.solve"]}
{"id": "C07", "title": "Exit code classification is total and agrees with converge", "statement": "After solve() returns on a fresh object, exitcode is one of 1, 2, -1, -2, -3 and converge is True exactly when exitcode is 1 or 2.", "quantifier": "every problem and every run", "why_tests_cant": "needs every exit path", "anchors": ["pyqlaw/_qlaw.py:QLaw.solve"]}
{"id": "C08", "title": "Re-solving reports the new outcome", "statement": "Calling set_problem() and solve() again on the same object reports an exitcode and converge flag describing the new run only.", "quantifier": "every pair of successive problems", "why_tests_cant": "depends on histories of calls; tests build a fresh object each time", "anchors": ["pyqlaw/_qlaw.py:QLaw.__init__", "pyqlaw/_qlaw.py:QLaw.set_problem", "pyqlaw/_qlaw.py:QLaw.solve"]}
{"id": "C09", "title": "solve() stops at the first converged state", "statement": "Every post-step state except the last fails the strict tolerance check, so the returned history never contains a converged state followed by more steps.", "quantifier": "every problem and every run", "why_tests_cant": "for all step counts", "anchors": ["pyqlaw/_qlaw.py:QLaw.solve"]}
{"id": "C10", "title": "Mass bookkeeping", "statement": "For every step i, masses[i+1] = masses[i] - throttle_i*mdot*(times[i+1]-times[i]); in particular mass is unchanged by a coast step.", "quantifier": "every problem, integrator, step", "why_tests_cant": "relation between three histories at every index", "anchors": ["pyqlaw/_qlaw.py:QLaw.solve"]}
{"id": "C11", "title": "Mass never increases and stays above the floor until the end", "statement": "Propagating forward with mdot >= 0, the mass history is non-increasing, every entry but the first and last exceeds mass_min, and the last exceeds mass_min - mdot*(largest step).", "quantifier": "every forward problem", "why_tests_cant": "inductive over the run", "anchors": ["pyqlaw/_qlaw.py:QLaw.solve"]}
{"id": "C12", "title": "Time grid is strictly monotone and overshoots tf_max by less than one step", "statement": "With t_step > 0 and a fixed step, times is strictly increasing, every entry but the last is < tf_max, and the last is < tf_max + t_step.", "quantifier": "every problem without Sundman steps", "why_tests_cant": "inductive over the run", "anchors": ["pyqlaw/_qlaw.py:QLaw.solve"]}
{"id": "C13", "title": "solve() terminates", "statement": "With t_step > 0, a fixed step, non-negative battery rates and exact arithmetic, solve() stops after a number of steps bounded by tf_max divided by the smallest step (t_step or 1e-12/discharge rate).", "quantifier": "every problem", "why_tests_cant": "non-termination cannot be observed by a finite test", "anchors": ["pyqlaw/_qlaw.py:QLaw.solve"]}
{"id": "C14", "title": "Battery level stays within capacity", "statement": "Every battery entry after the first lies within battery_capacity=(lo,hi), lo <= hi.", "quantifier": "every problem, integrator, rates, step", "why_tests_cant": "all interleavings of charge / discharge / truncation", "anchors": ["pyqlaw/_qlaw.py:QLaw.solve"]}
{"id": "C15", "title": "No thrust on a depleted battery", "statement": "If throttle_i = 1 then the battery level at the start of step i exceeds battery_capacity[0] + 1e-12.", "quantifier": "every problem and step", "why_tests_cant": "all interleavings of duty cycle, effectivity and battery", "anchors": ["pyqlaw/_qlaw.py:QLaw.solve"]}
{"id": "C16", "title": "Full recharge lock-out", "statement": "With require_full_recharge=True, after the battery has been found depleted at the start of some step, no step thrusts until a step boundary at which the battery equals battery_capacity[1].", "quantifier": "every problem, every pair of steps", "why_tests_cant": "arbitrary distance between depletion and the violating thrust", "anchors": ["pyqlaw/_qlaw.py:QLaw.solve"]}
{"id": "C17", "title": "Thrust never uses energy the battery does not have", "statement": "Forward in time with rk4, a step in which the duty flag is on drains exactly discharge_rate*(elapsed time): the clip at the bottom of the battery never hides a deficit.", "quantifier": "every problem and step", "why_tests_cant": "needs the interplay of charging flag and step truncation over all histories", "anchors": ["pyqlaw/_qlaw.py:QLaw.solve"]}
{"id": "C18", "title": "Battery is integrated over the elapsed time", "statement": "For every step the change of battery level (before clipping at capacity) is rate*(times[i+1]-times[i]), for both integrators.", "quantifier": "every problem, both integrators", "why_tests_cant": "every step; the defect only appears for one integrator option", "anchors": ["pyqlaw/_qlaw.py:QLaw.solve"]}
{"id": "C19", "title": "Battery-limited step truncation is sound", "statement": "Forward in time, when a step is shortened because of the battery the shortened step is positive, not longer than the nominal step, and a thrust-enabled shortened step ends exactly at battery_capacity[0]; no division by zero can happen.", "quantifier": "every battery state and rates", "why_tests_cant": "boundary arithmetic over all reals", "anchors": ["pyqlaw/_qlaw.py:QLaw.solve"]}
{"id": "C20", "title": "Duty-cycle ON limit", "statement": "Forward in time with OFF >= 0: in any run of consecutive thrusting steps i..j, times[j]-times[i] <= ON, hence the burn is no longer than ON plus one step.", "quantifier": "every problem, every pair of steps", "why_tests_cant": "arbitrarily long burns", "anchors": ["pyqlaw/_qlaw.py:QLaw.solve"]}
{"id": "C21", "title": "Duty-cycle OFF rest", "statement": "Forward in time: if steps i<k both thrust and times[k]-times[i] > ON, then strictly between them there is a contiguous block of coasting steps lasting more than OFF.", "quantifier": "every problem, every pair of steps", "why_tests_cant": "arbitrary histories", "anchors": ["pyqlaw/_qlaw.py:QLaw.solve"]}
{"id": "C22", "title": "Coasting preserves the orbit", "statement": "A step with throttle 0 and no perturbation model leaves the five slow elements exactly unchanged (both integrators, both element sets).", "quantifier": "every state and step size", "why_tests_cant": "exact equality for all reals", "anchors": ["pyqlaw/_qlaw.py:QLaw.solve", "pyqlaw/_integrate.py:rk4", "pyqlaw/_integrate.py:rkf45", "pyqlaw/_eom.py:eom_kep_gauss", "pyqlaw/_eom.py:eom_mee_with_a_gauss"]}
{"id": "C23", "title": "Effectivity thresholds gate thrust", "statement": "If a threshold in force at a step is positive, the recorded effectivities satisfy: throttle 1 implies eta_a >= its threshold and eta_r >= its threshold; with finite angles and duty on, throttle is 0 exactly when one of them is below its threshold.", "quantifier": "every problem, threshold function, step", "why_tests_cant": "all control-law outputs", "anchors": ["pyqlaw/_qlaw.py:QLaw.solve"]}
{"id": "C24", "title": "Efficiency arguments of the wrong type are rejected", "statement": "solve(eta_a, eta_r) raises ValueError, before touching the histories, when either efficiency is neither a float nor a callable (for instance an int).", "quantifier": "every value of the two arguments", "why_tests_cant": "all argument types and their combinations", "anchors": ["pyqlaw/_qlaw.py:QLaw.solve"]}
{"id": "C25", "title": "A depleted initial battery is handled", "statement": "solve() does not raise when the first step cannot thrust (battery_initial at or below battery_capacity[0]); it coasts.", "quantifier": "every problem whose first step is thrust-disabled", "why_tests_cant": "needs the exact condition under which the failure happens", "anchors": ["pyqlaw/_qlaw.py:QLaw.solve"]}
{"id": "C26", "title": "solve() does not modify the caller's arrays", "statement": "The oe0 array passed to set_problem() has the same contents after solve() as before.", "quantifier": "every problem, both element sets", "why_tests_cant": "aliasing across calls", "anchors": ["pyqlaw/_qlaw.py:QLaw.solve", "pyqlaw/_convergence.py:elements_safety"]}
{"id": "C27", "title": "Keplerian states are safeguarded", "statement": "With Keplerian elements every state used for a step (hence every recorded state but the last) has its five slow elements within [oe_min, oe_max] when oe_min <= oe_max.", "quantifier": "every run", "why_tests_cant": "all trajectories", "anchors": ["pyqlaw/_qlaw.py:QLaw.solve", "pyqlaw/_convergence.py:elements_safety"]}
{"id": "C28", "title": "Constructor and setters validate their arguments", "statement": "QLaw(...) and the attribute setters raise AssertionError exactly when mu <= 0, elements_type/integrator is not one of the two accepted strings, relaxed_tol_factor < 1 or tol_oe does not have 5 entries; set_problem raises exactly when oe0 does not have 6 entries, mass_min < 1e-2 or woe does not have 5 entries; solve raises before set_problem.", "quantifier": "every argument combination", "why_tests_cant": "all combinations and their order", "anchors": ["pyqlaw/_qlaw.py:QLaw.__init__", "pyqlaw/_qlaw.py:QLaw.set_problem", "pyqlaw/_qlaw.py:QLaw.solve"]}
{"id": "C29", "title": "elements_type and the dynamics agree", "statement": "At any time the dynamics, control law and convergence check used by solve() are those of the object's current elements_type.", "quantifier": "every sequence of construction and attribute assignment", "why_tests_cant": "histories of attribute writes", "anchors": ["pyqlaw/_qlaw.py:QLaw.elements_type", "pyqlaw/_qlaw.py:QLaw.__init__"]}
{"id": "C30", "title": "Effectivities are fractions", "statement": "The absolute and relative effectivities recorded for a step lie in [0,1] (when not all grid values coincide), with 1 at the best grid location, both forward and backward in time.", "quantifier": "every state, target, grid size, propagation direction", "why_tests_cant": "sup over a continuum of states", "anchors": ["pyqlaw/_qlaw.py:QLaw.solve", "pyqlaw/_qlaw.py:QLaw.evaluate_osculating_qdot", "pyqlaw/_symbolic.py:symbolic_qlaw_mee_with_a"]}
{"id": "C31", "title": "Sundman steps are Kepler time of flight", "statement": "With use_sundman, the step taken is the unperturbed time of flight for an eccentric-anomaly increment t_step: positive for t_step > 0 and negative for t_step < 0.", "quantifier": "every elliptic state, every increment", "why_tests_cant": "all reals; transcendental equation", "anchors": ["pyqlaw/_qlaw.py:QLaw.solve", "pyqlaw/_elements.py:ta2ea", "pyqlaw/_elements.py:mee2ea"]}
{"id": "C32", "title": "Backward propagation mirrors forward propagation", "statement": "With t_step < 0 time decreases, propellant is put back on thrust steps, and the duty-cycle limit is enforced on |t|.", "quantifier": "every backward problem", "why_tests_cant": "histories of arbitrary length", "anchors": ["pyqlaw/_qlaw.py:QLaw.solve"]}
{"id": "C33", "title": "Thrust direction is steepest descent of Q", "statement": "The unit thrust vector (cos b sin a, cos b cos a, sin b) built from the returned angles equals -D/|D| for the control gradient D, and minimises D.v over all unit vectors v; alpha lies in (-pi,pi], beta in [-pi/2,pi/2].", "quantifier": "every gradient with non-zero in-plane part", "why_tests_cant": "continuum of directions", "anchors": ["pyqlaw/_lyapunov.py:_u_to_thrust_angles", "pyqlaw/_lyapunov.py:lyapunov_control_angles"]}
{"id": "C34", "title": "Singular control gradients are detected, not thrust along", "statement": "If the control gradient is zero or not finite the returned angles are nan, so solve() coasts for that step and counts it towards nan_angles_threshold.", "quantifier": "every non-finite or zero gradient", "why_tests_cant": "nan propagation for all values", "anchors": ["pyqlaw/_lyapunov.py:_u_to_thrust_angles", "pyqlaw/_qlaw.py:QLaw.solve"]}
{"id": "C35", "title": "Q is a Lyapunov candidate", "statement": "For an elliptic state, positive weights and target semimajor axis, and non-zero thrust acceleration, Q >= 0, and Q = 0 iff every element equals its target (angles on the circle); zero-weight elements do not contribute.", "quantifier": "every state/target/weights/parameters", "why_tests_cant": "positivity over a continuum", "anchors": ["pyqlaw/_symbolic.py:symbolic_qlaw_keplerian", "pyqlaw/_symbolic.py:symbolic_qlaw_mee_with_a"]}
{"id": "C36", "title": "The reported dQ/doe is the gradient of Q", "statement": "Wherever Q is differentiable term by term, the five values returned next to q are the partial derivatives of q with respect to the slow elements.", "quantifier": "every state and parameter", "why_tests_cant": "derivative identity over a continuum", "anchors": ["pyqlaw/_symbolic.py:symbolic_qlaw_keplerian", "pyqlaw/_symbolic.py:symbolic_qlaw_mee_with_a"]}
{"id": "C37", "title": "Both dQ/dt evaluations agree and equal the decrease rate", "statement": "The qdot of lyapunov_control_angles equals the stand-alone dqdt function at the same state, equals f*|D|, and thrusting along the returned direction makes Q decrease at exactly that rate through the slow-element equations.", "quantifier": "every state where Q is differentiable (as in C36) and the control gradient has a non-zero in-plane part", "why_tests_cant": "identity over a continuum", "anchors": ["pyqlaw/_symbolic.py:symbolic_qlaw_mee_with_a", "pyqlaw/_lyapunov.py:lyapunov_control_angles", "pyqlaw/_eom.py:eom_mee_with_a_gauss"]}
{"id": "C38", "title": "Keplerian Q normalisers are the maximal rates", "statement": "The quantities dividing (a-aT),(e-eT),(i-iT),(RAAN-RAAN_T) in Q are the maxima over thrust direction and true anomaly of the corresponding Gauss rates; the one dividing the argument-of-periapsis difference is (Wi+b*Wo)/(1+b) with Wi, Wo the maxima over in-plane and over normal thrust.", "quantifier": "every elliptic orbit, every anomaly, every thrust direction", "why_tests_cant": "sup over a continuum", "anchors": ["pyqlaw/_symbolic.py:symbolic_qlaw_keplerian"]}
{"id": "C39", "title": "Equinoctial Q normalisers are the maximal rates", "statement": "The quantities dividing the five slow equinoctial differences in Q bound the Gauss rates over thrust direction and longitude, and are attained.", "quantifier": "every elliptic orbit, longitude, thrust direction", "why_tests_cant": "sup over a continuum; the defect needs a sign condition", "anchors": ["pyqlaw/_symbolic.py:symbolic_qlaw_mee_with_a"]}
{"id": "C40", "title": "Keplerian dynamics are Newton's law", "statement": "Elements moving with the rates of eom_kep_gauss (psi taken from the Keplerian Q-law) have a Cartesian state (kep2sv) with r' = v and v' = -mu r/|r|^3 + F, where F is thrust plus perturbation in the radial-transverse-normal frame.", "quantifier": "every non-circular, inclined elliptic state, every acceleration", "why_tests_cant": "derivative identity over a continuum", "anchors": ["pyqlaw/_symbolic.py:symbolic_qlaw_keplerian", "pyqlaw/_eom.py:eom_kep_gauss", "pyqlaw/_elements.py:kep2sv"]}
{"id": "C41", "title": "Equinoctial dynamics are Newton's law", "statement": "Elements moving with the rates of eom_mee_with_a_gauss (psi taken from the mee_with_a Q-law) have a Cartesian state with r' = v and v' = -mu r/|r|^3 + F, for every elliptic state.", "quantifier": "every elliptic state, every acceleration", "why_tests_cant": "half of the state space behaves differently", "anchors": ["pyqlaw/_symbolic.py:symbolic_qlaw_mee_with_a", "pyqlaw/_eom.py:eom_mee_with_a_gauss"]}
{"id": "C42", "title": "Unperturbed dynamics are two-body motion", "statement": "With zero thrust and perturbation, following the equations of motion and converting to Cartesian gives r' = v and v' = -mu r/|r|^3.", "quantifier": "every elliptic state", "why_tests_cant": "ODE identity over a continuum", "anchors": ["pyqlaw/_eom.py:eom_kep_gauss", "pyqlaw/_eom.py:eom_mee_with_a_gauss", "pyqlaw/_elements.py:kep2sv"]}
{"id": "C43", "title": "rk4 is a consistent fourth-order step", "statement": "rk4 integrates any polynomial-in-time right-hand side of degree <= 3 exactly and reproduces the degree-4 Taylor polynomial of the flow on linear systems.", "quantifier": "every dimension, step, coefficients", "why_tests_cant": "identity over all coefficients", "anchors": ["pyqlaw/_integrate.py:rk4"]}
{"id": "C44", "title": "rkf45 is a consistent integrator", "statement": "rkf45 integrates a constant right-hand side exactly.", "quantifier": "every constant right-hand side and step", "why_tests_cant": "small coefficient error is hidden by test tolerances", "anchors": ["pyqlaw/_integrate.py:rkf45"]}
{"id": "C45", "title": "The integrator option gives fourth-order accuracy for the slow elements", "statement": "With integrator='rk4' one step of the slow elements agrees with the solution of the Gauss equations to fourth order.", "quantifier": "every state and step", "why_tests_cant": "order conditions are about limits", "anchors": ["pyqlaw/_qlaw.py:QLaw.solve", "pyqlaw/_eom.py:eom_kep_gauss", "pyqlaw/_eom.py:eom_mee_with_a_gauss"]}
{"id": "C46", "title": "kep2sv produces the orbit it was asked for", "statement": "kep2sv(kep,mu) has radius a(1-e^2)/(1+e cos ta), energy -mu/(2a), angular momentum of norm sqrt(mu a (1-e^2)) along the direction given by inc and raan, regardless of which angles are zero.", "quantifier": "every elliptic element set", "why_tests_cant": "identities over a continuum, plus the zero-angle branches", "anchors": ["pyqlaw/_elements.py:kep2sv", "pyqlaw/_transformations.py:rotmat1", "pyqlaw/_transformations.py:rotmat3"]}
{"id": "C47", "title": "Keplerian/Cartesian round trip", "statement": "sv2kep(kep2sv(kep,mu),mu) = kep for non-degenerate elliptic elements with angles in their principal ranges.", "quantifier": "every such element set whose node line and eccentricity vector pass the 1e-12 threshold of the code", "why_tests_cant": "all quadrants and branches", "anchors": ["pyqlaw/_elements.py:sv2kep", "pyqlaw/_elements.py:kep2sv"]}
{"id": "C48", "title": "Keplerian/equinoctial round trip", "statement": "kep2mee and mee2kep are inverse to each other (angles on the circle); in particular kep2mee(mee2kep(m)) = m for every elliptic m.", "quantifier": "every elliptic element set", "why_tests_cant": "degenerate inclination is measure zero", "anchors": ["pyqlaw/_elements.py:kep2mee", "pyqlaw/_elements.py:mee2kep"]}
{"id": "C49", "title": "Equinoctial / equinoctial-with-SMA round trip", "statement": "mee_with_a2mee and mee2mee_with_a are mutually inverse on elliptic elements and kep2mee_with_a = mee2mee_with_a o kep2mee.", "quantifier": "every elliptic element set", "why_tests_cant": "identity over a continuum", "anchors": ["pyqlaw/_elements.py:mee_with_a2mee", "pyqlaw/_elements.py:mee2mee_with_a", "pyqlaw/_elements.py:kep2mee_with_a"]}
{"id": "C50", "title": "mee_with_a2sv gives the right Cartesian state", "statement": "mee_with_a2sv(m,mu) equals the standard closed-form Cartesian state of the equinoctial elements, for every elliptic m including equatorial ones.", "quantifier": "every elliptic element set", "why_tests_cant": "failure set has measure zero but is the common i=0 start", "anchors": ["pyqlaw/_elements.py:mee_with_a2sv", "pyqlaw/_elements.py:mee2kep"]}
{"id": "C51", "title": "True to eccentric anomaly", "statement": "ta2ea returns E with cos E=(e+cos ta)/(1+e cos ta), sin E=sqrt(1-e^2) sin ta/(1+e cos ta); mee2ea gives the same E for the equinoctial image of a Keplerian state.", "quantifier": "every eccentricity in [0,1) and every anomaly except odd multiples of pi, where tan(ta/2) is undefined", "why_tests_cant": "all quadrants", "anchors": ["pyqlaw/_elements.py:ta2ea", "pyqlaw/_elements.py:mee2ea"]}
{"id": "C52", "title": "Period and semimajor axis", "statement": "get_semiMajorAxis satisfies the vis-viva energy relation for every state and get_period returns 2 pi sqrt(a^3/mu) on elliptic states and -1 on hyperbolic ones.", "quantifier": "every non-degenerate state vector", "why_tests_cant": "continuum of states", "anchors": ["pyqlaw/_elements.py:get_semiMajorAxis", "pyqlaw/_elements.py:get_period"]}
{"id": "C53", "title": "Orbit sampling", "statement": "get_orbit_coordinates returns `steps` states all on the same orbit (equal energy and angular momentum), starting at periapsis, with first and last column equal when steps >= 2.", "quantifier": "every elliptic element set and steps", "why_tests_cant": "all sizes", "anchors": ["pyqlaw/_elements.py:get_orbit_coordinates"]}
{"id": "C54", "title": "Convergence tests", "statement": "check_convergence_* return True iff every element with non-zero weight is within tolerance; Keplerian angles are compared modulo 2 pi.", "quantifier": "every state, target, weights, tolerances", "why_tests_cant": "all angle representatives", "anchors": ["pyqlaw/_convergence.py:check_convergence_keplerian", "pyqlaw/_convergence.py:check_convergence_mee"]}
{"id": "C55", "title": "Relaxed tolerance is weaker", "statement": "For non-negative tolerances and relaxed_tol_factor >= 1, a state within tol_oe is also within the relaxed tolerance.", "quantifier": "every state/target/weights", "why_tests_cant": "monotonicity over a continuum", "anchors": ["pyqlaw/_qlaw.py:QLaw.__init__", "pyqlaw/_convergence.py:check_convergence_mee"]}
{"id": "C56", "title": "Element safeguarding clamps", "statement": "elements_safety returns the componentwise projection of the first five elements on [oe_min,oe_max], leaves the sixth unchanged, is the identity in range, and is idempotent.", "quantifier": "every vector and bounds", "why_tests_cant": "all boundary combinations", "anchors": ["pyqlaw/_convergence.py:elements_safety"]}
{"id": "C57", "title": "wrap returns the same angle in [-pi,pi)", "statement": "wrap(alpha) lies in [-pi,pi) and differs from alpha by a multiple of 2 pi.", "quantifier": "every angle", "why_tests_cant": "all reals", "anchors": ["pyqlaw/_transformations.py:wrap"]}
{"id": "C58", "title": "Third-body perturbation", "statement": "perturbation_third_body_battin equals the direct third-body term -mu3*(d/|d|^3 + s/|s|^3), d=r-s.", "quantifier": "every pair of positions with d,s non-zero", "why_tests_cant": "identity over a continuum", "anchors": ["pyqlaw/_perturbations.py:perturbation_third_body_battin"]}
{"id": "C59", "title": "J2 perturbation", "statement": "perturbation_J2 is the gradient of the J2 disturbing potential, expressed in ECI, for every position and rotation.", "quantifier": "every position and rotation matrix", "why_tests_cant": "identity over a continuum; unit tests at |r|=1 pass", "anchors": ["pyqlaw/_perturbations.py:perturbation_J2"]}
{"id": "C60", "title": "Solar radiation pressure", "statement": "perturbation_SRP points away from the Sun with magnitude k_srp*(AU/d)^2 at distance d.", "quantifier": "every non-zero position", "why_tests_cant": "continuum", "anchors": ["pyqlaw/_perturbations.py:perturbation_SRP"]}
{"id": "C61", "title": "RTN frame is a rotation", "statement": "pxformECI2RTN(r,v) is orthonormal with determinant 1, maps r to (|r|,0,0), r x v to (0,0,|r x v|), v to zero normal component and positive transverse component, and so preserves the norm of every perturbation.", "quantifier": "every non-degenerate r,v", "why_tests_cant": "identity over a continuum", "anchors": ["pyqlaw/_perturbations.py:pxformECI2RTN", "pyqlaw/_perturbations.py:SpicePerturbations.get_perturbations_RTN"]}
{"id": "C62", "title": "Perturbation model assembly", "statement": "get_perturbations_RTN is the RTN rotation of the sum of the enabled terms for any list of third bodies, including none, and rejects an unknown elements_type.", "quantifier": "every configuration", "why_tests_cant": "all subsets of options", "anchors": ["pyqlaw/_perturbations.py:SpicePerturbations"]}
{"id": "C63", "title": "Plot sphere and ellipsoid lie on their surfaces", "statement": "Every point returned by get_sphere_coordinates is at distance radius of center; every point of get_ellipsoid_coordinates satisfies the ellipsoid equation.", "quantifier": "every radius/center/grid", "why_tests_cant": "all grid points and parameters", "anchors": ["pyqlaw/_plot_helper.py:get_sphere_coordinates", "pyqlaw/_plot_helper.py:get_ellipsoid_coordinates"]}
{"id": "C64", "title": "Equal axis limits", "statement": "set_equal_axis sets axis ranges of equal length on all axes, centred on the data, containing the data whenever scale >= 1.", "quantifier": "every limits and scale", "why_tests_cant": "continuum", "anchors": ["pyqlaw/_plot_helper.py:set_equal_axis"]}
{"id": "C65", "title": "Exported dictionary", "statement": "save_to_dict pairs every time with an MEE state of the same orbit plus the mass, and with a unit RTN vector and throttle; the control list is as long as the time list.", "quantifier": "every solved problem, both element sets", "why_tests_cant": "all histories", "anchors": ["pyqlaw/_qlaw.py:QLaw.save_to_dict"]}
{"id": "C66", "title": "Cartesian history", "statement": "get_cartesian_history() without interpolation has one column per recorded time, each the Cartesian state of the recorded elements; the default number of interpolation samples is at most 8000 and non-negative.", "quantifier": "every history", "why_tests_cant": "all sizes", "anchors": ["pyqlaw/_qlaw.py:QLaw.get_cartesian_history"]}
{"id": "C67", "title": "Singular equinoctial start is reported", "statement": "Starting solve() with mee_with_a from an exactly circular orbit (f=g=0) makes the control law return nan on every step, so with a sufficiently large tf_max the run ends with exitcode -3 after nan_angles_threshold recorded coasting steps.", "quantifier": "every such problem and threshold", "why_tests_cant": "nan propagation through the whole expression and loop", "anchors": ["pyqlaw/_symbolic.py:symbolic_qlaw_mee_with_a", "pyqlaw/_qlaw.py:QLaw.solve"]}
{"id": "C68", "title": "p-based equinoctial dynamics are Newton's law", "statement": "Elements (p,f,g,h,k,L) moving with the rates of eom_mee_gauss have a Cartesian state with r' = v and v' = -mu r/|r|^3 + F.", "quantifier": "every elliptic state, every acceleration", "why_tests_cant": "derivative identity over a continuum", "anchors": ["pyqlaw/_eom.py:eom_mee_gauss"]}
{"id": "C69", "title": "Plotted curves are complete", "statement": "plot_battery_history, plot_Q, plot_controls and plot_efficiency draw every recorded value against its own recorded time, and never fail on curves of different lengths, after any run of solve().", "quantifier": "every run, every exit code, both step-control settings", "why_tests_cant": "the sizes of eight histories on every path through the loop", "anchors": ["pyqlaw/_plot_methods.py:plot_battery_history", "pyqlaw/_plot_methods.py:plot_Q", "pyqlaw/_plot_methods.py:plot_controls", "pyqlaw/_plot_methods.py:plot_efficiency"]}
{"id": "C70", "title": "Element history plot", "statement": "plot_elements_history shows the recorded elements, the target with its tolerance band, the mass, and with plot_periapsis=True the periapsis radius a(1-e), for both element sets and both values of to_keplerian.", "quantifier": "every history", "why_tests_cant": "identity over a continuum of states, two element sets", "anchors": ["pyqlaw/_plot_methods.py:plot_elements_history"]}
{"id": "C71", "title": "Control plot shows the control in force", "statement": "On each recorded interval the curves of plot_controls have the value of the control flown on that interval.", "quantifier": "every run and instant", "why_tests_cant": "all instants of all runs", "anchors": ["pyqlaw/_plot_methods.py:plot_controls"]}
{"id": "C72", "title": "Printed errors agree with the exit code", "statement": "When the exit code is 1 every error printed by pretty_results (element minus target) is below the tolerance of its element.", "quantifier": "every run, both element sets", "why_tests_cant": "all converged states", "anchors": ["pyqlaw/_qlaw.py:QLaw.pretty_results", "pyqlaw/_convergence.py:check_convergence_keplerian"]}
{"id": "C73", "title": "The recorded history is a solution", "statement": "Every recorded state is the previous integrator output inside its bounds, and every integrator output is one step of the chosen integrator on the chosen equations of motion from the recorded time and state, with acceleration tmax/m along the recorded angles when the recorded throttle is 1 and none when it is 0, and with the perturbation at the recorded time; the recorded Q and dQ/dt are those of the control law there.", "quantifier": "every run, both integrators, both element sets, any perturbation", "why_tests_cant": "relates six recorded lists on every path through the loop", "anchors": ["pyqlaw/_qlaw.py:QLaw.solve"]}
{"id": "C74", "title": "Thrust is applied in full along steepest descent", "statement": "On every thrusting step the applied acceleration has magnitude tmax/m and among all accelerations of at most that magnitude it changes Q the most in the descending direction, forward and backward in time.", "quantifier": "every thrusting step of every run with non-negative thrust, positive mass and a gradient with an in-plane part", "why_tests_cant": "minimum over a continuum of directions, every state", "anchors": ["pyqlaw/_qlaw.py:QLaw.solve", "pyqlaw/_lyapunov.py:lyapunov_control_angles"]}
{"id": "C75", "title": "Every coast has a reason", "statement": "A recorded step without thrust happens only because the control law asks for it (nan direction or effectivity below a threshold), the battery is depleted, a full recharge is due, or the duty cycle is in its OFF time.", "quantifier": "every coasting step of every run", "why_tests_cant": "history dependent: battery and duty cycle flags over arbitrarily many earlier steps", "anchors": ["pyqlaw/_qlaw.py:QLaw.solve"]}
{"id": "C76", "title": "Defaults mean unlimited power", "statement": "With the default duty cycle, battery and thresholds a step coasts only when the control law returns nan angles.", "quantifier": "every run of a problem set with defaults", "why_tests_cant": "all run lengths; the on-time of 1e16 must exceed any run", "anchors": ["pyqlaw/_qlaw.py:QLaw.set_problem", "pyqlaw/_qlaw.py:QLaw.solve"]}
{"id": "C77", "title": "Arguments are stored", "statement": "The constructor and set_problem store every argument unchanged (the target without its sixth element), relaxed tolerances are relaxed_tol_factor times the tolerances, omitted arguments get their documented defaults, and set_problem changes nothing else.", "quantifier": "every combination of arguments", "why_tests_cant": "38 arguments, all values", "anchors": ["pyqlaw/_qlaw.py:QLaw.__init__", "pyqlaw/_qlaw.py:QLaw.set_problem"]}
{"id": "C78", "title": "rkf45 is a fourth-order step with step-size control", "statement": "One rkf45 step agrees with the solution of the differential equation through order four in the step, and suggests the next step 0.84*h*(tol/err)^(1/4) where err is the distance to the fifth-order solution.", "quantifier": "every linear system and every rate depending on time only, every state, step and tolerance", "why_tests_cant": "order conditions are identities between 20 coefficients for all right-hand sides", "anchors": ["pyqlaw/_integrate.py:rkf45"]}
{"id": "C79", "title": "Trajectory figures", "statement": "plot_trajectory_2d and plot_trajectory_3d draw the initial and the target orbit as closed curves over one revolution and the transfer through every point of the Cartesian history with its first and last point marked; the axis limits of the 3D figure contain all three curves.", "quantifier": "every ellipse, both element sets, every Cartesian history", "why_tests_cant": "compares 200 points with a continuum of orbits; limits for every history", "anchors": ["pyqlaw/_plot_methods.py:plot_trajectory_2d", "pyqlaw/_plot_methods.py:plot_trajectory_3d", "pyqlaw/_plot_helper.py:set_equal_axis"]}
{"id": "C80", "title": "Elementary rotations", "statement": "rotmat1, rotmat2 and rotmat3 are right-handed rotation matrices that lower by phi the angle of a vector about the first, second and third axis.", "quantifier": "every angle and vector", "why_tests_cant": "identity over all angles; rotmat2 is used by no other function", "anchors": ["pyqlaw/_transformations.py:rotmat1", "pyqlaw/_transformations.py:rotmat2", "pyqlaw/_transformations.py:rotmat3"]}
{"id": "C81", "title": "Perturbations do not depend on units", "statement": "For an object built by the constructor, the result of get_perturbations_RTN times LU/TU^2 is the acceleration in km/s^2 due to the third bodies, the oblateness and the radiation pressure at the orbit and instant described by the arguments, whatever LU and TU.", "quantifier": "all units, orbits of both element sets, instants, ephemerides and lists of bodies", "why_tests_cant": "relates runs of the same physical situation in all systems of units", "anchors": ["pyqlaw/_perturbations.py:SpicePerturbations.__init__", "pyqlaw/_perturbations.py:SpicePerturbations.get_perturbations_RTN"]}
{"id": "C82", "title": "A law that is nan gives up cleanly", "statement": "A run whose control law is nan at every state on its orbit coasts exactly nan_angles_threshold steps along that orbit and returns with code -3; in particular a Keplerian run with a non-integer n_petro that starts below its target semimajor axis never thrusts.", "quantifier": "every such Keplerian run with RK4, any threshold, orbit, target, step and battery that last long enough", "why_tests_cant": "all run lengths with the real equations; nan does not satisfy the algebra of numbers", "anchors": ["pyqlaw/_qlaw.py:QLaw.solve", "pyqlaw/_symbolic.py:symbolic_qlaw_keplerian", "pyqlaw/_eom.py:eom_kep_gauss"]}
{"id": "C83", "title": "Runs do not depend on units", "statement": "Converting a problem to other units of length, time and mass (state, target, tolerances, bounds, mu, rpmin, thrust, mass flow, times, perturbations, threshold functions) converts its run: same outcome and exit code, same thrust angles, throttles, effectivities and battery levels, converted times, states, masses, Q and dQ/dt.", "quantifier": "every problem, both element sets, all positive units, runs of any length, with nan and infinite entries", "why_tests_cant": "relates runs in all systems of units; a hidden dimensional constant shows only in some units", "anchors": ["pyqlaw/_qlaw.py:QLaw.solve", "pyqlaw/_symbolic.py:symbolic_qlaw_keplerian", "pyqlaw/_symbolic.py:symbolic_qlaw_mee_with_a", "pyqlaw/_eom.py:eom_kep_gauss", "pyqlaw/_eom.py:eom_mee_with_a_gauss", "pyqlaw/_integrate.py:rk4", "pyqlaw/_integrate.py:rkf45"]}
{"id": "C84", "title": "Runs do not depend on the reference axis or on whole turns", "statement": "Counting the ascending node from another axis, for state, target and bounds alike, and adding whole turns to angles of the state or the target changes nothing in a Keplerian run but the state angles by those amounts; an equinoctial run is unchanged by whole turns of the true longitude and by turning the axis.", "quantifier": "every problem, both integrators, with and without use_sundman, all angles, runs of any length", "why_tests_cant": "relates runs for a continuum of axes and all numbers of turns", "anchors": ["pyqlaw/_qlaw.py:QLaw.solve", "pyqlaw/_symbolic.py:symbolic_qlaw_keplerian", "pyqlaw/_symbolic.py:symbolic_qlaw_mee_with_a", "pyqlaw/_convergence.py:check_convergence_keplerian", "pyqlaw/_convergence.py:elements_safety"]}
{"id": "C85", "title": "A run obeys the rocket equation and cannot outspend its tank", "statement": "In every run, with any step-size rule, the propellant used is mdot times the time with the thruster on. Forward in time, the velocity change summed from the recorded accelerations tmax/m is at most (tmax/mdot) ln(m_first/m_last), and the sum with end-of-step masses is at least that. Backward in time the mass grows and the two sums swap. With fixed steps and finite parameters no run spends more than (tmax/mdot) ln(mass0/(mass_min - mdot*t_step)).", "quantifier": "all objects, problems, thresholds and numbers of steps; tmax >= 0, mdot > 0, positive masses", "why_tests_cant": "The bound quantifies over every control history, coast pattern and run length; a test sees one trajectory, and the logarithm never appears in the code.", "anchors": ["pyqlaw/_qlaw.py:QLaw.solve"]}
{"id": "C86", "title": "From a Cartesian state to elements and back", "statement": "Every bound state with non-zero angular momentum is the kep2sv of some elements; sv2kep followed by kep2sv succeeds on it and keeps energy and angular momentum, and returns the very state when |node line|*eccentricity is at least 1e-12 or the orbit is equatorial, counter-clockwise and eccentric. It does not return the state on circular and on equatorial retrograde orbits, and, because the threshold has no units, on some plainly eccentric inclined ones.", "quantifier": "every mu > 0 and every bound state", "why_tests_cant": "a surjectivity statement over a six-dimensional continuum; the failures sit on sets of measure zero that random states never hit", "anchors": ["pyqlaw/_elements.py:sv2kep", "pyqlaw/_elements.py:kep2sv", "pyqlaw/_elements.py:get_omega", "pyqlaw/_elements.py:get_raan", "pyqlaw/_elements.py:get_inclination", "pyqlaw/_elements.py:get_trueanom"]}
{"id": "C87", "title": "Stopping criteria only cut a run off", "statement": "The tolerances, the relaxed tolerances with their hit count, the nan threshold, the final time and the minimum mass influence nothing but the row at which a run ends: of two runs that differ only in these settings one history is the beginning of the other. With a later final time a run goes on where it was cut off, and one that ended for another reason is unchanged.", "quantifier": "every object and problem, both integrators, any pair of stopping settings, runs of any length, any arithmetic", "why_tests_cant": "relates two runs of arbitrary length for every pair of settings", "anchors": ["pyqlaw/_qlaw.py:QLaw.solve"]}
{"id": "C88", "title": "Only ratios of weights matter", "statement": "Multiplying the five weights woe by one positive number multiplies the recorded Q and dQ/dt by it and changes nothing else in a run: outcome, exit code, times, states, masses, thrust angles, throttles, effectivities and battery levels are the same.", "quantifier": "every problem, both element sets and integrators, every positive factor, runs of any length, with nan and infinite entries", "why_tests_cant": "relates runs for a continuum of factors", "anchors": ["pyqlaw/_qlaw.py:QLaw.solve", "pyqlaw/_symbolic.py:symbolic_qlaw_keplerian", "pyqlaw/_symbolic.py:symbolic_qlaw_mee_with_a"]}
{"id": "C89", "title": "Thrust decisions do not depend on the force level", "statement": "At a given state, t times the acceleration around a body with d times the gravitational parameter gives the same thrust angles, effectivities and throttle; Q becomes d/t^2 times and dQ/dt sqrt(d)/t times as large.", "quantifier": "every state, law parameter, threshold, t > 0 and d > 0, both element sets, with nan and infinite entries", "why_tests_cant": "homogeneity of two large generated expressions over a continuum", "anchors": ["pyqlaw/_qlaw.py:QLaw.solve", "pyqlaw/_qlaw.py:QLaw.evaluate_osculating_qdot", "pyqlaw/_lyapunov.py:lyapunov_control_angles", "pyqlaw/_symbolic.py:symbolic_qlaw_keplerian", "pyqlaw/_symbolic.py:symbolic_qlaw_mee_with_a"]}
{"id": "C90", "title": "The law always has an answer on regular states", "statement": "At a proper ellipse away from the kinks of Q every output of the control law is finite. Where the gradient of Q has an in-plane part, the iteration raises nothing, counts no nan answer, and thrusts along the steepest descent of Q unless an effectivity is below its threshold; where the rate is the same all around the orbit the relative effectivity is nan and never cuts thrust off.", "quantifier": "every regular state and parameter set, both element sets, any thresholds", "why_tests_cant": "absence of nan over a continuum of states in expressions with dozens of divisions, roots and powers", "anchors": ["pyqlaw/_qlaw.py:QLaw.solve", "pyqlaw/_lyapunov.py:lyapunov_control_angles", "pyqlaw/_symbolic.py:symbolic_qlaw_keplerian", "pyqlaw/_symbolic.py:symbolic_qlaw_mee_with_a"]}
{"id": "C91", "title": "The target of an element without weight has no influence", "statement": "Changing the target value of an element (other than the semimajor axis) whose weight is zero to any other finite value changes nothing in a run.", "quantifier": "every problem, both element sets and integrators, all finite target values, runs of any length", "why_tests_cant": "relates runs for a continuum of targets; it fails for Keplerian angles only at states exactly on a target, where the gradient is 0/0 whatever the weight", "anchors": ["pyqlaw/_qlaw.py:QLaw.solve", "pyqlaw/_symbolic.py:symbolic_qlaw_keplerian", "pyqlaw/_symbolic.py:symbolic_qlaw_mee_with_a", "pyqlaw/_convergence.py:check_convergence_keplerian", "pyqlaw/_convergence.py:check_convergence_mee"]}
{"id": "C92", "title": "A Keplerian run that starts on its node or periapsis target never thrusts", "statement": "An unperturbed Keplerian run with RK4 and fixed steps that starts with right ascension or argument of periapsis exactly equal to the target, whatever their weights, and with semimajor axis, eccentricity or inclination still off, coasts nan_angles_threshold steps along its initial orbit and returns with code -3.", "quantifier": "every such start, target, weight vector, threshold and law parameter; battery and time that last long enough", "why_tests_cant": "starting values with measure zero that users choose often (equal initial and target angle); all run lengths", "anchors": ["pyqlaw/_qlaw.py:QLaw.solve", "pyqlaw/_symbolic.py:symbolic_qlaw_keplerian", "pyqlaw/_lyapunov.py:lyapunov_control_angles"]}
{"id": "C93", "title": "A run can be taken up again from any of its rows", "statement": "Starting a new run from the state, mass and battery level recorded at any row of a run, with any stopping criteria, repeats the old run from that row on with the clock set back, provided nothing depends on the time of day and neither the duty cycle nor an empty battery has interfered. With a duty cycle or with full recharges required this is false: the restarted run has a fresh on-time and has forgotten that it must recharge.", "quantifier": "every object and problem, both element sets and integrators, every row, any stopping settings of the second run, runs of any length, with nan and infinite entries", "why_tests_cant": "relates two runs of arbitrary length for every cut", "anchors": ["pyqlaw/_qlaw.py:QLaw.solve", "pyqlaw/_qlaw.py:QLaw.set_problem"]}
{"id": "C94", "title": "A short thrust step lowers Q, a long one may not", "statement": "One RK4 step of length h along the thrust the law asks for, with the law's own psi and no perturbation, succeeds for short h and changes Q by -h times the recorded dQ/dt up to an error smaller than any multiple of |h|; so a short enough step, forward or backward, lowers Q. Steps of any length do not: there is no line search, and a thrusting step can end on an ellipse with larger Q.", "quantifier": "every regular state and parameter set with a gradient in the orbital plane, both element sets, all step lengths", "why_tests_cant": "a limit statement over a continuum of states; samples of one step length say nothing about shorter ones", "anchors": ["pyqlaw/_qlaw.py:QLaw.solve", "pyqlaw/_integrate.py:rk4", "pyqlaw/_lyapunov.py:lyapunov_control_angles", "pyqlaw/_eom.py:eom_kep_gauss", "pyqlaw/_eom.py:eom_mee_with_a_gauss"]}
{"id": "C95", "title": "Effectivity thresholds act only through the throttle", "statement": "Two runs of one problem that differ only in the effectivity thresholds given to solve are the same flight with the same exit, unless there is a first row where both ask for the same direction and one thrusts and the other coasts; everything recorded up to that decision agrees. With stricter (greater) thresholds that first difference is always thrust switched off, and thresholds that are never positive all give the same flight.", "quantifier": "every object and problem, both element sets and integrators, thresholds given as numbers or as functions of time, state, mass and battery, runs of any length, any arithmetic", "why_tests_cant": "relates two runs of arbitrary length for every pair of thresholds, including arbitrary functions", "anchors": ["pyqlaw/_qlaw.py:QLaw.solve", "pyqlaw/_qlaw.py:QLaw.evaluate_osculating_qdot"]}
{"id": "C96", "title": "Mirroring a transfer in the reference plane mirrors the run", "statement": "The transfer reflected in the reference plane (node and argument of periapsis half a turn on, or h and k with the other sign; target, Keplerian bounds, perturbation and threshold functions alike) gives the reflected run: same outcome, times, masses, in-plane thrust angles, throttles, effectivities, battery levels, Q and dQ/dt, and out-of-plane angles of the other sign.", "quantifier": "every problem, both element sets and integrators, with use_sundman, runs of any length, with nan and infinite entries", "why_tests_cant": "a symmetry of two large generated expressions, of their gradients and of every later stage, over a continuum of problems", "anchors": ["pyqlaw/_qlaw.py:QLaw.solve", "pyqlaw/_lyapunov.py:lyapunov_control_angles", "pyqlaw/_symbolic.py:symbolic_qlaw_keplerian", "pyqlaw/_symbolic.py:symbolic_qlaw_mee_with_a", "pyqlaw/_eom.py:eom_kep_gauss", "pyqlaw/_eom.py:eom_mee_with_a_gauss", "pyqlaw/_integrate.py:rk4", "pyqlaw/_integrate.py:rkf45"]}
{"id": "C97", "title": "An equinoctial transfer in the reference plane stays in it", "statement": "An equinoctial run that starts in the reference plane, has its target there and meets no perturbation out of it records h and k equal to zero (or nan) in every row and never steers out of the plane.", "quantifier": "every such problem, any thresholds, both integrators, returns and exceptions alike, runs of any length", "why_tests_cant": "an exact invariant over runs of arbitrary length", "anchors": ["pyqlaw/_qlaw.py:QLaw.solve", "pyqlaw/_lyapunov.py:lyapunov_control_angles", "pyqlaw/_symbolic.py:symbolic_qlaw_mee_with_a", "pyqlaw/_eom.py:eom_mee_with_a_gauss"]}
{"id": "C98", "title": "Built-in perturbations respect the reference plane", "statement": "With the perturbing bodies in the reference plane and the axis of the oblate body normal to it, SpicePerturbations returns no normal acceleration for an equinoctial orbit in that plane, so a perturbed planar run stays planar. Under the sky reflected in the plane the reflected orbit gets the reflected acceleration, or the same exception; on finite floats the result is the one of the real numbers.", "quantifier": "every ephemeris, settings and orbit, both element sets for the reflection, runs of any length", "why_tests_cant": "SPICE is replaced by an arbitrary ephemeris; exact zeros and exact symmetry over a continuum of states", "anchors": ["pyqlaw/_perturbations.py:SpicePerturbations.get_perturbations_RTN", "pyqlaw/_perturbations.py:perturbation_third_body_battin", "pyqlaw/_perturbations.py:perturbation_J2", "pyqlaw/_perturbations.py:perturbation_SRP", "pyqlaw/_perturbations.py:pxformECI2RTN", "pyqlaw/_elements.py:mee_with_a2sv", "pyqlaw/_qlaw.py:QLaw.solve"]}
{"id": "C99", "title": "Without weight on its plane a Keplerian run stays in it", "statement": "A Keplerian run whose inclination, node and argument of periapsis have no weight, which starts within the bounds and meets no perturbation normal to its orbit records the inclination and node of the start in every row (or nan, or the bound that has replaced a nan) and never steers out of the plane. Equinoctial elements do not share this: weight on f or g alone can ask for thrust out of the plane.", "quantifier": "every such problem, any thresholds, both integrators, returns and exceptions alike, runs of any length, with nan and infinite entries", "why_tests_cant": "an exact invariant over runs of arbitrary length and a continuum of states", "anchors": ["pyqlaw/_qlaw.py:QLaw.solve", "pyqlaw/_lyapunov.py:lyapunov_control_angles", "pyqlaw/_symbolic.py:symbolic_qlaw_keplerian", "pyqlaw/_symbolic.py:symbolic_qlaw_mee_with_a", "pyqlaw/_eom.py:eom_kep_gauss", "pyqlaw/_convergence.py:elements_safety"]}
{"id": "C100", "title": "A nan in the state stays visible", "statement": "An element that becomes nan during a run is nan in the recorded states from then on.", "quantifier": "every object and problem, both element sets and integrators, any perturbation, runs of any length", "why_tests_cant": "nan arises only in rare states or from user-supplied perturbations; the claim is about every later row", "anchors": ["pyqlaw/_qlaw.py:QLaw.solve", "pyqlaw/_convergence.py:elements_safety", "pyqlaw/_integrate.py:rk4", "pyqlaw/_integrate.py:rkf45"]}
{"id": "C101", "title": "Printing does not change a run", "statement": "Whatever verbosity and print_frequency are, solve() computes, returns or raises the same and leaves the same object.", "quantifier": "every object of the library and every problem, any verbosity and (non-zero) print frequency, runs of any length", "why_tests_cant": "relates runs for every verbosity and frequency; forming a line could raise", "anchors": ["pyqlaw/_qlaw.py:QLaw.solve"]}
{"id": "C102", "title": "The closing line tells how the run ended", "statement": "At verbosity 0 or less solve() prints nothing; at verbosity 1 it prints one line, the message that belongs to the exit code; at higher verbosity that line comes last, below the progress table.", "quantifier": "every object and problem, any arithmetic, runs of any length", "why_tests_cant": "covers every way a run can end, including re-used objects", "anchors": ["pyqlaw/_qlaw.py:QLaw.solve"]}
{"id": "C103", "title": "The progress table shows the run", "statement": "The progress lines are those of the steps 0, f, 2f, ... (f the print frequency) that did not end the run by convergence; the line of a step shows the time at its end, the gaps between the elements the integrator returned and the target, and the anomaly, with a header above every twentieth line. With equinoctial elements these are entries of the recorded histories.", "quantifier": "every object and problem, any arithmetic, any verbosity and frequency, runs of any length", "why_tests_cant": "an exact description of a transcript of arbitrary length", "anchors": ["pyqlaw/_qlaw.py:QLaw.solve"]}
{"id": "C104", "title": "pretty() shows the transfer that was set", "statement": "pretty() lists the five slow elements with the initial values, the targets and the weights given to set_problem.", "quantifier": "every problem, before and after solve", "why_tests_cant": "solve() may overwrite what was set", "anchors": ["pyqlaw/_qlaw.py:QLaw.pretty", "pyqlaw/_qlaw.py:QLaw.set_problem", "pyqlaw/_qlaw.py:QLaw.solve"]}
{"id": "C105", "title": "Time goes forward in double precision", "statement": "In IEEE double arithmetic the recorded times of a run with positive steps start at zero and each is greater than the one before.", "quantifier": "every object, dynamics, control law and elementary-function library, every problem with finite battery data, runs of any length, all rounding", "why_tests_cant": "rounding errors over runs of arbitrary length and every binary64 input", "anchors": ["pyqlaw/_qlaw.py:QLaw.solve"]}
{"id": "C106", "title": "Thrust burns propellant in double precision", "statement": "In IEEE double arithmetic the recorded mass never grows, and falls in every thrusting step.", "quantifier": "every object, dynamics, control law and elementary-function library, every problem with finite battery data and positive finite mass flow, runs of any length, all rounding", "why_tests_cant": "rounding errors over runs of arbitrary length and every binary64 input", "anchors": ["pyqlaw/_qlaw.py:QLaw.solve"]}
{"id": "C107", "title": "The battery stays within its capacity in double precision", "statement": "In IEEE double arithmetic every battery level after the first lies between the two capacities, exactly and not up to rounding; with positive charge rate and fixed RK4 steps it is never nan, and the division that shortens a step to the remaining energy never divides by zero or gives a negative step.", "quantifier": "every object and problem, runs of any length, all rounding", "why_tests_cant": "rounding errors over runs of arbitrary length and every binary64 input", "anchors": ["pyqlaw/_qlaw.py:QLaw.solve"]}
{"id": "C108", "title": "Keplerian elements stay within their bounds in double precision", "statement": "In IEEE double arithmetic every state a Keplerian run integrates from has its elements between elements_safety's bounds, whatever the dynamics produced, nan and infinity included.", "quantifier": "every object and problem, any dynamics and elementary functions, runs of any length, all rounding", "why_tests_cant": "every binary64 value the dynamics could produce", "anchors": ["pyqlaw/_qlaw.py:QLaw.solve", "pyqlaw/_convergence.py:elements_safety"]}
{"id": "C109", "title": "In double precision a run takes the steps of exact arithmetic", "statement": "Run in IEEE doubles, a problem with fixed steps takes as many steps to tf_max, and thrusts and rests in the same steps, as in exact arithmetic.", "quantifier": "every problem without battery use, step sizes and durations that are multiples of one power of two below 2^53, runs of any length", "why_tests_cant": "accumulated rounding over runs of arbitrary length", "anchors": ["pyqlaw/_qlaw.py:QLaw.solve"]}
{"id": "C110", "title": "The duty cycle holds in double precision", "statement": "In IEEE double arithmetic consecutive thrusting steps start no more than the ON time apart, and between two thrusting steps further apart there is a rest longer than the OFF time; both with the differences as solve() itself would compute them.", "quantifier": "every object and problem with fixed steps and finite battery data, runs of any length, all rounding", "why_tests_cant": "rounded differences over runs of arbitrary length and every binary64 input", "anchors": ["pyqlaw/_qlaw.py:QLaw.solve"]}
{"id": "C111", "title": "solve() terminates in double precision", "statement": "In IEEE double arithmetic a run with a positive fixed step and without battery discharge ends after finitely many steps, its times increase strictly, and it overshoots tf_max by at most one step.", "quantifier": "every object, dynamics, control law and elementary-function library, every problem, runs of any length, all rounding", "why_tests_cant": "non-termination cannot be observed by testing, and the number of steps involved is beyond any test", "anchors": ["pyqlaw/_qlaw.py:QLaw.solve"]}
{"id": "C112", "title": "The saved file is the returned dictionary", "statement": "Called with a path, save_to_dict leaves in that file a JSON text of exactly the dictionary it returns (times, states, controls and canonical units; numpy numbers and arrays as numbers and lists), which is the text of no other value; no other file changes, and without a path none does.", "quantifier": "every completed run, both control formats, any canonical units built from Python and numpy values, nested to any depth, any files", "why_tests_cant": "ranges over nested objects of any shape; unambiguity is about all other values", "anchors": ["pyqlaw/_qlaw.py:QLaw.save_to_dict", "pyqlaw/_qlaw.py:NumpyEncoder.default"]}
{"id": "C113", "title": "A failed save leaves the earlier file alone", "statement": "If save_to_dict raises because the canonical units cannot be encoded, the file at the path is as it was before the call.", "quantifier": "every completed run, any canonical units, any files", "why_tests_cant": "the claim is about every unencodable object wherever it is nested", "anchors": ["pyqlaw/_qlaw.py:QLaw.save_to_dict", "pyqlaw/_qlaw.py:NumpyEncoder.default"]}
{"id": "C114", "title": "pretty_settings() shows the settings in force", "statement": "pretty_settings() shows the element type, tolerances, relaxed tolerances and relaxed exit count given to the constructor, the names that belong to the element type and the integrator last chosen, whatever set_problem, solve and assignments to mu and integrator came between.", "quantifier": "every constructor call, any sequence of set_problem, solve and assignments", "why_tests_cant": "quantifies over all histories of an object", "anchors": ["pyqlaw/_qlaw.py:QLaw.pretty_settings", "pyqlaw/_qlaw.py:QLaw.__init__"]}
{"id": "C115", "title": "solve() terminates in double precision with a battery in use", "statement": "In IEEE double arithmetic a run with fixed steps whose battery discharges and recharges ends after finitely many steps; every recorded row is later than the one before, or no earlier and with less energy in the battery.", "quantifier": "every object, dynamics, control law and elementary-function library, every problem with fixed steps and finite battery data, runs of any length, all rounding", "why_tests_cant": "a shortened step can be too small to move the time; non-termination cannot be observed by testing", "anchors": ["pyqlaw/_qlaw.py:QLaw.solve"]}
{"id": "C116", "title": "The duty cycle bounds the total thrust time", "statement": "Of any first part of a run at most the share (ON + step)/(ON + step + OFF) of the time is thrust, up to one window; the propellant used is bounded accordingly.", "quantifier": "every object, dynamics and control law, every forward problem with finite data, runs of any length", "why_tests_cant": "a bound on accumulated thrust time over runs of arbitrary length", "anchors": ["pyqlaw/_qlaw.py:QLaw.solve"]}
{"id": "C117", "title": "Thrust is paid for by the battery", "statement": "At any time of a run the energy used for thrusting is at most what the battery held at the start, less what it still holds, plus what it could have recharged while the engine was off.", "quantifier": "every object, dynamics and control law, every forward problem with finite data and a battery, runs of any length", "why_tests_cant": "an energy balance over runs of arbitrary length", "anchors": ["pyqlaw/_qlaw.py:QLaw.solve"]}
{"id": "C118", "title": "A perturbation model matters only where steps start", "statement": "The perturbation model influences a run only by the accelerations it gives at the times and states where recorded steps start: a model that agrees there gives the same run, and SpicePerturbations with no bodies, no J2 and no radiation pressure is the same as no model as long as the states are finite ellipses.", "quantifier": "every object, problem and perturbation model, runs of any length", "why_tests_cant": "quantifies over all models, as arbitrary functions", "anchors": ["pyqlaw/_qlaw.py:QLaw.solve", "pyqlaw/_perturbations.py:SpicePerturbations"]}
{"id": "C119", "title": "The recorded times drift by at most one rounding per step", "statement": "In IEEE double arithmetic the k-th recorded time of a run with fixed steps differs from k steps by at most k times 2^-53 times (tf_max + step), and the number of steps to tf_max is tf_max/step up to the corresponding relative error.", "quantifier": "every object, dynamics, control law and elementary-function library, every problem without battery discharge, runs of any length, all rounding", "why_tests_cant": "a bound on rounding errors accumulated over runs of arbitrary length", "anchors": ["pyqlaw/_qlaw.py:QLaw.solve"]}
{"id": "C120", "title": "The recorded masses drift by at most two roundings per thrusting step", "statement": "In IEEE double arithmetic the recorded mass differs from the initial mass less mass flow times step for each thrusting step by at most 2^-53 times (initial mass + mass flow times step), and half the smallest double, per thrusting step; resting steps add no error.", "quantifier": "every object, dynamics, control law and elementary-function library, every problem without battery discharge and with positive mass flow, runs of any length as long as the mass is not negative, all rounding", "why_tests_cant": "a bound on rounding errors accumulated over runs of arbitrary length", "anchors": ["pyqlaw/_qlaw.py:QLaw.solve"]}
{"id": "C121", "title": "Backward in time nothing but the law keeps the thruster off, in double precision", "statement": "In IEEE double arithmetic a run with a step that is not positive takes every step in full; its times never increase, its masses never decrease and grow by mass flow times step when it thrusts, the battery never drains, and neither battery nor duty cycle ever prevents thrust.", "quantifier": "every object, dynamics, control law and elementary-function library, every problem with fixed RK4 steps and finite battery data whose battery is not empty at the start, runs of any length, all rounding", "why_tests_cant": "every run length, every rounding", "anchors": ["pyqlaw/_qlaw.py:QLaw.solve"]}
{"id": "C122", "title": "Backward runs visit the opposite times in double precision", "statement": "In IEEE double arithmetic, if one run has a fixed step h and another one the step -h, the k-th recorded time of the second is exactly minus the k-th recorded time of the first, whatever else differs between them; if both run out of time with the same |tf_max|, they take the same number of steps.", "quantifier": "every pair of objects, dynamics, control laws and an elementary-function library, a forward problem without battery discharge and a backward problem with RK4 and a battery that is not empty at the start, runs of any length, all rounding", "why_tests_cant": "equality to the last bit after arbitrarily many rounded additions, for all pairs of runs", "anchors": ["pyqlaw/_qlaw.py:QLaw.solve"]}
{"id": "C123", "title": "The mass floor holds in double precision", "statement": "In IEEE double arithmetic every mass from which a step of a forward run starts is above mass_min, no recorded mass is below mass_min less the propellant of one step (both operations rounded), and if the propellant of one step is at most mass_min no recorded mass is negative.", "quantifier": "every object, dynamics, control law and elementary-function library, every forward problem with finite data, positive mass flow and an initial mass above the floor (the last two claims without battery discharge), runs of any length, all rounding", "why_tests_cant": "every run length, every rounding", "anchors": ["pyqlaw/_qlaw.py:QLaw.solve"]}
{"id": "C124", "title": "Times and masses are bookkeeping of step and throttle only", "statement": "In IEEE double arithmetic two forward runs with the same fixed step record the same times bit by bit, whatever else differs between them; if initial mass and mass flow agree as well, they record the same masses for as long as they have thrusted at the same steps; and a run that ran out of time took at least as many steps as any other with this step and tf_max.", "quantifier": "every pair of objects, element sets, dynamics, control laws, weights, thresholds and duty cycles, every elementary-function library, forward problems without battery discharge, runs of any length, all rounding", "why_tests_cant": "quantifies over pairs of runs of any length, equality to the last bit", "anchors": ["pyqlaw/_qlaw.py:QLaw.solve"]}

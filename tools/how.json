{
"C01": "Law-free. A trace relation (`Trace.v`) lists the loop iterations of a run; the histories are shown to be projections of it, so their lengths agree on every exit path. Holds for every control law, dynamics and number type.",
"C02": "Law-free for the control flow (a fresh object ends with code 1 only through the strict check on the last state); the check is unfolded to the tolerance statement of the specification (angles modulo a turn).",
"C03": "Law-free. The relaxed counter equals the number of raw states meeting the relaxed check; the last one is among them; none met the strict one. The relaxed tolerance is the factor times the tolerance.",
"C04": "Law-free. Break branch for mass; all earlier post-step masses are above the floor.",
"C05": "Law-free. The loop guard is false at the end and no break was taken.",
"C06": "Law-free. The nan counter is the number of thrust-enabled steps whose law answers nan. NanCount adds the converse: rows at which neither battery nor recharge nor duty cycle stands against thrust (the reasons of C75) and the law answers nan are at most nan_angles_threshold in any run, so the count is exact.",
"C07": "Law-free. Case analysis over the exits of the loop.",
"C08": "Refuted with two successive runs on one object (the second reports code and flag of the first); the exact report of a re-used object is proved: the flag is never cleared, and \"time ran out\" is masked by the previous code.",
"C09": "Law-free induction on the trace.",
"C10": "Extended reals; per-step mass equation read off the trace, any finite parameters.",
"C11": "Extended reals, induction on the trace with C10.",
"C12": "Extended reals, `regular` problems (finite parameters, no Sundman step): the step is t_step or the battery-limited one, which is positive and not longer.",
"C13": "Extended reals. Every step is at least `smallest_step`, so |tf|/smallest_step fuel suffices; forward and backward versions.",
"C14": "Extended reals: np.clip between lo <= hi.",
"C15": "Extended reals and a law-free version (`nleb` test with the 1e-12 margin).",
"C16": "Extended reals: invariant on the charging flag over the chain of steps.",
"C17": "Extended reals. Refuted by a complete run (partial recharge, then a full-length burn on half a unit of energy); proved with require_full_recharge, and without it whenever the battery was full again after every earlier depletion.",
"C18": "rk4 proved; rkf45 refuted by a run and shown wrong on every step (the battery is integrated over the clamped suggestion for the next step). `C18_exact_update` gives the exact law-free update for both integrators.",
"C19": "Extended reals: arithmetic of the truncated step and absence of the zero division.",
"C20": "Extended reals: induction on consecutive thrusting steps with the duty timer.",
"C21": "Extended reals: the timer of the last switch-off bounds the coasting block.",
"C22": "Extended reals for both integrators and both element sets: with zero thrust and zero perturbation the slow rates are exactly 0 whenever the matrix psi is finite, and all stages add 0. psi is shown finite on every ellipse that is not singular for the element set (evaluation in extended reals equals evaluation in reals wherever every operation is inside its domain), and the default Keplerian bounds leave no other finite state than i = pi. With RK4 the next state is such an ellipse again. The example is a complete run of an object with default bounds.",
"C23": "Law-free; both effectivities and both thresholds, including thresholds given as functions.",
"C24": "Law-free. eta_a of a wrong type raises before anything is recorded; eta_r of a wrong type is silently treated as 'no threshold' (refuted).",
"C25": "Law-free. Refuted by a run that reads an unbound name; no run on a depleted initial battery ever returns; with a charged start the name is always bound.",
"C26": "The model tracks that `oe_iter` and `oe0` are the same array until the first step: for Keplerian elements the caller's array is overwritten by the clamp (refuted), for equinoctial elements it is untouched.",
"C27": "Law-free for the clamp; `C27_in_range` turns it into inequalities over the reals.",
"C28": "Law-free, both directions of every assertion, and the order of evaluation.",
"C29": "Invariant over all call sequences (`reachable`); refuted for assignment to `elements_type`, which changes the name but not the functions.",
"C30": "Reals. D is a 2pi-periodic trigonometric expression of the anomaly, dqdt = f|D| up to sign, so the grid maximum bounds the current value; backward in time the sign flips and min/max exchange roles (refuted, exact behaviour proved).",
"C31": "Reals. Kepler's equation is solved by the motion on the ellipse, shown to be two-body motion; for t_step <= 0 the code adds a whole period (refuted).",
"C32": "Extended reals. Time and mass proved; the duty cycle compares signed times and is never enforced backward (refuted, and shown for every run).",
"C33": "Reals: Cauchy-Schwarz plus the quadrant analysis of atan2/arcsin.",
"C34": "Extended reals: zero, nan, and in-plane infinite gradients give nan angles; a gradient with no in-plane part divides by zero in jitted code (refuted).",
"C35": "Reals, both laws: the tree of Q evaluates to a weighted sum of squares; the (\u2026)**(1/r) factor needs `power_ok` for the Keplerian law.",
"C36": "Reals, both laws: soundness of `diff` on trees, instantiated at the five slow elements.",
"C37": "Reals, both laws: dqdt of the law and of the stand-alone function agree, equal f times the norm of D, and are minus the derivative of Q along any motion whose slow elements move as psi says.",
"C38": "Reals: explicit maxima over direction and anomaly; the periapsis rate through the cubic of the optimal anomaly.",
"C39": "Refuted; exact conditions for each of the five normalisers are proved.",
"C40": "Reals, `derivable_pt_lim` of the standard library: time derivative of kep2sv along the Gauss rates equals velocity and Newton's acceleration.",
"C41": "As C40 for f > 0; for f < 0 the sign of the a-rate is wrong on a whole half-space (refuted for every such state); f = 0 raises.",
"C42": "C40/C41 with zero acceleration, where the f < 0 defect disappears; f = 0 raises (refuted).",
"C43": "Reals: rk4 on polynomial right-hand sides and on linear systems, arbitrary coefficients.",
"C44": "Refuted: the weights of the code sum to 1 + 6591/16830504 (`C44_weight`), not 1, and zero rates divide by zero; the exact result for a constant rate is proved.",
"C45": "Refuted by an explicit solution; a step of the slow elements with frozen psi and thrust is proved to be explicit Euler.",
"C46": "Reals: rotation matrices and perifocal coordinates, all zero-angle branches.",
"C47": "Reals: all five angle functions inverted, on the set given by the code's 1e-12 threshold.",
"C48": "Reals, with the exact condition `periapsis_kept`; equatorial orbits refuted.",
"C49": "Reals: field identities.",
"C50": "C48 composed with kep2sv; equatorial orbits refuted.",
"C51": "Reals: half-angle formulas.",
"C52": "Reals: energy identity, sign cases.",
"C53": "Reals: C46 at every sample; the first and last anomaly differ by a turn.",
"C54": "Reals: arccos of cosine compared with the tolerance is the distance on the circle.",
"C55": "Reals: monotonicity.",
"C56": "Reals: min/max projection.",
"C57": "Python's precedence makes the expression ((a+pi) % 2)*pi - pi: range proved, same-angle refuted, with an interval of wrong values.",
"C58": "Reals: Battin's q-form is algebraically the direct form.",
"C59": "Refuted (5z^2 instead of 5z^2/r^2); proved where the two agree.",
"C60": "Reals.",
"C61": "Reals: orthonormality, determinant, images of r, v, r x v.",
"C62": "Reals with SPICE as arbitrary functions; `third_bodies_names=None`, which the constructor accepts and tests for, raises on evaluation (refuted). With `third_bodies_gms` given, the values are used as they are (C62_given_constants).",
"C63": "Reals, every mesh point.",
"C64": "Reals, both two- and three-dimensional calls.",
"C65": "Lengths law-free; values over the reals; Keplerian states are passed to the equinoctial conversion (refuted, exact content proved).",
"C66": "Columns over the reals with the exact condition; the default sample count through an arbitrary `round` with its bounds.",
"C67": "Extended reals: the law is nan because psi contains atan(g/f), so the step coasts, and the jitted equations of motion raise on the same quotient (refuted); threshold 0 ends with -3.",
"C68": "As C40 for the p-based elements.",
"C69": "Law-free: lengths of the histories against the slices used; efficiency plot of a run without steps raises (refuted).",
"C70": "Curve by curve, with the exact condition for the periapsis curve; refuted for equinoctial elements, where e is replaced by f.",
"C71": "Against the documented meaning of step(where='pre'): each control is drawn over the interval before it (refuted).",
"C72": "From C02; Keplerian angles may differ by a turn (refuted).",
"C73": "Law-free: the raw states are the integrator's outputs, each iteration is inverted into the control phase, the perturbation and the integrator call.",
"C74": "C73 with C33 over the reals, both signs of dt.",
"C75": "Extended reals: induction on the chain of battery, charging and duty flags; every reason is stated on the recorded histories only.",
"C76": "Instance of C75 in which the other three reasons are impossible; the defaults are shown to satisfy the hypotheses.",
"C77": "Law-free unfolding of the constructor and set_problem against a field-by-field statement. The setters and solve keep every other setting (RunSpec.settings).",
"C78": "Reals. Refuted: stage increments are multiplied by the step twice, so a linear system is integrated with one-step error of order h^2; the exact result, including the suggested step, is proved for every linear system and every rate that depends on time only. Missing: general right-hand sides, for which no closed form exists.",
"C79": "Reals: the curves are compared with the closed formulas of C46/C50 at the sampled angles; limits from the extrema of the data (C64). Refuted: limits ignore the target orbit, witness a run that starts far inside its target. Missing: equinoctial orbits in the reference plane.",
"C80": "Reals: orthonormality and the addition theorems.",
"C81": "Reals: homogeneity of every term, composed with C62. Refuted with J2 (5z^2): the physical result of the same orbit differs between two length units. Proved without J2, and with it on the equator and at distance one LU.",
"C82": "Extended reals, complete run by induction over the loop: the gradient with respect to the semimajor axis is nan below the target, the angles are nan, the coast succeeds (no division by zero on an ellipse) and keeps the slow elements, so the next state is again below the target. The induction is done for any law that is nan along the orbit (C82_nan_law_gives_up); C92 is another instance.",
"C83": "Extended reals (nan and infinities included), whole runs. Every subexpression of both laws, their gradients and rates is given dimensions by a checker proved sound (DimProofs) and run on the two laws by computation; the dynamics, rk4, Sundman step, battery, duty cycle, thresholds and convergence test are shown to respect the conversion; a simulation lemma for the loop (SymRun) gives the run. rkf45 is refuted on y' = y: its stage increments carry the step twice.",
"C84": "Extended reals, whole runs, both integrators. A checker proved sound shows that both laws see angles only through sines and cosines, and the node only through its difference to the target's; same simulation lemma as C83. Refuted with the default bounds (they are not turned) and for the equinoctial law, whose Q depends on the reference axis.",
"C85": "DvProofs telescopes C10 (mass of one step) over the recorded steps and bounds each step with ln x <= x - 1; throttles are 0 or 1 by RunProofs.ctl_inv. The whole-run bound uses C11 (mass never more than one step below mass_min) and C12 (times increase). tmax in the sums is a free number: C73/C74 tie the flown acceleration to tmax/m.",
"C86": "ElemInv builds the elements of an arbitrary elliptic state (the plane from the angular momentum, then the planar Kepler problem), proves the textbook formulas give the state back, and combines this with C47 for the regular case; get_omega below its threshold is computed for the equatorial case and for the three counterexamples.",
"C87": "CutProofs runs the two loops side by side: up to the first row at which either stops they hold the same state, so the shorter history is a prefix; only the in-place clamping of the last Keplerian state (which happens one row later) can differ. The second theorem adds that with |tf| enlarged the shorter run is always the original one. The first theorem uses no law of arithmetic.",
"C88": "Extended reals, whole runs. The dimension checker of C83 is run with the weights as the unit: Q, its gradient, the control vector and dQ/dt are of degree one, psi of degree zero; the loop simulation of SymRun gives the run.",
"C89": "Extended reals, one iteration. The same checker with mu of degree two in sqrt(d) and the acceleration of degree one in t; angles are ratios, effectivities are ratios of rates.",
"C90": "XLaw.defined says that every operation of an expression is applied inside its domain; then extended-real and real evaluation agree. FinProofs shows that a smooth expression (DiffProofs) is defined together with all its derivatives, so that both laws, their gradients and, for non-zero gradients, dQ/dt are finite on EffSpec.regular states. The control step is then computed case by case. With C06 this gives that every code -3 is due to singular states.",
"C91": "ZeroProofs evaluates a small abstract domain on the expressions of both laws: what a sub-expression can be when the environment is replaced by one with the other targets (same value, or zero because multiplied by the weight). One kernel computation per choice of zero weights shows that all outputs of the laws are the same; at Keplerian angle targets this needs that neither difference has sine zero. ZeroSolve lifts this over the loop. The refutation is a complete run (ZeroCase): on the node target it gives up at once, with another node target and the same zero weight its first iteration thrusts (C90).",
"C92": "ZeroRuns: the derivative of acos(cos(x)) is sin(x)/sqrt(1-cos(x)^2), nan at x = 0; the nan survives the product with the weight, so the out-of-plane component of the gradient and then all angles are nan along the whole orbit; C82_nan_law_gives_up finishes.",
"C93": "RestartProofs: while powered, the duty flag stays on, the switch-on time stays 0 and the charging flag stays off, so one iteration is a function of state, mass and battery alone; induction over the rows of both runs, using that clamping a clamped state changes nothing. Two toy runs (duty cycle, full recharge) show the conditions are needed.",
"C94": "DescProofs: a step moves the slow elements like an explicit Euler step (C45) and its stages stay in the open domain of the equations for short h, so it succeeds; Q does not depend on the fast element, and C37 gives its derivative along the Euler line. DescRuns: at apoapsis of a = 1, f = 1/2 the step h = (29/40)/sqrt(3/4) carries f from 1/2 to -19/20 and Q from 1/12 to 1805/1534.",
"C95": "EtaProofs: thresholds enter only the control part. On one state two settings give the same angles, psi, Q, dQ/dt and nan count, and the same force if they give the same throttle; so two runs whose states agree (recorded effectivities and thresholds apart) either agree after one more row or choose different throttles there. Induction over both loops; that the finished histories begin with the row is CutProofs (C87). Stricter thresholds: whatever effectivity is below the old threshold is below the new one, and a positive threshold stays positive.",
"C96": "MirrorProofs: an abstract interpretation of expressions with the parities even, odd, zero and half-turn angle, proved sound over the extended reals, computes that in both laws Q and dQ/dt are even, the steering vector has an odd normal part, and the rows of psi and of the gradient have the signs of their elements. Rates, rk4 and rkf45, convergence test, safeguard and thresholds follow; MirrorSolve carries it through the iteration and the loop. That the change of elements is a reflection of position and velocity is proved for the code's own conversions over the reals (C46, C50).",
"C97": "FlatProofs: a flat state is a fixed point of the reflection, so by C96's step lemma each iteration from a flat state is its own mirror image; a number equal to its negative is zero or nan, and recorded angles are never nan.",
"C98": "SkyProofs: numbers that are zero or nan form an ideal (sums, products with anything, quotients by anything), and the normal components of position, velocity and every acceleration stay in it; the mirror statement is proved term by term, the angular momentum changing sign. SkyFin: the same expressions on finite floats and on reals agree when square roots and array divisions are defined, which follows from the orbit being an ellipse.",
"C99": "PlaneProofs: the checker of C91 shows that without weight on slots 2-4 the out-of-plane component of the Keplerian gradient is zero or nan for every argument; then the recorded angle is zero, and the equations of motion move inclination and node only through the normal acceleration, so each stage of both integrators adds zero or nan. The equinoctial refutation evaluates the gradient of Q at a = 1, f = g = 1/2, h = 1, k = 0, L = pi/2, where f and g themselves react to normal thrust.",
"C100": "False for Keplerian elements: elements_safety computes min(max(lower, x), upper), which is the lower bound for x = nan, and works in place on the recorded array (refuted by a run with the default bounds and a perturbation that answers nan; the exact replacement is proved). Proved for equinoctial elements, which are never clamped: both integrators add to the old element.",
"C101": "Report.v repeats the loop with the lines it prints; by induction on the fuel the result is that of the silent model. A progress line is formed only after the convergence test has answered, which with the library's tests implies a target of five entries, so forming it cannot raise.",
"C102": "False on re-used objects: converge is never cleared and the closing message looks at it, so a later run that ends on time announces success, and a second time-out says nothing (both refuted by runs). Proved on fresh objects for every exit.",
"C103": "The transcript is computed along the trace of completed iterations and equals a table specified separately (lines_at, table) applied to the recorded times and the integrator's results.",
"C104": "Proved for calls after set_problem. After a Keplerian solve the start shown is the safeguarded one, because solve works in place (refuted). element_names is an argument of the model: the elements_type setter does not change it.",
"C105": "Over `FNum L`: binary64 of Coq's `SpecFloat` on valid values, with an arbitrary library `L` of elementary functions; `C105_double_arithmetic` says the instance computes what the specification says. The proof shows that rounding a non-negative sum cannot fall below either summand (no real numbers or external library used). Strict increase is false: a step shortened to the remaining battery energy can be smaller than half a unit in the last place of the time.",
"C106": "Same arithmetic; the mass subtracted in a step is a product of non-negative numbers, and rounding cannot raise the difference above the minuend. In the run that refutes C105 a thrusting step leaves the mass unchanged.",
"C107": "Clamping by comparison is exact in any arithmetic that compares doubles; absence of nan needs finite rates and steps and is an invariant of the run. That the divisor of line 416 is positive follows from the two tests before it, after rounding.",
"C108": "The clamp assigns the bounds themselves, so it holds without rounding error; `max`/`min` keep the bound when the element is nan.",
"C109": "Exact if step and duration are multiples n 2^e with all partial sums below 2^53 units: addition is exact there (`exact_round`), so row k has time k n 2^e and the run that times out has exactly tf_max/t_step steps. False for decimal steps: with the default t_step = 0.1 and tf_max = 1 the tenth time stamp is 1 - 2^-53, and an eleventh step follows; a duty window of 0.3 lasts three steps, not four, because 0.1+0.1+0.1 > 0.3 in doubles. Both refutations put the double run beside the exact one of the same problem.",
"C110": "The scheduler's own subtractions t - t_last_ON and t - t_last_OFF are rounded, so the limit is stated for rounded differences. Needs that subtraction in binary64 is monotone: FloatMono shows that the result of + and - is the exact sum rounded to nearest even (`add_rounds`, `sub_rounds`) and that rounding is monotone (`rounds_mono`). The flag, t_last_ON and t_last_OFF then follow the invariants of C20/C21, including the recharging rule when the battery level is nan.",
"C111": "If the step is at least 2^e and the duration at most M 2^e with M <= 2^53, rounding never falls below the next multiple of 2^e (`near_grid`), so every step gains at least one unit, times increase strictly and at most M steps are taken; e and M may be chosen freely, so every problem with tf_max/t_step < 2^52 is covered. The last time exceeds tf_max by at most one step, in rounded arithmetic. Refuted without the bound: with step 1 and tf_max = 2^53 + 2 the time stays at 2^53 and solve never returns (`long_loop`: for every fuel); C111_stuck is the general form. With battery discharge see C115.",
"C112": "Json.v models json.dump with an indent as the sequence of tokens it writes (layout and the spelling of numbers and strings are left out) and a file system as content per path. JsonSpec.v gives the JSON grammar (`text`) and the content of a Python object (`shows`) independently of the encoder. By induction over nested values (`emit_good`) what is written without an exception is a text of the content; texts are unambiguous (`text_prefix`), contents unique (`shows_fun`).",
"C113": "Refuted: the file is opened for writing first and written piece by piece, so an unencodable value leaves a truncated text (witness: two saves to the same path). Exact behaviour: whenever the units have no content in JSON, TypeError is raised, the file begins with t0, tf and the times, breaks off inside canonical_units and is the text of no value (an unclosed brace, `text_balanced`).",
"C114": "Induction over the life of the object (`later`). Assigning elements_type afterwards is separate: the type shown changes, names and dynamics do not.",
"C115": "FloatBatt: a shortened step that cannot move the time still lowers the battery by at least one rounding unit, because solve() only shortens while more than 1e-12 is left above the lower limit (`drained`, `drops`), and the lower limit is reached within a number of such steps that depends on the capacities only; the time then moves by a full step (`batt_iter`, `ends`). So time and battery together make progress and the run ends. Hypotheses: duration at most 2^53 times a power of two below the step (as in C111), the duty cycle does not rest before tf_max, and one step cannot empty a full battery. Both last ones are needed: C115_battery_ends_refuted (a rest with charge rate 0) and C115_small_battery_refuted (positive charge rate) are runs that repeat the same state for every fuel, because the step is also shortened while the engine rests, and is then below the rounding unit of the time.",
"C116": "BudgetProofs: induction over the ON windows of a run (`windows`): from the first thrusting step of a window every thrusting step starts within ON, so a window contributes at most ON + step (`burn_window`); the next one starts only after more than OFF without thrust (the OFF-time rule of the duty cycle). The propellant bound follows because each step loses mass flow times throttle times step. Vocabulary: `logged` and `burn_time` of DvSpec. The bound leaves one window of slack (the `+ OFF`); the example has 3 of 5 units, where 3.6 are allowed.",
"C117": "BudgetProofs: induction over the steps; in a thrusting step the recorded level falls by exactly discharge times the recorded step, because a step is shortened before it would pass the lower limit, and in a rest it rises by at most charge times step. With require_full_recharge the level never has to be cut off at the lower limit. C117_energy_budget_refuted: without it the engine fires again from an empty battery (C17), and the run thrusts for longer than the energy balance allows. The example attains the bound.",
"C118": "LocalProofs: law-free induction over the run; one iteration reads the model once, at the time and state where the step starts (the acceleration is then held over the whole step), so two models that agree there give the same next state. The second theorem computes what SpicePerturbations gives with empty lists and both flags off: on an elliptic orbit the conversion to Cartesian and the frame have finite components (SkyFin), so the sum is zero and the rotated vector is zero. The first example is a model that fails after time 1000.",
"C119": "FloatErr: the standard error bounds for binary64 are derived from the definitions in Coq's SpecFloat: an addition or subtraction with finite result has relative error at most 2^-53 (`add_err`, `sub_err`; no underflow term, small sums are exact), a multiplication that or 2^-1075 (`mul_err`). Every step that is made starts below tf_max, so each addition to the time errs by at most 2^-53 (tf_max + step); induction over the run gives `time_tr`. The step count follows from the loop condition at the last step and at the end. The vocabulary (`real64`, the real number a double stands for) is ErrSpec. The example is the run with step 0.1 up to 1, whose tenth time is 3/2 units of 2^-53 below ten steps, so that it makes an eleventh.",
"C120": "FloatErr: as C119; a mass that is not negative was not negative before and the exact difference is not negative either, so each thrusting step errs by one rounding of at most the initial mass and one of the product (`mass_err`); resting steps copy the mass. A final negative mass (below mass_min, exit -1) is excluded by `fle f0 m`.",
"C121": "FloatBack: mirror images of the rounding lemmas of FloatProofs (adding or subtracting something of the wrong sign moves a double the right way or not at all). A step that is not positive makes discharge times step not positive, so the level after the step is not below the one before: the shortening branch (_qlaw.py:415) is never taken and the battery is never found empty; t - t_last_ON is never positive, so the ON limit is never exceeded (the double-precision side of C32's refuted duty cycle). With the flag always on, a coast is the law's own (`ctl_coast` of C75). The initial level and the capacity have to be above the empty level; the example checks that on a run with a duty cycle, a battery and full recharges required.",
"C122": "FloatMirror: rounding to nearest even does not look at the sign (`binary_round_aux` passes it through), so adding the opposites gives the opposite, up to the sign of zero. Every forward step has its full length because nothing drains the battery (C105's `full_step`), every backward step has it by C121; induction on the row. The while test compares absolute values, so both runs stop at the same row. The example has the eleven steps of 0.1 to time 1 in both directions.",
"C123": "FloatFloor: the mass check of the loop (_qlaw.py:594) lets no mass at or below the floor start a further step, and masses of a forward run are numbers (C106), so the negated comparison is a strict one. The last bound is monotony of rounded subtraction in its first argument; that the difference is not negative follows from rounding a non-negative number. The bound on the last mass needs full steps and so is stated without discharge. In the example rounding makes a sixth step out of five.",
"C124": "FloatSame: without discharge every step has its full length (`full_step`), so time and mass follow recurrences in which only the step, the mass flow and the throttle occur; induction on the row for two runs at once. The while test then fails at the same row in both. The example compares a run with and without a duty cycle."
}
{
"note": {
"C47": "for orbits whose node line and eccentricity vector pass the code's own 1e-12 threshold",
"C48": "proved where the conversion keeps the periapsis direction (exact condition periapsis_kept); refuted for equatorial orbits",
"C50": "proved for inclined orbits; refuted for equatorial orbits",
"C51": "away from the half-turn where tan is undefined",
"C57": "the range is proved; the value is a different angle on an interval (refuted)",
"C59": "refuted (5 z^2 instead of 5 z^2/r^2); proved on the unit sphere and in the equatorial plane",
"C62": "proved for lists of bodies, including the empty list; refuted for third_bodies_names=None, which the constructor accepts",
"C44": "refuted: the stage weights do not sum to one, and zero rates divide by zero; the exact result is proved",
"C45": "refuted by an explicit solution of the Gauss equations: error of one step at least dt^2; slow elements take an explicit Euler step (proved)",
"C33": "any control law, any gradient with non-zero in-plane part",
"C34": "proved for zero, nan and in-plane infinite gradients; refuted for gradients without in-plane part (ZeroDivisionError)",
"C35": "both laws; for the Keplerian law the hypothesis power_ok is needed, and Q is nan without it (refuted)",
"C36": "both laws, on the explicit set where every operation in Q is differentiable",
"C37": "both laws, on the set of C36",
"C40": "psi is the one the control law returns for the same state; kep2sv is the modelled function",
"C41": "proved for f > 0; refuted for every f < 0 (a-rate wrong because of atan(g/f)); f = 0 raises ZeroDivisionError",
"C42": "Keplerian in full; equinoctial for f <> 0, refuted at f = 0 (ZeroDivisionError)",
"C68": "textbook Cartesian state of equinoctial elements",
"C38": "all five elements; argument of periapsis through the cubic for the optimal anomaly",
"C39": "refuted; exact conditions proved: a always right, h iff f<=0, k iff g<=0, f iff g=0, g never",
"C30": "forward in time proved for both element sets; refuted backward, where strongest and weakest are exchanged (exact behaviour proved)",
"C31": "proved for t_step > 0 against two-body motion; refuted for -2 pi < t_step <= 0, where the step is positive (exact formula proved)",
"C65": "lengths and controls proved; states proved for equinoctial elements inside the unit disc; refuted for Keplerian elements (mee_with_a2mee applied to Keplerian states), exact content proved",
"C66": "columns are right exactly when the conversion keeps the periapsis direction (always for Keplerian elements), refuted otherwise; default sample count bounded and its value proved; interpolation through an oracle",
"C67": "refuted: the run ends in ZeroDivisionError instead of exit code -3, unless the threshold is zero (exact behaviour proved for both cases)",
"C69": "battery, Q and control curves for every run; efficiency curves for every run with at least one step, refuted for a run without steps",
"C70": "proved with the exact condition under which the periapsis curve is the periapsis radius; refuted for equinoctial elements without conversion",
"C71": "refuted: with where='pre' each control is drawn over the interval before it; that shifted statement is proved",
"C72": "within tolerance for weighted elements: all five equinoctial, the first three Keplerian; refuted for the Keplerian angles across a turn",
"C74": "for any control law; the gradient is the vector the law returns",
"C75": "finite parameters, no Sundman steps; non-negative duty cycle",
"C76": "finite mass and mass-flow rate, no Sundman steps",
"C78": "refuted (error of one step at least h^2/5 on a linear system, because stage increments carry the step twice); exact result and suggested step proved for linear systems and time-only rates",
"C79": "curves and limits proved for ellipses whose periapsis direction the conversion keeps; refuted: the target orbit can lie outside the 3D limits",
"C81": "proved without J2, or on the equator, or at distance one LU; refuted with J2 elsewhere (5z^2); bodies given by name, their GMs from SPICE",
"C17": "refuted as stated (after a partial recharge without require_full_recharge); proved with the option, and without it when the battery was full after every earlier depletion",
"C83": "proved with rk4; refuted with rkf45 (one step of y' = y); the battery's unit of charge is not converted (its tolerance 1e-12 is absolute)",
"C84": "proved for Keplerian runs and for whole turns of the true longitude; refuted for default bounds and for turned axes in the equinoctial law",
"C91": "Proved for equinoctial elements, for Keplerian eccentricity and inclination, and for Keplerian angles while no recorded state is exactly at or opposite a target; refuted for states on an angle target. The semimajor axis target is not covered (its power function can be nan whatever the weight).",
"C100": "refuted for Keplerian elements, whose bounds replace nan by numbers (exact replacement proved); proved for equinoctial elements",
"C102": "refuted on re-used objects (a time-out after a converged run announces success; a second time-out is silent); proved on fresh objects",
"C104": "refuted after a Keplerian solve (the safeguarded start is shown); proved after set_problem",
"C105": "never decreasing is proved; strictly increasing is refuted (a shortened step below half an ulp repeats the time)",
"C106": "never increasing is proved; strict decrease in thrusting steps is refuted",
"C109": "proved for steps on a binary grid; refuted for t_step = 0.1 (extra step, shorter duty window)",
"C111": "proved when the duration is at most 2^53 times a power of two below the step and the battery is not discharged; refuted beyond (time stops at 2^53 steps)",
"C113": "refuted: a failed save destroys the earlier file; what it leaves is described exactly",
"C115": "proved when the duty cycle does not rest before tf_max, one step cannot empty a full battery and the duration is at most 2^53 times a power of two below the step; refuted without either of the first two",
"C117": "proved with rk4 and require_full_recharge; refuted without full recharge; for rkf45 see C18"
},
"partial": [
"C48",
"C50",
"C57",
"C59",
"C62",
"C44",
"C45",
"C34",
"C35",
"C41",
"C42",
"C83",
"C84"
]
}
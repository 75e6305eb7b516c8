1. `solve` on a re-used object can report the exit code and flag of the previous run (C08).
2. Without `require_full_recharge` a burn can use energy the battery does not have; the clip hides it (C17).
3. With rkf45 the battery is integrated over the suggestion for the next step (C18).
4. A wrong-typed `eta_r` is ignored (C24).
5. A depleted initial battery ends in `UnboundLocalError` (C25).
6. The caller's `oe0` is overwritten for Keplerian elements (C26).
7. Assigning `elements_type` does not change the dynamics (C29).
8. Backward in time: effectivities exchange strongest and weakest (C30), Sundman steps go forward (C31), the duty cycle is
   not enforced (C32).
9. A purely out-of-plane gradient raises `ZeroDivisionError` (C34); so does every equinoctial state with f = 0 (C41, C42,
   C67), which includes every circular start.
10. Non-integer powers make the Keplerian Q nan (C35).
11. Four of the equinoctial normalisers are not the maximal rates on part of the state space (C39).
12. atan(g/f) instead of atan2(g,f): wrong semimajor-axis rate for every f < 0 (C41).
13. The rkf45 weights do not sum to one (2197/4101 for 2197/4104); zero rates divide by zero (C44); stage increments are
    multiplied by the step twice, so the method has no order (C78).
14. psi and thrust are frozen over a step, so the slow elements take an Euler step whatever the integrator (C45).
15. Equatorial orbits lose their periapsis direction in mee2kep (C48, C50, C66).
16. `wrap` has a precedence error (C57); it only affects the anomaly curve of `plot_controls`.
17. The J2 term uses 5z^2 where 5z^2/r^2 is meant (C59), so the physical acceleration depends on the length unit (C81).
18. `third_bodies_names=None` is accepted by the constructor but raises on evaluation (C62).
19. `save_to_dict` converts Keplerian states with an equinoctial function (C65).
20. Plots: efficiency plot of an empty run raises (C69), periapsis curve uses f for e (C70), controls are drawn one interval
    early (C71), `plot_Q` labels the signed dQ/dt as |dQ/dt| on a logarithmic axis; `plot_controls` computes radii it does
    not use; the 3D axis limits look at the transfer only, so the target orbit can be cut off (C79).
21. Printed errors of Keplerian angles can be a whole turn after convergence (C72).
22. A non-integer `n_petro` makes a Keplerian run from below the target coast until it gives up with code -3, draining the
    battery at the discharge rate meanwhile (C82).
23. A Keplerian run that starts exactly on its node or periapsis target never thrusts, even if that element has no weight
    (C92); a restart forgets duty cycle and recharge (C93); a thrust step can raise Q, there is no line search (C94).
24. The Keplerian bounds replace nan by the lower bound in the recorded states, so a lost state looks like an orbit with
    a = 0.05 and e = 0.0001 (C100).
25. The closing message of `solve` repeats an earlier success on a re-used object, and a second time-out is silent (C102).
26. In doubles, t_step = 0.1 and tf_max = 1 give eleven steps, and a duty window of 0.3 three thrusting steps instead of
    four; a step cut to the last battery energy can repeat the time stamp and burn no mass (C105, C106, C109).  With step 1 and tf_max = 2^53 + 2
    the time stops growing and solve never returns (C111).
27. `save_to_dict` opens the file before it encodes: units that json cannot encode leave a truncated file in place of the
    earlier one (C113).  nan and infinities are written as json.dump spells them, which is not standard JSON.
28. The step is cut to the remaining battery energy even while the engine rests (lines 415-418 do not look at `duty`).  In
    doubles such a step can be too small to move the time, and if resting does not change the battery either, solve never
    returns (C115).
29. Without `require_full_recharge` a run can thrust for longer than the battery's charge and all recharging together allow
    (C117, same cause as C17).
30. The perturbing acceleration is evaluated once per step and held over it, in every stage of rk4 and rkf45 (C118).

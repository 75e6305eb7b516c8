# Formal model of pyqlaw in Rocq (Coq 8.16.1)

`properties.jsonl` states the properties in words, `rocq/theories/Prop_*.v` states them as theorems,
`MANIFEST.json` connects the two, `seeded/LOG.jsonl` records the wrong programs the theorems were tested against.
This file says what is modelled, how each property is proved, and what has to be trusted.

Contents: 1 approach, 2 layout, 3 what is modelled and what is not, 4 simplifications, 5 properties one by one,
6 trusted base, 7 findings, 8 tools and mutation testing.

## 1. Approach

* The Python code is transcribed function by function into Gallina, **once**, over a record `Num` of numeric
  operations without laws (`Num.v`).  Every definition cites its file and lines.  Exceptions are values (`Res`, `Base.v`);
  a scalar division inside a numba-jitted function is `jdiv`, which raises `ZeroDivisionError` as numba's default error
  model does.  Theorems are proved at four levels:
  1. *law-free*, for every `Num`, hence also for IEEE doubles: control flow of `solve`, exit codes, histories, thrust
     gating, argument validation, aliasing, what a recorded step is;
  2. over `XNum` = extended reals `Fin r | PInf | MInf | NaN` (exact arithmetic, nan propagation and comparisons as in
     numpy): time, mass, battery and duty-cycle arithmetic of `solve`, nan behaviour of the control law;
  3. over `RNum` = Coq's reals: conversions, dynamics, integrators, symbolic Q-law, effectivities, perturbations, plots.
     Division by zero is not used silently: where the code raises, the model returns `Err`; where numpy would give nan or
     inf (array division), the theorems have hypotheses that exclude it or are stated over `XNum`;
  4. over `FNum L` = IEEE binary64 with rounding (`Float64.v`, on the standard library's `SpecFloat`; `L` is any library
     of elementary functions): the bookkeeping of `solve` as it is executed (C105-C111, C115, C119-C124).
* The object `QLaw` is a record; its function-valued attributes (`eom`, `lyap_fun`, `dqdt_fun`, `check_convergence`,
  `perturbations`) are Coq functions, as they are attributes in Python.  Theorems about `solve` quantify over all such
  functions unless they say otherwise; `init` is the constructor that installs the concrete ones.
* `while` loops are recursion on fuel.  Running out of fuel is the outcome `Running`, which no theorem treats as a
  result: `ran` requires `Returns`.  Termination is its own theorem (C13).
* sympy: Q is a syntax tree (`Symbolic.v`), `sym.diff` is a Coq function on trees and `lambdify` is evaluation.  That
  `diff` computes the derivative is proved (`DiffProofs.v`), on the set where every operation in the tree is differentiable.
* Each `Prop_*.v` file has only theorems (`exact lemma`), `Print Assumptions` and `Example`s that exhibit a case meeting
  the hypotheses.  The vocabulary of the statements is in the `*Spec.v` files and does not use model helpers beyond the
  function the theorem is about; proofs are in the other files.
* Names: `…_refuted` has a witness against the property as stated; `…_partial` is a true statement weaker than the
  property, whose full statement is in the comment above it.

## 2. Layout of rocq/theories

| files | content |
|---|---|
| Num, Base | numeric structure and its exact instances; exceptions, vectors, numpy helpers |
| Elements, Convergence, Integrate, Eom, Lyapunov, Symbolic, SymKep, SymMee, Perturb, PlotHelper, Qlaw, Export, Json, Report, PlotMethods | the model |
| Float64 | the instance for IEEE doubles |
| Spec, XSpec, RSpec, LawSpec, MaxSpec, GaussSpec, EffSpec, ExportSpec, RunSpec, FehlSpec, TrajSpec, UnitSpec, ScaleSpec, TurnSpec, DvSpec, InvSpec, CutSpec, WeightSpec, FinSpec, EllSpec, NanSpec, ZeroSpec, RestartSpec, EtaSpec, MirrorSpec, SkySpec, PlaneSpec, ReportSpec, FloatSpec, JsonSpec, LocalSpec, ErrSpec, BackSpec | vocabulary of the statements |
| Trace, SolveProofs, ExitProofs, GateProofs, StateProofs, RunProofs, ReportProofs, SettingsProofs, JsonProofs, LocalProofs | invariants of `solve`, law-free |
| XTrace, XProofs, XSolve, XReason, XEnergy, CoastProofs, BudgetProofs, NanCount, RunDefaults | invariants of `solve` over extended reals |
| FloatProofs, FloatMono | rounding in binary64: signs, exact cases, nearest and monotone |
| FloatRun, FloatDuty, FloatTerm, FloatBatt, FloatErr, FloatBack, FloatMirror, FloatFloor, FloatSame | invariants, duty cycle, termination, accumulated rounding and backward runs of `solve` in doubles |
| RMath, RLib, ElemProofs, …, the other *Proofs files | analysis and trigonometry over the reals |
| Sim, Runs, XRuns, EffRuns, SundRuns, MaxRuns, GateRuns, ExportRuns, RunRuns, RunReals, TrajRuns, FinRuns, ZeroCase, ReportRuns, FloatRuns, FloatTermRuns, FloatBattRuns, FloatErrRuns, FloatBackRuns, FloatMirrorRuns, FloatFloorRuns, FloatSameRuns, JsonRuns, NanCountRuns | concrete runs used as examples and witnesses |
| Prop_* | the theorems named in MANIFEST.json |

`Sim.v` runs the bookkeeping of `solve` on rational data (`QNum`, `vm_compute`) and transfers the result to `XNum` by a
proved simulation, so the examples over the extended reals are complete runs and not assumptions.

## 3. What is modelled

| source | modelled | not modelled |
|---|---|---|
| `_transformations.py` | everything | |
| `_elements.py` | everything | |
| `_convergence.py` | everything, including that `elements_safety` writes into its argument | |
| `_integrate.py` | everything | |
| `_eom.py` | all three right-hand sides | |
| `_lyapunov.py` | everything | |
| `_symbolic.py` | both Q expressions, their derivatives, psi, D, dqdt, argument order of the lambdified functions | `cse`, printing to files; how sympy simplifies (see 4) |
| `_perturbations.py` | the four functions; `SpicePerturbations` constructor and `get_perturbations_RTN` | SPICE itself: `spkpos`, `pxform`, `bodvrd`, `convrt` are arbitrary functions |
| `_plot_helper.py` | coordinates of sphere and ellipsoid, `set_equal_axis` | the matplotlib calls |
| `_plot_methods.py` | data, limits and order of the curves of `plot_elements_history`, `plot_battery_history`, `plot_controls`, `plot_efficiency`, `plot_Q`, `plot_trajectory_2d/3d`; meaning of `step(where=…)` | pixels, colours, labels, figure objects |
| `_qlaw.py` | constructor, setters, `set_problem`, `solve` with every branch, `evaluate_osculating_qdot`, `interpolate_states`, `get_cartesian_history`, `pretty`, `pretty_results` and `pretty_settings` (values), the lines printed by `solve`, `save_to_dict` (values, and the file as JSON tokens), `NumpyEncoder` | number formatting, layout of the JSON text, failing file operations, `tqdm`, `scipy.interpolate.interp1d` (an arbitrary function) |

Also outside: numba compilation, numpy itself, Python's object model beyond the aliasing of `oe0`/`oe_iter`, the scripts
in `examples`, `dev`, `experiments` and `docs`.

## 4. Simplifications

* **Rounding.**  `XNum` and `RNum` are exact.  Law-free theorems hold for floating point as they stand, C105-C111,
  C115 and C119-C124 are about doubles; the others hold for the real-number reading of the code.  In `FNum` nan has no sign or payload, and
  decimal literals such as 1e-12 are one correctly rounded division, 1/10^12, which is the double nearest the literal.
* **sympy's automatic simplification.**  sympy may cancel factors in the derivative it builds (for example
  `(a-aT)**2/(a-aT)`), so at points where the derivative tree of the model divides 0 by 0 the generated code may have a
  value.  No theorem depends on the value of `diff` at such points: C36, C37, C30 exclude them, and C67 needs only
  that `atan(g/f)` in psi is nan at f = g = 0, which sympy does not rewrite, C82 only that dQ/da still contains the
  power of `(a-aT)/(m*aT)` from Q, and C91 (refutation) and C92 that the derivative of `acos(cos(x))` is kept as
  `sin(x)/sqrt(1-cos(x)**2)`, whose sign depends on x so that there is nothing to cancel.
* **`lambdify` without numba.**  The generated functions are plain Python on numpy scalars, so their divisions do not raise
  (`ndiv`), unlike those of the jitted functions (`jdiv`).  A subexpression of Python floats only, `1/r_petro` with
  `r_petro = 0`, would raise; no theorem has this case.  Element vectors are numpy arrays, not lists.
* **`min` and `max` in jitted code** keep their first argument unless the second is strictly smaller or greater, as in
  Python; C27 and C100 depend on this for nan.
* **Thresholds given as callables** are pure functions of (t, oe, mass, battery).
* **`np.sum(check_array)==len(tol_oe)`** is kept as a count; arrays of fixed length are records.
* **`atan2`, `pow`, `%` with infinite arguments** are collapsed to nan in `XNum`; no theorem reaches them.
* **IndexError** for targets with fewer than five entries is `Err IndexError`; negative Python indices do not occur.
* **Unit scaling of axes, strings of labels, file paths** are arguments that do not influence the modelled values.

## 5. Properties

PERPROP

## 6. Trusted base

* The Coq 8.16.1 kernel (and `coqchk` on the compiled files); `vm_compute` is used in examples and in the simulated runs.
* No axiom, parameter, functor, module type, plugin or switched-off check is declared in the development.  The reals of
  the standard library bring `ClassicalDedekindReals.sig_forall_dec`, `ClassicalDedekindReals.sig_not_dec` and
  `FunctionalExtensionality.functional_extensionality_dep`; case analysis on real propositions brings `Classical_Prop.classic`.
  The opaque constants of the standard library's module `RbaseSymbolsImpl`/`RinvImpl`, and those of `ssrunder`, appear in
  `coqchk -o` as module-sealed definitions, not as assumptions of a theorem.
* That the model says what the Python says: section 3 and 4, and the citations in the model files.
* That the numpy/numba/sympy operations behave as described in `Num.v`, `Base.v` and section 4.

What `Print Assumptions` lists, theorem by theorem (regenerate with `python3 tools/assumptions.py`):

ASSUMPTIONS

## 7. Findings

Behaviour of the code that contradicts what it says it does; each has a theorem.

FINDINGS

## 8. Tools and mutation testing

* `tools/props.py` writes `properties.jsonl`; `tools/manifest.py` with `tools/notes.json` writes `MANIFEST.json`;
  `tools/assumptions.py` writes the list in section 6; `tools/design.py` assembles this file from `tools/design.in.md`.
* Wrong programs: a definition of the model is edited in a copy of the development, proofs are re-checked, and the failing
  theorems are recorded in `seeded/LOG.jsonl`.  An edit that breaks nothing is a gap: either a theorem was tightened
  (also recorded) or the log says why the edit cannot be distinguished.
  `failed_theorems` lists the theorems whose proof, or a lemma their proof uses, no longer checks; that alone does not show
  that the statement is false for the edited program (M650 breaks the proof of `C124_steps`, but the statement compares
  two runs of the same program).  `first_failing_lemmas` are the places where checking stopped.  Entries were made while
  the development grew, so a theorem younger than an entry is not in it; C119-C124 were tested with M650-M657 only.

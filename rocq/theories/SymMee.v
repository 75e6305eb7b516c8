(** The equinoctial Q-law expressions of pyqlaw/_symbolic.py:195-398 (used qualified: SymMee.q, ...). *)
From Coq Require Import ZArith List Bool.
From Verif Require Import Num Base Lyapunov Symbolic.
Import ListNotations.
Local Open Scope expr_scope.

(** ** Equinoctial (with semimajor axis) Q-law, _symbolic.py:215-299 *)
(* lines 217-218 *)
Definition a := EVar Voe0. Definition f := EVar Voe1. Definition g := EVar Voe2.
Definition h := EVar Voe3. Definition k := EVar Voe4. Definition l := EVar Voe5.
Definition aT := EVar VT0. Definition fT := EVar VT1. Definition gT := EVar VT2.
Definition hT := EVar VT3. Definition kT := EVar VT4.
(* lines 221-227 *)
Definition p := a * (#1 - f^2 - g^2).
Definition e := ESqrt (f^2 + g^2).
Definition ang_mom := ESqrt (a * Emu * (#1 - e^2)).
Definition rp := a * (#1 - e).
Definition ta := l - EAtan (g / f).
Definition r := ang_mom^2 / (Emu * (#1 + e * ECos ta)).
Definition s_squared := #1 + h^2 + k^2.
(* lines 230-236 *)
Definition doe0 := a - aT. Definition doe1 := f - fT. Definition doe2 := g - gT.
Definition doe3 := h - hT. Definition doe4 := k - kT.
(* lines 239-251 *)
Definition sqrt_pmu := ESqrt (p / Emu).
Definition oedot0 := #2 * Eacc * a * ESqrt (a / Emu)
  * ESqrt ((#1 + ESqrt (f^2 + g^2)) / (#1 - ESqrt (f^2 + g^2))).
Definition oedot1 := #2 * Eacc * sqrt_pmu.
Definition oedot2 := #2 * Eacc * sqrt_pmu.
Definition oedot3 := ERat 1 2 * Eacc * sqrt_pmu * s_squared / (ESqrt (#1 - g^2) + f).
Definition oedot4 := ERat 1 2 * Eacc * sqrt_pmu * s_squared / (ESqrt (#1 - f^2) + g).
(* line 254 *)
Definition penalty_rp := EExp (Ek * (#1 - rp / Erpmin)).
(* lines 256-259 *)
Definition soe0 := EPow (#1 + EPow (ESqrt ((a - aT)^2) / (Em * aT)) En) (#1 / Er).
(* lines 261-267 *)
Definition q := (#1 + Ewp * penalty_rp) *
  (EVar VW0 * soe0 * (doe0 / oedot0)^2 + EVar VW1 * #1 * (doe1 / oedot1)^2
   + EVar VW2 * #1 * (doe2 / oedot2)^2 + EVar VW3 * #1 * (doe3 / oedot3)^2
   + EVar VW4 * #1 * (doe4 / oedot4)^2).
(* lines 270-299 *)
Definition cosL := ECos l.
Definition sinL := ESin l.
Definition w := #1 + f * cosL + g * sinL.
Definition psi : list (list expr) :=
  [ [ #2 * a^2 / ang_mom * e * ESin ta; sqrt_pmu * sinL; - sqrt_pmu * cosL; #0; #0 ];
    [ #2 * a^2 / ang_mom * p / r; sqrt_pmu / w * ((w + #1) * cosL + f);
      sqrt_pmu / w * ((w + #1) * sinL + g); #0; #0 ];
    [ #0; sqrt_pmu / w * (- g * (h * sinL - k * cosL)); sqrt_pmu / w * (f * (h * sinL - k * cosL));
      sqrt_pmu / w * ERat 1 2 * (#1 + h^2 + k^2) * cosL;
      sqrt_pmu / w * ERat 1 2 * (#1 + h^2 + k^2) * sinL ] ].

Section Lambdified.
Context {N : Num}.
Definition lyap_mee_with_a : lyap_fn N := lyap_of psi q.
Definition dqdt_mee_with_a : dqdt_fn N := dqdt_of psi q.
End Lambdified.

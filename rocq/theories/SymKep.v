(** The Keplerian Q-law expressions of pyqlaw/_symbolic.py:14-191 (used qualified: SymKep.q, ...). *)
From Coq Require Import ZArith List Bool.
From Verif Require Import Num Base Lyapunov Symbolic.
Import ListNotations.
Local Open Scope expr_scope.

(** ** Keplerian Q-law, _symbolic.py:35-125 *)
(* lines 37-38 *)
Definition a := EVar Voe0.  Definition e := EVar Voe1.  Definition i := EVar Voe2.
Definition ra := EVar Voe3. Definition om := EVar Voe4. Definition ta := EVar Voe5.
Definition aT := EVar VT0.  Definition eT := EVar VT1.  Definition iT := EVar VT2.
Definition raT := EVar VT3. Definition omT := EVar VT4.
(* lines 39-41 *)
Definition rp := a * (#1 - e).
Definition p := a * (#1 - e^2).
Definition h := ESqrt (a * Emu * (#1 - e^2)).
(* lines 52-57 *)
Definition doe0 := a - aT.
Definition doe1 := e - eT.
Definition doe2 := i - iT.
Definition doe3 := EAcos (ECos (ra - raT)).
Definition doe4 := EAcos (ECos (om - omT)).
(* line 60 *)
Definition radot :=
  p * Eacc / (h * ESin i * (ESqrt (#1 - e^2 * (ECos om)^2) - e * ESqrt ((ESin om)^2))).
(* lines 61-65 *)
Definition cos_ta_xx_sqrt := ESqrt (ERat 1 4 * ((#1 - e^2) / e^3)^2 + ERat 1 27).
Definition ta_xx_term1 := EPow ((#1 - e^2) / (#2 * e^3) + cos_ta_xx_sqrt) (ERat 1 3).
Definition ta_xx_term2 := EPow (- (#1 - e^2) / (#2 * e^3) + cos_ta_xx_sqrt) (ERat 1 3).
Definition cos_ta_xx := ta_xx_term1 - ta_xx_term2 - #1 / e.
Definition r_xx := p / (#1 + e * cos_ta_xx).
(* lines 66-70 *)
Definition omdot_i :=
  Eacc / (e * h) * ESqrt (p^2 * cos_ta_xx^2 + (p + r_xx)^2 * (#1 - cos_ta_xx^2)).
Definition omdot_o := radot * ESqrt ((ECos i)^2).
Definition omdot := (omdot_i + Eb * omdot_o) / (#1 + Eb).
(* lines 73-79 *)
Definition oedot0 := #2 * Eacc * ESqrt (a^3 * (#1 + e) / (Emu * (#1 - e))).
Definition oedot1 := #2 * p * Eacc / h.
Definition oedot2 := p * Eacc / (h * (ESqrt (#1 - e^2 * (ESin om)^2) - e * ESqrt ((ECos om)^2))).
Definition oedot3 := radot.
Definition oedot4 := omdot.
(* line 82 *)
Definition p_rp := EExp (Ek * (#1 - rp / Erpmin)).
(* line 84 *)
Definition soe0 := EPow (#1 + EPow ((a - aT) / (Em * aT)) En) (#1 / Er).
(* lines 89-95 *)
Definition q := (#1 + Ewp * p_rp) *
  (EVar VW0 * soe0 * (doe0 / oedot0)^2 + EVar VW1 * #1 * (doe1 / oedot1)^2
   + EVar VW2 * #1 * (doe2 / oedot2)^2 + EVar VW3 * #1 * (doe3 / oedot3)^2
   + EVar VW4 * #1 * (doe4 / oedot4)^2).
(* lines 98-125: psi, column major *)
Definition r := h^2 / (Emu * (#1 + e * ECos ta)).
Definition psi : list (list expr) :=
  [ [ #2 * a^2 / h * e * ESin ta; p / h * ESin ta; #0; #0; - p / (e * h) * ECos ta ];
    [ #2 * a^2 / h * p / r; ((p + r) * ECos ta + r * e) / h; #0; #0; (p + r) * ESin ta / (e * h) ];
    [ #0; #0; r * ECos (ta + om) / h; r * ESin (ta + om) / (h * ESin i);
      - r * ESin (ta + om) * ECos i / (h * ESin i) ] ].

Section Lambdified.
Context {N : Num}.
Definition lyap_keplerian : lyap_fn N := lyap_of psi q.
Definition dqdt_keplerian : dqdt_fn N := dqdt_of psi q.
End Lambdified.

(** C38, C39: what Q divides by, against the largest rates over thrust direction and anomaly. *)
From Coq Require Import Reals Lra ZArith List Bool.
From Verif Require Import RMath RLib Num Base Lyapunov SymKep SymMee RSpec LawSpec MaxSpec LawRuns MaxProofs MaxRuns.
Local Open Scope R_scope.

(** C38.  [A],[E],[I],[O] are the largest rates of a, e, i, RAAN; for the argument of periapsis the law
    combines the largest in-plane rate and the largest normal rate with the weight b_petro. *)
Theorem C38_keplerian_normalisers : forall p (a e i ra om ta aT eT iT raT omT w0 w1 w2 w3 w4 : R),
  g_T p = @mk5 RNum aT eT iT raT omT -> g_w p = @mk5 RNum w0 w1 w2 w3 w4 -> 0 < g_mu p -> 0 < g_f p ->
  let oe := elems a e i ra om ta in kep_state oe ->
  exists A E I O Wi Wo out, ask (lyap_keplerian (N:=RNum)) p oe = Ok out /\
    max_rate (lyap_keplerian (N:=RNum)) p oe any_push v5_0 A /\ max_rate (lyap_keplerian (N:=RNum)) p oe any_push v5_1 E /\
    max_rate (lyap_keplerian (N:=RNum)) p oe any_push v5_2 I /\ max_rate (lyap_keplerian (N:=RNum)) p oe any_push v5_3 O /\
    max_rate (lyap_keplerian (N:=RNum)) p oe in_plane_push v5_4 Wi /\ max_rate (lyap_keplerian (N:=RNum)) p oe normal_push v5_4 Wo /\
    lo_q out = penalty p a e * (w0 * a_scaling p (a - aT) * ((a - aT) / A) ^ 2 + w1 * ((e - eT) / E) ^ 2 + w2 * ((i - iT) / I) ^ 2
      + w3 * (acos (cos (ra - raT)) / O) ^ 2 + w4 * (acos (cos (om - omT)) / ((Wi + g_b p * Wo) / (1 + g_b p))) ^ 2).
Proof. exact C38_lem. Qed.
Print Assumptions C38_keplerian_normalisers.
Example C38_example : 0 < g_mu p_kep /\ 0 < g_f p_kep /\ kep_state oe_kep.
Proof. split; [cbn; lra|]. split; [cbn; lra|exact oe_kep_state]. Qed.

(** C39.  Full statement: every divisor in Q is the largest rate of its element.  What holds: the divisor
    of a is; those of f, g, h, k are the expressions named in MaxSpec. *)
Theorem C39_equinoctial_shape_partial : forall p (a f g h k l aT fT gT hT kT w0 w1 w2 w3 w4 : R),
  g_T p = @mk5 RNum aT fT gT hT kT -> g_w p = @mk5 RNum w0 w1 w2 w3 w4 -> 0 < g_mu p -> 0 < g_f p ->
  let oe := elems a f g h k l in mee_state oe -> f <> 0 ->
  exists A out, ask (lyap_mee_with_a (N:=RNum)) p oe = Ok out /\ max_rate (lyap_mee_with_a (N:=RNum)) p oe any_push v5_0 A /\
    lo_q out = penalty p a (sqrt (f * f + g * g)) * (w0 * a_scaling p (Rabs (a - aT)) * ((a - aT) / A) ^ 2
      + w1 * ((f - fT) / mee_div_f p a f g) ^ 2 + w2 * ((g - gT) / mee_div_f p a f g) ^ 2
      + w3 * ((h - hT) / mee_div_h p a f g h k) ^ 2 + w4 * ((k - kT) / mee_div_k p a f g h k) ^ 2).
Proof. exact C39_shape_lem. Qed.
Print Assumptions C39_equinoctial_shape_partial.
(** The largest rates of h and k, and exactly when the code's divisors agree with them. *)
Theorem C39_h_k_partial : forall p (a f g h k l : R), 0 < g_mu p -> 0 < g_f p ->
  let oe := elems a f g h k l in let fn := lyap_mee_with_a (N:=RNum) in mee_state oe -> f <> 0 ->
  max_rate fn p oe any_push v5_3 (mee_max_h p a f g h k) /\ max_rate fn p oe any_push v5_4 (mee_max_k p a f g h k) /\
  (max_rate fn p oe any_push v5_3 (mee_div_h p a f g h k) <-> f <= 0) /\ (max_rate fn p oe any_push v5_4 (mee_div_k p a f g h k) <-> g <= 0).
Proof.
  exact (fun p a f g h k l Hm Ha St Hf => conj (mmax3 p a f g h k l Hm Ha (proj1 St) (proj2 St) Hf) (conj (mmax4 p a f g h k l Hm Ha (proj1 St) (proj2 St) Hf)
    (conj (proj2 (h_lem p a f g h k l Hm Ha (proj1 St) (proj2 St) Hf)) (proj2 (k_lem p a f g h k l Hm Ha (proj1 St) (proj2 St) Hf))))).
Qed.
Print Assumptions C39_h_k_partial.
(** The divisor of f is right exactly when g = 0; the divisor of g never is. *)
Theorem C39_f_g_partial : forall p (a f g h k l : R), 0 < g_mu p -> 0 < g_f p ->
  let oe := elems a f g h k l in let fn := lyap_mee_with_a (N:=RNum) in mee_state oe -> f <> 0 ->
  (max_rate fn p oe any_push v5_1 (mee_div_f p a f g) <-> g = 0) /\ ~ bounds_rate fn p oe any_push v5_2 (mee_div_f p a f g).
Proof.
  exact (fun p a f g h k l Hm Ha St Hf => conj (proj2 (f_lem p a f g h k l Hm Ha (proj1 St) (proj2 St) Hf)) (g_lem p a f g h k l Hm Ha (proj1 St) (proj2 St) Hf)).
Qed.
Print Assumptions C39_f_g_partial.
Example C39_example : 0 < g_mu p_mee /\ 0 < g_f p_mee /\ mee_state oe_mee /\ v6_1 oe_mee <> 0.
Proof. split; [cbn; lra|]. split; [cbn; lra|]. split; [exact oe_mee_state|cbn; lra]. Qed.
(** All four fail at once on an ordinary orbit. *)
Theorem C39_equinoctial_normalisers_refuted : exists p (a f g h k l : R),
  let oe := elems a f g h k l in let fn := lyap_mee_with_a (N:=RNum) in
  sound p /\ 0 < g_f p /\ mee_state oe /\ f <> 0 /\
  ~ bounds_rate fn p oe any_push v5_1 (mee_div_f p a f g) /\ ~ bounds_rate fn p oe any_push v5_2 (mee_div_f p a f g) /\
  ~ bounds_rate fn p oe any_push v5_3 (mee_div_h p a f g h k) /\ ~ bounds_rate fn p oe any_push v5_4 (mee_div_k p a f g h k).
Proof. exact C39_refuted_lem. Qed.
Print Assumptions C39_equinoctial_normalisers_refuted.

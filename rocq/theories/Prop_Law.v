(** Control law: C33 - C37.  Real arithmetic except C34 and the nan result of C35 (extended reals). *)
From Coq Require Import Reals Lra ZArith List Bool.
From Verif Require Import RMath RLib Num Base Lyapunov Symbolic SymKep SymMee Qlaw RSpec LawSpec CtlProofs NanProofs LawProofs LawRuns SingProofs.
Import ListNotations.
Local Open Scope R_scope.

(** C33.  [fn] is an arbitrary control law; [lo_u] is the gradient D it returns. *)
Theorem C33_thrust_is_steepest_descent : forall (fn : lyap_fn RNum) mu f oe oeT rpmin m n r b k wp woe out,
  fn mu f oe oeT rpmin m n r b k wp woe = Ok out ->
  let D := lo_u out in v3_0 D <> 0 \/ v3_1 D <> 0 ->
  exists alpha beta u psi q qdot,
    lyapunov_control_angles (N:=RNum) fn mu f oe oeT rpmin m n r b k wp woe = Ok (alpha, beta, u, psi, q, qdot) /\
    direction alpha beta = scale (- / norm D) D /\
    (forall v, dot v v = 1 -> dot D (direction alpha beta) <= dot D v) /\
    - PI < alpha <= PI /\ - (PI / 2) <= beta <= PI / 2.
Proof. exact C33_lem. Qed.
Print Assumptions C33_thrust_is_steepest_descent.
Example C33_example : exists out, ask (lyap_keplerian (N:=RNum)) p_kep oe_kep = Ok out /\ (v3_0 (lo_u out) <> 0 \/ v3_1 (lo_u out) <> 0).
Proof. destruct kep_gradient_value as (out & E & H). exists out. auto. Qed.

(** C34.  A gradient that is zero, contains nan, or is infinite in the orbital plane gives nan angles;
    the step then coasts and is counted, or ends the run once the count exceeds the threshold ... *)
Theorem C34_singular_gradient_coasts_partial : forall (o : qlaw XNum) p ea er s pl acc out,
  pl_duty pl = true ->
  q_lyap o (q_mu o) acc (l_oe s) (p_oeT p) (q_rpmin o) (q_m o) (q_n o) (q_r o) (q_b o) (q_k o) (q_wp o) (p_woe p) = Ok out ->
  (let 'mk3 x y z := lo_u out in
   (x = Fin 0 /\ y = Fin 0 /\ z = Fin 0) \/ x = NaN \/ y = NaN \/ z = NaN \/ infinite x \/ infinite y) ->
  (exists c, control o p ea er s pl acc = Ok (Ctl c) /\ c_thr c = 0%Z /\ c_u c = v3zero /\ c_nnan c = (l_nnan s + 1)%Z /\
     (l_nnan s + 1 <= q_nan_thr o)%Z) \/
  (control o p ea er s pl acc = Ok NanBreak /\ (q_nan_thr o < l_nnan s + 1)%Z).
Proof. exact (fun o p ea er s pl acc out HD HF => proj1 (C34_control_lem o p ea er s pl acc out HD HF)). Qed.
Print Assumptions C34_singular_gradient_coasts_partial.
(** ... but a gradient without in-plane part raises ZeroDivisionError: C34 is false for an infinite
    normal component, and the steepest-descent direction of a regular normal gradient is never used. *)
Theorem C34_normal_gradient_raises_refuted : forall (o : qlaw XNum) p ea er s pl acc out,
  pl_duty pl = true ->
  q_lyap o (q_mu o) acc (l_oe s) (p_oeT p) (q_rpmin o) (q_m o) (q_n o) (q_r o) (q_b o) (q_k o) (q_wp o) (p_woe p) = Ok out ->
  (let 'mk3 x y z := lo_u out in
   (x = Fin 0 /\ y = Fin 0 /\ exists r, z = Fin r /\ r <> 0) \/ (finite x /\ finite y /\ infinite z)) ->
  control o p ea er s pl acc = Err ZeroDivisionError.
Proof. exact (fun o p ea er s pl acc out HD HF => proj2 (C34_control_lem o p ea er s pl acc out HD HF)). Qed.
Print Assumptions C34_normal_gradient_raises_refuted.
Theorem C34_infinite_normal_refuted : exists (o : qlaw XNum) p ea er s pl acc out, pl_duty pl = true /\ (l_nnan s + 1 <= q_nan_thr o)%Z /\
  q_lyap o (q_mu o) acc (l_oe s) (p_oeT p) (q_rpmin o) (q_m o) (q_n o) (q_r o) (q_b o) (q_k o) (q_wp o) (p_woe p) = Ok out /\
  lo_u out = @mk3 XNum (Fin 1) (Fin 1) PInf /\ control o p ea er s pl acc = Err ZeroDivisionError.
Proof. exact C34_ex. Qed.
Print Assumptions C34_infinite_normal_refuted.
(** a law whose gradient is nan, on the first step *)
Example C34_example : exists (o : qlaw XNum) p s (pl : plan_t XNum) acc out, pl_duty pl = true /\
  q_lyap o (q_mu o) acc (l_oe s) (p_oeT p) (q_rpmin o) (q_m o) (q_n o) (q_r o) (q_b o) (q_k o) (q_wp o) (p_woe p) = Ok out /\
  lo_u out = @mk3 XNum NaN (Fin 1) (Fin 0) /\ l_nnan s = 0%Z.
Proof. exact C34_case. Qed.

(** C35, Keplerian.  [power_ok] asks for a real (a-aT)^n: aT <= a, or n an even integer. *)
Theorem C35_keplerian_Q : forall p (a e i ra om ta aT eT iT raT omT w0 w1 w2 w3 w4 : R),
  g_T p = @mk5 RNum aT eT iT raT omT -> g_w p = @mk5 RNum w0 w1 w2 w3 w4 ->
  let oe := elems a e i ra om ta in
  sound p -> kep_state oe -> power_ok p oe ->
  exists out, ask (lyap_keplerian (N:=RNum)) p oe = Ok out /\ 0 <= lo_q out /\
    (lo_q out = 0 <-> met w0 a aT /\ met w1 e eT /\ met w2 i iT /\ met_angle w3 ra raT /\ met_angle w4 om omT).
Proof. exact C35_kep_lem. Qed.
Print Assumptions C35_keplerian_Q.
Theorem C35_equinoctial_Q : forall p (a f g h k l aT fT gT hT kT w0 w1 w2 w3 w4 : R),
  g_T p = @mk5 RNum aT fT gT hT kT -> g_w p = @mk5 RNum w0 w1 w2 w3 w4 ->
  let oe := elems a f g h k l in
  sound p -> mee_state oe ->
  exists out, ask (lyap_mee_with_a (N:=RNum)) p oe = Ok out /\ 0 <= lo_q out /\
    (lo_q out = 0 <-> met w0 a aT /\ met w1 f fT /\ met w2 g gT /\ met w3 h hT /\ met w4 k kT).
Proof. exact C35_mee_lem. Qed.
Print Assumptions C35_equinoctial_Q.
Example C35_example : sound p_kep /\ kep_state oe_kep /\ power_ok p_kep oe_kep /\ mee_state oe_mee.
Proof. exact (conj p_kep_sound (conj oe_kep_state (conj oe_kep_power oe_mee_state))). Qed.
(** Without [power_ok] the Keplerian Q is nan, whatever the rest of the state. *)
Theorem C35_keplerian_noninteger_power_refuted : forall (env : var -> ereal) (a aT m n : R),
  env Voe0 = Fin a -> env VT0 = Fin aT -> env Vm = Fin m -> env Vn = Fin n ->
  0 < aT -> 0 < m -> a < aT -> (forall k, n <> IZR k) -> eval (N:=XNum) env SymKep.q = NaN.
Proof. exact kep_q_nan. Qed.
Print Assumptions C35_keplerian_noninteger_power_refuted.
Example C35_example_noninteger : forall k, 5 / 2 <> IZR k.
Proof. intros k H. assert (E : IZR (2 * k) = IZR 5) by (rewrite mult_IZR; lra). apply eq_IZR in E. Lia.lia. Qed.

(** C36 *)
Theorem C36_keplerian_gradient : forall p oe, sound p -> kep_state oe -> power_ok p oe -> kep_smooth p oe ->
  exists out, ask (lyap_keplerian (N:=RNum)) p oe = Ok out /\ partials (Qof (lyap_keplerian (N:=RNum)) p) oe (lo_dqdoe out).
Proof. exact C36_kep_lem. Qed.
Print Assumptions C36_keplerian_gradient.
Theorem C36_equinoctial_gradient : forall p oe, sound p -> mee_state oe -> mee_smooth p oe ->
  exists out, ask (lyap_mee_with_a (N:=RNum)) p oe = Ok out /\ partials (Qof (lyap_mee_with_a (N:=RNum)) p) oe (lo_dqdoe out).
Proof. exact C36_mee_lem. Qed.
Print Assumptions C36_equinoctial_gradient.
Example C36_example : kep_smooth p_kep oe_kep /\ mee_smooth p_mee oe_mee.
Proof. exact (conj oe_kep_smooth oe_mee_smooth). Qed.

(** C37.  [path] is any motion whose slow elements move, at t0, as psi says under the chosen thrust. *)
Theorem C37_keplerian_rate : forall p oe out, sound p -> kep_state oe -> power_ok p oe -> kep_smooth p oe ->
  ask (lyap_keplerian (N:=RNum)) p oe = Ok out -> v3_0 (lo_u out) <> 0 \/ v3_1 (lo_u out) <> 0 ->
  exists alpha beta u P qv qdot,
    ask (lyapunov_control_angles (N:=RNum) lyap_keplerian) p oe = Ok (alpha, beta, u, P, qv, qdot) /\
    ask (dqdt_keplerian (N:=RNum)) p oe = Ok qdot /\
    qdot = g_f p * norm (lo_u out) /\
    forall path t0, path t0 = oe -> slow_velocity path t0 (slow_rate P (scale (g_f p) (direction alpha beta))) ->
      derivable_pt_lim (fun t => Qof (lyap_keplerian (N:=RNum)) p (path t)) t0 (- qdot).
Proof. exact C37_kep_lem. Qed.
Print Assumptions C37_keplerian_rate.
Theorem C37_equinoctial_rate : forall p oe out, sound p -> mee_state oe -> mee_smooth p oe ->
  ask (lyap_mee_with_a (N:=RNum)) p oe = Ok out -> v3_0 (lo_u out) <> 0 \/ v3_1 (lo_u out) <> 0 ->
  exists alpha beta u P qv qdot,
    ask (lyapunov_control_angles (N:=RNum) lyap_mee_with_a) p oe = Ok (alpha, beta, u, P, qv, qdot) /\
    ask (dqdt_mee_with_a (N:=RNum)) p oe = Ok qdot /\
    qdot = g_f p * norm (lo_u out) /\
    forall path t0, path t0 = oe -> slow_velocity path t0 (slow_rate P (scale (g_f p) (direction alpha beta))) ->
      derivable_pt_lim (fun t => Qof (lyap_mee_with_a (N:=RNum)) p (path t)) t0 (- qdot).
Proof. exact C37_mee_lem. Qed.
Print Assumptions C37_equinoctial_rate.
Example C37_example : exists out, ask (lyap_mee_with_a (N:=RNum)) p_mee oe_mee = Ok out /\ (v3_0 (lo_u out) <> 0 \/ v3_1 (lo_u out) <> 0).
Proof. destruct mee_gradient_value as (out & E & H). exists out. auto. Qed.

(** C30, C31: effectivities and Sundman steps. *)
From Coq Require Import Reals Lra ZArith List Bool.
From Verif Require Import RMath RLib Num Base Lyapunov SymKep SymMee Perturb Qlaw Spec RSpec LawSpec MaxSpec GaussSpec EffSpec EffProofs EffRuns SundProofs SundRuns.
Local Open Scope R_scope.

(** C30.  Full statement: in both directions of time both effectivities lie in [0,1] and equal 1 exactly at
    the strongest grid location.  [speed … n n] is the speed at the current location (grid point n is one
    revolution on); [strongest] and [weakest] range over the grid.  Forward in time it holds. *)
Theorem C30_forward_partial : forall et (o : qlaw RNum) (p : problem RNum) T ea er (s : lstate RNum) (pl : plan_t RNum) (acc : R) c,
  q_lyap o = lyap_of_etype (N:=RNum) et -> q_dqdt o = dqdt_of_etype (N:=RNum) et -> p_oeT p = list5 T -> (0 < q_grid o)%nat ->
  let L := law_of o p T acc in let oe := l_oe s in let n := q_grid o in
  regular et L oe -> (forall k, (1 <= k <= n)%nat -> gradient_at et L oe (grid_point oe n k) <> null) ->
  pl_duty pl = true -> 0 < threshold ea (l_t s) oe (l_mass s) (l_batt s) \/ 0 < threshold er (l_t s) oe (l_mass s) (l_batt s) ->
  control (N:=RNum) o p ea er s pl acc = Ok (Ctl c) -> 0 < acc ->
  exists best worst, strongest et L oe n best /\ weakest et L oe n worst /\ c_qdot c = speed et L oe n n /\
    0 <= fst (c_etas c) <= 1 /\ (fst (c_etas c) = 1 <-> c_qdot c = best) /\
    (worst < best -> 0 <= snd (c_etas c) <= 1 /\ (snd (c_etas c) = 1 <-> c_qdot c = best) /\ (snd (c_etas c) = 0 <-> c_qdot c = worst)).
Proof. exact C30_forward_lem. Qed.
Print Assumptions C30_forward_partial.
Example C30_example : exists c, control (N:=RNum) o_eff p_eff low low s_eff pl_eff 1 = Ok (Ctl c) /\ c_etas c = (1, 1) /\ c_thr c = 1%Z.
Proof. exact C30_forward_case. Qed.

(** Backward in time the roles of strongest and weakest are exchanged: the absolute effectivity is at least
    1, and the relative one is 0 at the strongest location and 1 at the weakest. *)
Theorem C30_backward_partial : forall et (o : qlaw RNum) (p : problem RNum) T ea er (s : lstate RNum) (pl : plan_t RNum) (acc : R) c,
  q_lyap o = lyap_of_etype (N:=RNum) et -> q_dqdt o = dqdt_of_etype (N:=RNum) et -> p_oeT p = list5 T -> (0 < q_grid o)%nat ->
  let L := law_of o p T acc in let oe := l_oe s in let n := q_grid o in
  regular et L oe -> (forall k, (1 <= k <= n)%nat -> gradient_at et L oe (grid_point oe n k) <> null) ->
  pl_duty pl = true -> 0 < threshold ea (l_t s) oe (l_mass s) (l_batt s) \/ 0 < threshold er (l_t s) oe (l_mass s) (l_batt s) ->
  control (N:=RNum) o p ea er s pl acc = Ok (Ctl c) -> acc < 0 ->
  exists best worst, strongest et L oe n best /\ weakest et L oe n worst /\ c_qdot c = - speed et L oe n n /\
    1 <= fst (c_etas c) /\ (fst (c_etas c) = 1 <-> - c_qdot c = worst) /\
    (worst < best -> 0 <= snd (c_etas c) <= 1 /\ (snd (c_etas c) = 1 <-> - c_qdot c = worst) /\ (snd (c_etas c) = 0 <-> - c_qdot c = best)).
Proof. exact C30_backward_lem. Qed.
Print Assumptions C30_backward_partial.
(** At the strongest location of this orbit, going backward, the absolute effectivity exceeds 1, the
    relative one is 0, and the thrust is switched off for thresholds of 1/10. *)
Theorem C30_backward_refuted : exists c best worst, control (N:=RNum) o_eff p_eff low low s_eff pl_eff (-1) = Ok (Ctl c) /\
  strongest MeeWithA (law_of o_eff p_eff T_eff (-1)) (l_oe s_eff) (q_grid o_eff) best /\
  weakest MeeWithA (law_of o_eff p_eff T_eff (-1)) (l_oe s_eff) (q_grid o_eff) worst /\ worst < best /\
  Rabs (c_qdot c) = best /\ 1 < fst (c_etas c) /\ snd (c_etas c) = 0 /\ c_thr c = 0%Z.
Proof. exact C30_backward_refuted_lem. Qed.
Print Assumptions C30_backward_refuted.

(** C31.  Full statement: the step is the time the unperturbed motion needs for an increment t_step of
    eccentric anomaly, with the sign of t_step.  For t_step > 0: there is a two-body motion that is at the
    state's true anomaly at time 0 and at eccentric anomaly E0 + t_step at time dt. *)
Theorem C31_forward_partial : forall et (o : qlaw RNum) (p : problem RNum) (oe : vec6 RNum),
  q_sundman o = true -> q_etype o = et -> 0 < q_mu o -> 0 < v6_0 oe -> 0 <= ecc_of et oe < 1 -> cos (ta_of et oe / 2) <> 0 -> 0 < p_t_step p ->
  exists E0 dt r v, local_step (N:=RNum) o p oe = Ok dt /\ 0 < dt /\ two_body (q_mu o) r v /\
    r 0 = place (v6_0 oe) (ecc_of et oe) (ta_of et oe) /\ r 0 = ellipse (v6_0 oe) (ecc_of et oe) E0 /\ r dt = ellipse (v6_0 oe) (ecc_of et oe) (E0 + p_t_step p).
Proof. exact C31_forward_lem. Qed.
Print Assumptions C31_forward_partial.
(** Kepler's equation: the same step as a formula, for every increment; a whole period is added when t_step <= 0. *)
Theorem C31_formula_partial : forall et (o : qlaw RNum) (p : problem RNum) (oe : vec6 RNum),
  q_sundman o = true -> q_etype o = et -> 0 <= ecc_of et oe < 1 -> cos (ta_of et oe / 2) <> 0 ->
  exists E0 dt, local_step (N:=RNum) o p oe = Ok dt /\ - PI < E0 < PI /\ ecc_anomaly (ecc_of et oe) (ta_of et oe) E0 /\
    let tof := kepler_time (q_mu o) (v6_0 oe) (ecc_of et oe) (E0 + p_t_step p) - kepler_time (q_mu o) (v6_0 oe) (ecc_of et oe) E0 in
    dt = if Rlt_dec 0 (p_t_step p) then tof else tof + rev_time (q_mu o) (v6_0 oe).
Proof. exact sund_lem. Qed.
Print Assumptions C31_formula_partial.
(** For -2 pi < t_step <= 0 the step is positive: forward, through 2 pi + t_step of eccentric anomaly. *)
Theorem C31_backward_partial : forall et (o : qlaw RNum) (p : problem RNum) (oe : vec6 RNum),
  q_sundman o = true -> q_etype o = et -> 0 < q_mu o -> 0 < v6_0 oe -> 0 <= ecc_of et oe < 1 -> cos (ta_of et oe / 2) <> 0 -> - (2 * PI) < p_t_step p <= 0 ->
  exists E0 dt r v, local_step (N:=RNum) o p oe = Ok dt /\ 0 < dt <= rev_time (q_mu o) (v6_0 oe) /\ two_body (q_mu o) r v /\
    r 0 = place (v6_0 oe) (ecc_of et oe) (ta_of et oe) /\ r 0 = ellipse (v6_0 oe) (ecc_of et oe) E0 /\ r dt = ellipse (v6_0 oe) (ecc_of et oe) (E0 + 2 * PI + p_t_step p).
Proof. exact C31_backward_lem. Qed.
Print Assumptions C31_backward_partial.
Theorem C31_backward_refuted : forall et, exists (o : qlaw RNum) (p : problem RNum) oe dt, q_sundman o = true /\ q_etype o = et /\
  local_step (N:=RNum) o p oe = Ok dt /\ p_t_step p < 0 /\ 0 < dt.
Proof.
  exact (fun et => let (dt, H) := C31_refuted_lem et in
    ex_intro _ (o_sund et) (ex_intro _ (p_sund (-1)) (ex_intro _ oe_sund (ex_intro _ dt (conj eq_refl (conj eq_refl H)))))).
Qed.
Print Assumptions C31_backward_refuted.
Example C31_example : forall et h, q_sundman (o_sund et) = true /\ q_etype (o_sund et) = et /\ 0 < q_mu (o_sund et) /\ 0 < v6_0 oe_sund /\
  0 <= ecc_of et oe_sund < 1 /\ cos (ta_of et oe_sund / 2) <> 0 /\ p_t_step (p_sund h) = h.
Proof. exact sund_case. Qed.

(** The laws have a finite answer on regular states: C90. *)
From Coq Require Import Reals Lra ZArith List Bool.
From Verif Require Import RMath Num Base Lyapunov Perturb Qlaw Spec RSpec LawSpec MaxSpec EffSpec EffRuns NanRun FinSpec FinProofs FinRuns.
Import ListNotations.
Local Open Scope R_scope.

(** C90.  Arithmetic with infinities and nan ([XNum]) and real arithmetic give the same answer at every regular state
    (EffSpec.regular: a proper ellipse away from the kinks of Q): the law's outputs are all finite. *)
Theorem C90_regular_law_finite : forall et L oe, regular et L oe -> exists out,
  ask (lyap_of_etype (N:=RNum) et) L oe = Ok out /\ ask_floats (lyap_of_etype (N:=XNum) et) L oe = Ok (fin_out out).
Proof. exact C90_law_lem. Qed.
Print Assumptions C90_regular_law_finite.
(** Where moreover the gradient has an in-plane part, an iteration without effectivity cut-off thrusts at full force along the
    steepest descent of Q; no nan answer is counted and nothing is raised. *)
Theorem C90_regular_iteration_thrusts : forall et (o : qlaw XNum) p acc L oe out ea er (s : lstate XNum) pl, built et o -> holds o p acc L -> regular et L oe ->
  ask (lyap_of_etype (N:=RNum) et) L oe = Ok out -> v3_0 (lo_u out) <> 0 \/ v3_1 (lo_u out) <> 0 ->
  l_oe s = fin6 oe -> pl_duty pl = true ->
  nltb (Num:=XNum) (Fin 0) (threshold ea (l_t s) (l_oe s) (l_mass s) (l_batt s)) = false -> nltb (Num:=XNum) (Fin 0) (threshold er (l_t s) (l_oe s) (l_mass s) (l_batt s)) = false ->
  exists c, control o p ea er s pl acc = Ok (Ctl c) /\ steers L (lo_u out) (lo_q out) (l_nnan s) c /\ c_thr c = 1%Z /\
    c_u c = fin3 (scale (- g_f L / norm (lo_u out)) (lo_u out)).
Proof. exact C90_built_on. Qed.
Print Assumptions C90_regular_iteration_thrusts.
Example C90_example : regular MeeWithA (lw 1) oe_eff /\ holds o_fin p_fin (Fin 1) (lw 1) /\
  exists c, control o_fin p_fin (eta 0) (eta 0) s_fin pl_fin (Fin 1) = Ok (Ctl c) /\ c_thr c = 1%Z /\ c_nnan c = 0%Z /\ c_u c = @mk3 XNum (Fin 0) (Fin 1) (Fin 0).
Proof. exact (conj (eff_regular 1 one_one) (conj fin_holds C90_on_case)). Qed.
(** With thresholds the thrust is cut off exactly when an effectivity is below its threshold.  Where the rate is the same all
    around the orbit the relative effectivity is nan and cuts nothing off. *)
Theorem C90_regular_iteration_thresholds : forall et (o : qlaw XNum) p acc L oe out ea er (s : lstate XNum) pl va vr, built et o -> holds o p acc L -> regular et L oe ->
  (0 < q_grid o)%nat -> (forall k, (1 <= k <= q_grid o)%nat -> gradient_at et L oe (grid_point oe (q_grid o) k) <> null) ->
  ask (lyap_of_etype (N:=RNum) et) L oe = Ok out -> v3_0 (lo_u out) <> 0 \/ v3_1 (lo_u out) <> 0 ->
  l_oe s = fin6 oe -> pl_duty pl = true ->
  threshold ea (l_t s) (l_oe s) (l_mass s) (l_batt s) = Fin va -> threshold er (l_t s) (l_oe s) (l_mass s) (l_batt s) = Fin vr -> 0 < va \/ 0 < vr ->
  exists c M m, control o p ea er s pl acc = Ok (Ctl c) /\ steers L (lo_u out) (lo_q out) (l_nnan s) c /\
    greatest_rate et L oe (q_grid o) M /\ least_rate et L oe (q_grid o) m /\
    let qd := g_f L * norm (lo_u out) in
    (m < M -> c_etas c = (Fin (Rabs (qd / M)), Fin (Rabs ((qd - m) / (M - m)))) /\
      c_thr c = (if Rlt_dec (Rabs (qd / M)) va then 0 else if Rlt_dec (Rabs ((qd - m) / (M - m))) vr then 0 else 1)%Z) /\
    (m = M -> c_etas c = (Fin (Rabs (qd / M)), NaN) /\ c_thr c = (if Rlt_dec (Rabs (qd / M)) va then 0 else 1)%Z).
Proof. exact C90_built_eta. Qed.
Print Assumptions C90_regular_iteration_thresholds.
Example C90_thresholds_example : (forall k, (1 <= k <= 2)%nat -> gradient_at MeeWithA (lw 1) oe_eff (grid_point oe_eff 2 k) <> null) /\
  exists c, control o_fin p_fin (eta (1 / 10)) (eta (1 / 10)) s_fin pl_fin (Fin 1) = Ok (Ctl c) /\ c_etas c = (Fin 1, Fin 1) /\ c_thr c = 1%Z.
Proof. exact (conj (eff_nonzero 1 one_one) C90_eta_case). Qed.
(** Hence a run that gives up with code -3 has passed more than nan_angles_threshold states at which the law is singular or
    its gradient has no in-plane part. *)
Theorem C90_nan_exit_is_singular : forall et (o : qlaw XNum) p ea er fuel o' h, built et o -> fresh o -> ran fuel o ea er p o' h -> q_exitcode o' = (-3)%Z -> (0 <= q_nan_thr o)%Z ->
  exists ks : list nat, (q_nan_thr o < Z.of_nat (length ks))%Z /\ NoDup ks /\
    forall k, In k ks -> exists m oe b dt, nth_error (h_masses h) k = Some m /\ nth_error (h_states h) k = Some oe /\ nth_error (h_battery h) k = Some b /\
      takes_step o p oe b dt /\ ~ steerable et o p (ndiv (nmul (npsign dt) (p_tmax p)) m) oe.
Proof. exact C90_nan_lem. Qed.
Print Assumptions C90_nan_exit_is_singular.
(** With fixed forward steps the acceleration in question is thrust over mass. *)
Theorem C90_nan_exit_forward : forall et (o : qlaw XNum) (p : problem XNum) ea er fuel o' h ts lo dis T, built et o -> fresh o -> ran fuel o ea er p o' h -> q_exitcode o' = (-3)%Z -> (0 <= q_nan_thr o)%Z ->
  q_sundman o = false -> p_t_step p = Fin ts -> 0 < ts -> p_cap_lo p = Fin lo -> p_discharge p = Fin dis -> p_tmax p = Fin T ->
  exists ks : list nat, (q_nan_thr o < Z.of_nat (length ks))%Z /\ NoDup ks /\
    forall k, In k ks -> exists m oe, nth_error (h_masses h) k = Some m /\ nth_error (h_states h) k = Some oe /\ ~ steerable et o p (ndiv (Num:=XNum) (Fin T) m) oe.
Proof. exact C90_nan_forward_lem. Qed.
Print Assumptions C90_nan_exit_forward.
Example C90_nan_exit_example : (let z := EtaFloat (N:=XNum) (Fin 0) in built Keplerian o_low /\ fresh o_low /\ exists o' h, ran 11 o_low z z p_low o' h /\ q_exitcode o' = (-3)%Z) /\
  q_sundman o_low = false /\ p_t_step p_low = Fin (1 / 10) /\ 0 < 1 / 10 /\ p_cap_lo p_low = Fin 0 /\ p_discharge p_low = Fin 0 /\ p_tmax p_low = Fin 1.
Proof. exact (conj C90_nan_case (conj eq_refl (conj eq_refl (conj tenth_pos (conj eq_refl (conj eq_refl eq_refl)))))). Qed.
Example C90_steerable_example : steerable MeeWithA o_fin p_fin (Fin 1) (fin6 oe_eff).
Proof. exact C90_steerable_case. Qed.

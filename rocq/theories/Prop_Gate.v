(** Coasting, thrust gating, validation and object state: C22 - C29. *)
From Coq Require Import Reals QArith ZArith String List Bool.
From Verif Require Import RMath Num Base Elements Integrate Eom Convergence Lyapunov Perturb Qlaw Spec XSpec
  StateProofs GateProofs CoastProofs Sim Runs GateRuns EllSpec XLaw NanRun.
Import ListNotations.
Local Open Scope nat_scope.

(** C22 *)
Theorem C22_coasting_preserves_slow_elements :
  forall (o : qlaw XNum) p ea er et a, regular o p a -> built et o -> q_ptrb o = None ->
  forall fuel o' h k z, ran fuel o ea er p o' h -> throttle h k 0 -> nth_error (h_states h) k = Some z ->
  finite6 z ->
  (forall acc al be u psi q qd, lyap_call o p acc z = Ok (al, be, u, psi, q, qd) -> finite_psi psi) ->
  exists z', nth_error (h_states h) (S k) = Some z' /\ slow z' = slow z.
Proof. exact (fun o p ea er et a => C22_lem et o p ea er a). Qed.
Print Assumptions C22_coasting_preserves_slow_elements.
(** On every ellipse that is not singular for the element set, the matrix is finite. *)
Theorem C22_on_ellipses : forall (o : qlaw XNum) p ea er et a mu,
  regular o p a -> built et o -> q_ptrb o = None -> q_mu o = Fin mu -> (0 < mu)%R ->
  forall fuel o' h k z, ran fuel o ea er p o' h -> throttle h k 0 -> nth_error (h_states h) k = Some z ->
  proper_ellipse et z ->
  exists z', nth_error (h_states h) (S k) = Some z' /\ slow z' = slow z.
Proof. exact (fun o p ea er et a mu => C22_ellipse_lem et o p ea er a mu). Qed.
Print Assumptions C22_on_ellipses.
(** With RK4 the state after the coast is again such an ellipse, so that consecutive coasts can be chained. *)
Theorem C22_rk4_stays_on_ellipse : forall (o : qlaw XNum) p ea er et a mu,
  regular o p a -> built et o -> q_ptrb o = None -> q_integ o = RK4 -> q_mu o = Fin mu -> (0 < mu)%R ->
  forall fuel o' h k z, ran fuel o ea er p o' h -> throttle h k 0 -> nth_error (h_states h) k = Some z ->
  proper_ellipse et z ->
  exists z', nth_error (h_states h) (S k) = Some z' /\ slow z' = slow z /\ proper_ellipse et z'.
Proof. exact (fun o p ea er et a mu => C22_rk4_lem et o p ea er a mu). Qed.
Print Assumptions C22_rk4_stays_on_ellipse.
(** With the default bounds of a Keplerian object every finite state short of i = pi is such an ellipse. *)
Theorem C22_default_bounds : forall (o : qlaw XNum) p ea er a mu,
  regular o p a -> built Keplerian o -> q_ptrb o = None -> q_mu o = Fin mu -> (0 < mu)%R ->
  q_oe_min o = default_oe_min (N:=XNum) Keplerian -> q_oe_max o = default_oe_max (N:=XNum) Keplerian ->
  forall fuel o' h k (a0 e0 i0 ra0 om0 ta0 : R), ran fuel o ea er p o' h -> throttle h k 0 ->
  nth_error (h_states h) k = Some (@mk6 XNum (Fin a0) (Fin e0) (Fin i0) (Fin ra0) (Fin om0) (Fin ta0)) -> i0 <> PI ->
  exists z', nth_error (h_states h) (S k) = Some z' /\ slow z' = @mk5 XNum (Fin a0) (Fin e0) (Fin i0) (Fin ra0) (Fin om0).
Proof. exact C22_default_lem. Qed.
Print Assumptions C22_default_bounds.
(** A run of an object with the default bounds that coasts (see C82 for why). *)
Example C22_example : exists o' h z, regular o_low p_low a_low /\ built Keplerian o_low /\ q_ptrb o_low = None /\ q_mu o_low = Fin 1 /\
  ran 11 o_low (EtaFloat (N:=XNum) (Fin 0)) (EtaFloat (N:=XNum) (Fin 0)) p_low o' h /\ throttle h 0 0 /\
  nth_error (h_states h) 0 = Some z /\ proper_ellipse Keplerian z.
Proof. exact C22_case. Qed.

(** C23.  [nltb (nofZ 0) x = true -> x <> nnan] says that nan is not above zero. *)
Theorem C23_effectivity_gate : forall (N : Num) fuel (o : qlaw N) ea er p o' h k,
  (forall x, nltb (nofZ 0) x = true -> x <> nnan) ->
  ran fuel o ea er p o' h -> k < length (h_controls h) ->
  exists al be thr va vr ba br,
    nth_error (h_controls h) k = Some (al, be, thr) /\ nth_error (h_etas h) k = Some (va, vr) /\
    nth_error (h_bounds h) k = Some (ba, br) /\
    (* a threshold is positive: thrust exactly when neither effectivity is below its threshold *)
    ((nltb (nofZ 0) br || nltb (nofZ 0) ba)%bool = true ->
        (thr = 0%Z <-> (nltb va ba || nltb vr br)%bool = true) /\
        (thr = 1%Z <-> (nltb va ba || nltb vr br)%bool = false) /\
        (* and the recorded numbers are what they are called *)
        exists t m b oe dt qd M mn,
          nth_error (h_times h) k = Some t /\ nth_error (h_times h) (S k) = Some (nadd t dt) /\
          nth_error (h_masses h) k = Some m /\ nth_error (h_battery h) k = Some b /\
          nth_error (h_states h) k = Some oe /\ nth_error (h_dQdts h) k = Some qd /\
          ba = threshold ea t oe m b /\ br = threshold er t oe m b /\
          evaluate_osculating_qdot o p oe (nmul (npsign dt) (p_tmax p) / m)%num = Ok (M, mn) /\
          va = nabs (qd / M)%num /\ vr = nabs ((qd - mn) / (M - mn))%num) /\
    (* thresholds evaluated and not positive: thrust *)
    ((ba, br) <> (nnan, nnan) -> (nltb (nofZ 0) br || nltb (nofZ 0) ba)%bool = false -> thr = 1%Z).
Proof. exact (fun N fuel o ea er p o' h k H1 H2 H3 => C23_lem o p ea er fuel o' h k H2 H1 H3). Qed.
Print Assumptions C23_effectivity_gate.
Example C23_example : (forall x, nltb (Num:=QNum) (nofZ (Num:=QNum) 0) x = true -> x <> nnan (Num:=QNum)) /\
  exists o' h, ran 10 demo_rate half_eta no_eta p_exit1 o' h /\
  map snd (h_controls h) = [1; 1; 0; 0]%Z /\
  map fst (h_etas h) = map qq [1; 400 # 399; 50 # 199; 50 # 199]%Q /\
  map fst (h_bounds h) = map qq [1 # 2; 1 # 2; 1 # 2; 1 # 2]%Q.
Proof. split; [intros x H ->; discriminate|exact run_rate]. Qed.
Example C23_example_X : forall x, nltb (Num:=XNum) (nofZ (Num:=XNum) 0) x = true -> x <> nnan (Num:=XNum).
Proof. intros x H ->. discriminate. Qed.

(** C24.  Only half of it holds: a wrong [eta_a] is rejected before the histories are touched ... *)
Theorem C24_eta_a_rejected_partial : forall (N : Num) fuel (o : qlaw N) er p, q_problem o = Some p ->
  solve fuel o EtaOther er = Raises ValueError o.
Proof. exact (fun N fuel o er p H => C24_eta_a_lem fuel o er p H). Qed.
Print Assumptions C24_eta_a_rejected_partial.
(** ... while a wrong [eta_r] is accepted and silently means "nan", i.e. no relative threshold. *)
Theorem C24_wrong_eta_r_means_no_threshold : forall (N : Num) fuel (o : qlaw N) ea,
  solve fuel o ea EtaOther = solve fuel o ea (EtaFloat nnan).
Proof. exact (fun N fuel o ea => C24_eta_r_lem fuel o ea). Qed.
Print Assumptions C24_wrong_eta_r_means_no_threshold.
Theorem C24_eta_r_rejected_refuted :
  exists o' h, ran 10 o_exit1 no_eta EtaOther p_exit1 o' h /\ length (h_controls h) = 4.
Proof. exact run_eta_r. Qed.
Print Assumptions C24_eta_r_rejected_refuted.
Example C24_example : q_problem o_exit1 = Some p_exit1.
Proof. reflexivity. Qed.

(** C25.  False: [o_empty] is made by the constructor and set_problem with an empty battery. *)
Theorem C25_depleted_start_refuted : exists (o o' : qlaw QNum) h p, o_empty = Ok o /\ q_problem o = Some p /\
  nleb (p_batt0 p) (p_cap_lo p) = true /\
  solve 5 o no_eta no_eta = Raises UnboundLocalError o' /\ q_hist o' = Some h /\
  length (h_times h) = 2 /\ length (h_battery h) = 1.
Proof. exact C25_refuted_lem. Qed.
Print Assumptions C25_depleted_start_refuted.
(** In fact no run starting on a depleted battery ever returns, ... *)
Theorem C25_depleted_start_never_returns : forall (N : Num) (o : qlaw N) p ea er fuel o', q_problem o = Some p ->
  nltb (nabs (nofZ 0)) (nabs (p_tf_max p)) = true ->
  nleb (p_batt0 p) (nadd (p_cap_lo p) (dec 1 12)) = true ->
  solve fuel o ea er <> Returns o'.
Proof. exact (fun N => C25_never_lem (N:=N)). Qed.
Print Assumptions C25_depleted_start_never_returns.
(** ... and that is the only way to hit the unbound variable. *)
Theorem C25_charged_start_partial : forall (N : Num) (o : qlaw N) p ea er et fuel o', built et o ->
  q_ptrb o = None -> q_problem o = Some p ->
  nltb (p_duty_on p) (nsub (nofZ 0) (nofZ 0)) = false ->
  nleb (p_batt0 p) (nadd (p_cap_lo p) (dec 1 12)) = false ->
  solve fuel o ea er <> Raises UnboundLocalError o'.
Proof. exact (fun N o p ea er et fuel o' B NP => C25_bound_lem o p ea er et B NP fuel o'). Qed.
Print Assumptions C25_charged_start_partial.
Example C25_example : built MeeWithA o_built' /\ q_ptrb o_built' = None /\ exists p, q_problem o_built' = Some p /\
  nltb (p_duty_on p) (nsub (Num:=QNum) (nofZ (Num:=QNum) 0) (nofZ (Num:=QNum) 0)) = false /\
  nleb (p_batt0 p) (nadd (Num:=QNum) (p_cap_lo p) (dec (N:=QNum) 1 12)) = false.
Proof.
  destruct built_facts as (B & _ & p & Hp). split; [exact B|]. split; [reflexivity|]. exists p. split; [exact Hp|].
  revert Hp. vm_compute. intros Hp. injection Hp as <-. split; reflexivity.
Qed.

(** C26.  True for equinoctial elements; Keplerian arrays are overwritten by their clamped values. *)
Theorem C26_oe0_after_solve_partial : forall (N : Num) fuel (o : qlaw N) ea er p o',
  (solve fuel o ea er = Returns o' \/ exists e, solve fuel o ea er = Raises e o') ->
  q_problem o = Some p -> ea <> EtaOther ->
  exists p', q_problem o' = Some p' /\
    p_oe0 p' = match q_etype o with
               | MeeWithA => p_oe0 p
               | Keplerian => if nltb (nabs (nofZ 0)) (nabs (p_tf_max p))
                              then elements_safety (p_oe0 p) (q_oe_min o) (q_oe_max o) else p_oe0 p
               end.
Proof. exact (fun N fuel o ea er p o' => C26_lem fuel o ea er p o'). Qed.
Print Assumptions C26_oe0_after_solve_partial.
Theorem C26_oe0_unmodified_refuted : exists o' : qlaw QNum, solve 5 o_circ no_eta no_eta = Returns o' /\
  oe0_ecc o_circ = q0 /\ oe0_ecc o' = qq (1 # 10000).
Proof. exact C26_refuted_lem. Qed.
Print Assumptions C26_oe0_unmodified_refuted.

(** C27 *)
Theorem C27_keplerian_states_safeguarded : forall (N : Num) fuel (o : qlaw N) ea er p o' h k oe,
  ran fuel o ea er p o' h -> q_etype o = Keplerian -> k < length (h_controls h) ->
  nth_error (h_states h) k = Some oe -> exists z, oe = elements_safety z (q_oe_min o) (q_oe_max o).
Proof. exact (fun N fuel o ea er p o' h k oe => C27_lem o p ea er fuel o' h k oe). Qed.
Print Assumptions C27_keplerian_states_safeguarded.
(** ... and that is in range, even when the unclamped vector contains nan. *)
Theorem C27_in_range : forall (z : vec6 XNum) lo hi, le5 lo hi ->
  le5 lo (slow (elements_safety z lo hi)) /\ le5 (slow (elements_safety z lo hi)) hi.
Proof. exact C27_range_lem. Qed.
Print Assumptions C27_in_range.
Example C27_example : exists o' h, q_etype o_kep = Keplerian /\ ran 10 o_kep no_eta no_eta p_exitm2 o' h /\
  length (h_controls h) = 3.
Proof. destruct run_kep as (o' & h & R & _ & L). exists o', h. split; [reflexivity|]. split; assumption. Qed.

(** C28 *)
Theorem C28_constructor_validates : forall (N : Num) mu rpmin k m n r b wp (et ig : string) grid tol omin omax
    thr sun ptrb rf ear,
  let bad := nltb (nofZ 0) mu = false \/ nleb (nofZ 1) rf = false \/
    ~ (et = "keplerian" \/ et = "mee_with_a")%string \/ ~ (ig = "rk4" \/ ig = "rkf45")%string \/
    (exists l, tol = Some l /\ length l <> 5) in
  (bad -> @init N mu rpmin k m n r b wp et ig grid tol omin omax thr sun ptrb rf ear = Err AssertionError) /\
  (~ bad -> exists o, init mu rpmin k m n r b wp et ig grid tol omin omax thr sun ptrb rf ear = Ok o).
Proof. exact (fun N => C28_init_lem (N:=N)). Qed.
Print Assumptions C28_constructor_validates.
Theorem C28_set_problem_validates : forall (N : Num) (o : qlaw N) oe0 oeT mass0 tmax mdot tf ts mm woe don doff
    b0 lo hi ch dis full,
  let bad := length oe0 <> 6 \/ nleb (dec 1 2) mm = false \/ (exists l, woe = Some l /\ length l <> 5) in
  (bad -> set_problem o oe0 oeT mass0 tmax mdot tf ts mm woe don doff b0 lo hi ch dis full = Err AssertionError) /\
  (~ bad -> exists o', set_problem o oe0 oeT mass0 tmax mdot tf ts mm woe don doff b0 lo hi ch dis full = Ok o'
       /\ q_problem o' <> None).
Proof. exact (fun N => C28_set_problem_lem (N:=N)). Qed.
Print Assumptions C28_set_problem_validates.
Theorem C28_solve_needs_problem : forall (N : Num) fuel (o : qlaw N) ea er, q_problem o = None ->
  solve fuel o ea er = Raises AssertionError o.
Proof. exact (fun N fuel o ea er => C28_solve_lem fuel o ea er). Qed.
Print Assumptions C28_solve_needs_problem.
Theorem C28_setters_validate : forall (N : Num) (o : qlaw N) mu et ig,
  (nltb (nofZ 0) mu = false -> set_mu o mu = Err AssertionError) /\
  (nltb (nofZ 0) mu = true -> exists o', set_mu o mu = Ok o') /\
  (~ (et = "keplerian" \/ et = "mee_with_a")%string -> set_elements_type o et = Err AssertionError) /\
  ((et = "keplerian" \/ et = "mee_with_a")%string -> exists o', set_elements_type o et = Ok o') /\
  (~ (ig = "rk4" \/ ig = "rkf45")%string -> set_integrator o ig = Err AssertionError) /\
  ((ig = "rk4" \/ ig = "rkf45")%string -> exists o', set_integrator o ig = Ok o').
Proof. exact (fun N => C28_setters_lem (N:=N)). Qed.
Print Assumptions C28_setters_validate.
(** accepted arguments; rejected ones, each for one reason only *)
Example C28_example : let make mu rf et ig tol :=
    init (N:=QNum) mu q1 q1 q1 q1 q1 q1 q0 et ig 4 tol None None 10 false None rf 5 in
  ((exists o, make q1 (qq 10) "mee_with_a" "rk4" None = Ok o) /\
  (exists o, make q1 (qq 10) "keplerian" "rkf45" (Some [q1; q1; q1; q1; q1]) = Ok o) /\
  make q0 (qq 10) "mee_with_a" "rk4" None = Err AssertionError /\ make qnan (qq 10) "mee_with_a" "rk4" None = Err AssertionError /\
  make q1 (qq (1 # 2)) "mee_with_a" "rk4" None = Err AssertionError /\ make q1 (qq 10) "mee" "rk4" None = Err AssertionError /\
  make q1 (qq 10) "mee_with_a" "rk45" None = Err AssertionError /\ make q1 (qq 10) "mee_with_a" "rk4" (Some [q1]) = Err AssertionError)%string.
Proof.
  intros make. split; [eexists; reflexivity|]. split; [eexists; reflexivity|].
  repeat match goal with |- _ /\ _ => split end; reflexivity.
Qed.

(** C29.  True as long as [elements_type] is not assigned after construction, ... *)
Theorem C29_object_consistent_partial : forall (N : Num) (o : qlaw N), reachable o -> built (q_etype o) o.
Proof. exact (fun N o => C29_reachable_lem o). Qed.
Print Assumptions C29_object_consistent_partial.
(** ... false afterwards: the object calls itself Keplerian and rejects a Keplerian state at its target. *)
Theorem C29_elements_type_setter_refuted : exists o o' : qlaw RNum,
  init (N:=RNum) 1%R 1%R 1%R 1%R 4%R 2%R 1%R 1%R "mee_with_a" "rk4" 100 None None None 10 false None 10%R 5 = Ok o /\
  set_elements_type o "keplerian" = Ok o' /\ q_etype o' = Keplerian /\
  exists oe T w tol, meets Keplerian oe T w tol /\ q_check o' oe T w tol = Ok false.
Proof. exact C29_refuted_lem. Qed.
Print Assumptions C29_elements_type_setter_refuted.
Example C29_example : reachable o_built' /\ q_problem o_built' <> None.
Proof.
  split.
  - pose proof built_ok as E. unfold o_built, bind in E.
    match type of E with (match ?i with Ok _ => _ | Err _ => _ end) = _ => destruct i as [oi|e] eqn:Ei end; [|discriminate].
    eapply re_problem; [eapply re_init; exact Ei|exact E].
  - destruct built_facts as (_ & _ & p & Hp). rewrite Hp. discriminate.
Qed.

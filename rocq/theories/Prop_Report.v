(** What is printed: C101-C104 and C114. *)
From Coq Require Import QArith ZArith String List Bool.
From Verif Require Import Num Base Perturb Qlaw Export Report Spec StateProofs Sim Runs GateRuns ReportSpec ReportProofs SettingsProofs ReportRuns.
Import ListNotations.

(** C101.  Whatever verbosity and print_frequency are, solve() does the same thing and leaves the same object. *)
Theorem C101_printing_changes_nothing : forall (N : Num) v fuel (o : qlaw N) ea er,
  (forall p, q_problem o = Some p -> printable o p) -> snd (tell fuel v o ea er) = solve fuel o ea er.
Proof. exact (fun N v fuel o ea er => C101_lem v fuel o ea er). Qed.
Print Assumptions C101_printing_changes_nothing.

(** C102.  On an object whose flags are fresh: silent at verbosity 0, one line at verbosity 1, and at higher verbosity
    that line is the last one, below the progress table; it is the message of the exit code. *)
Theorem C102_last_line_is_the_verdict_partial : forall (N : Num) v fuel (o : qlaw N) ea er p o' h,
  fresh o -> printable o p -> ran fuel o ea er p o' h ->
  ((v_level v <= 0)%Z -> fst (tell fuel v o ea er) = []) /\
  (v_level v = 1%Z -> fst (tell fuel v o ea er) = [verdict (q_exitcode o')]) /\
  ((2 <= v_level v)%Z -> exists before, fst (tell fuel v o ea er) = before ++ [verdict (q_exitcode o')] /\
     forall m, In m before -> m = Header \/ exists k t d e, m = Row k t d e).
Proof. exact (fun N v fuel o ea er p o' h => C102_lem v fuel o ea er p o' h). Qed.
Print Assumptions C102_last_line_is_the_verdict_partial.
(** Not so on an object that has been used before: after a converged run, one that ends on time far from its target
    announces that the target was reached ... *)
Theorem C102_used_object_refuted : exists (o1 o2 o3 : qlaw QNum) h p,
  (exists o0, o_built = Ok o0 /\ solve 10 o0 no_eta no_eta = Returns o1) /\ o_second o1 = Ok o2 /\
  ran 10 o2 no_eta no_eta p o3 h /\ printable o2 p /\ (forall z, In z (h_states h) -> strict o2 p z = Ok false) /\
  fst (tell 10 normal o2 no_eta no_eta) = [TargetReached].
Proof. exact C102_stale_lem. Qed.
Print Assumptions C102_used_object_refuted.
(** ... and after a run that ended on time, another one that does so says nothing. *)
Theorem C102_second_timeout_refuted : exists (o1 o2 : qlaw QNum) p1 p2 h1 h2, fresh o_exitm2 /\
  ran 10 o_exitm2 no_eta no_eta p1 o1 h1 /\ fst (tell 10 normal o_exitm2 no_eta no_eta) = [TimeOut] /\
  ran 10 o1 no_eta no_eta p2 o2 h2 /\ q_exitcode o2 = (-2)%Z /\ fst (tell 10 normal o1 no_eta no_eta) = [].
Proof. exact C102_silent_lem. Qed.
Print Assumptions C102_second_timeout_refuted.

(** C103.  The whole transcript: the table of every print_frequency-th step, at the end time of the step and with the
    elements the integrator returned; the step that converges is not in it. *)
Theorem C103_transcript : forall (N : Num) v fuel (o : qlaw N) ea er p o' h,
  fresh o -> printable o p -> ran fuel o ea er p o' h ->
  exists zs, raws o (p_oe0 p) h zs /\ List.length zs = List.length (h_controls h) /\
    fst (tell fuel v o ea er) =
      table v p 0 (firstn (if q_converge o' then List.length zs - 1 else List.length zs)%nat (combine (tl (h_times h)) zs))
      ++ closing v (q_exitcode o').
Proof. exact (fun N v fuel o ea er p o' h => C103_lem v o p ea er fuel o' h). Qed.
Print Assumptions C103_transcript.
(** With equinoctial elements each line can be found in the recorded history, one row below its step number. *)
Theorem C103_rows_are_history : forall (N : Num) v fuel (o : qlaw N) ea er p o' h,
  fresh o -> printable o p -> ran fuel o ea er p o' h -> q_etype o = MeeWithA ->
  forall k t d e, In (Row k t d e) (fst (tell fuel v o ea er)) ->
  (k mod v_freq v = 0)%Z /\ exists j z, k = Z.of_nat j /\ nth_error (h_times h) (S j) = Some t /\
    nth_error (h_states h) (S j) = Some z /\ d = gaps z (p_oeT p) /\ e = v6_5 z.
Proof. exact (fun N v fuel o ea er p o' h => C103_rows_lem v fuel o ea er p o' h). Qed.
Print Assumptions C103_rows_are_history.
(** four steps, the last of which converges; printing every second step *)
Example C101_C102_C103_example : exists o' h, fresh o_exit1 /\ printable o_exit1 p_exit1 /\
  ran 10 o_exit1 no_eta no_eta p_exit1 o' h /\ List.length (h_controls h) = 4%nat /\ q_exitcode o' = 1%Z /\
  snd (tell 10 chatty o_exit1 no_eta no_eta) = Returns o' /\
  exists t0 d0 e0 t2 d2 e2, fst (tell 10 chatty o_exit1 no_eta no_eta) = [Header; Row 0 t0 d0 e0; Row 2 t2 d2 e2; TargetReached].
Proof. exact chatty_case. Qed.

(** C104.  pretty() called after set_problem shows the five names with the initial values, targets and weights that
    were given; a target with fewer than five entries makes it fail. *)
Theorem C104_pretty_shows_the_problem_partial : forall (N : Num) et (o o' : qlaw N) oe0 oeT mass0 tmax mdot tf ts mm woe
  don doff b0 lo hi ch dis full p,
  set_problem o oe0 oeT mass0 tmax mdot tf ts mm woe don doff b0 lo hi ch dis full = Ok o' -> q_problem o' = Some p ->
  pretty (element_names et) p =
    if Nat.leb 5 (List.length oeT) then
      Ok (map (fun i => (nth i (element_names et) ""%string, nth i oe0 (nofZ 0), nth i oeT (nofZ 0),
                         match woe with Some w => nth i w (nofZ 0) | None => nofZ 1 end)) [0; 1; 2; 3; 4]%nat)
    else Err IndexError.
Proof. exact (fun N et o o' oe0 oeT mass0 tmax mdot tf ts mm woe don doff b0 lo hi ch dis full p =>
  C104_lem et o o' oe0 oeT mass0 tmax mdot tf ts mm woe don doff b0 lo hi ch dis full p). Qed.
Print Assumptions C104_pretty_shows_the_problem_partial.
(** After solve() it may show something else: a circular Keplerian start is shown with eccentricity 1e-4. *)
Theorem C104_after_solve_refuted : exists o' : qlaw QNum, solve 5 o_circ no_eta no_eta = Returns o' /\
  shown_start o_circ = Some q0 /\ shown_start o' = Some (qq (1 # 10000)).
Proof. exact C104_refuted_lem. Qed.
Print Assumptions C104_after_solve_refuted.
Example C104_example : exists o p rows, o_built = Ok o /\ q_problem o = Some p /\ pretty (element_names MeeWithA) p = Ok rows /\
  nth_error rows 1 = Some ("f"%string, qq (1 # 10), qq (1 # 10), q1).
Proof.
  exists o_built'. destruct built_facts as (_ & _ & p & Hp). exists p.
  assert (E : match q_problem o_built' with
              | Some p => match pretty (element_names MeeWithA) p with
                          | Ok rows => nth_error rows 1 = Some ("f"%string, qq (1 # 10), qq (1 # 10), q1)
                          | Err _ => False end
              | None => False end) by (vm_compute; reflexivity).
  rewrite Hp in E. destruct (pretty (element_names MeeWithA) p) as [rows|] eqn:R; [|destruct E].
  exists rows. split; [exact built_ok|]. split; [exact Hp|]. split; [reflexivity|exact E].
Qed.

(** C114.  Through set_problem, solve and assignments to mu and integrator, pretty_settings() shows what the constructor was
    given: element type, the names that belong to it, the tolerances, the tolerances times the factor, the number of relaxed
    steps; and the integrator last chosen. *)
Theorem C114_settings_shown : forall (N : Num) mu rpmin k m n r b wp et ig grid tol omin omax thr sun ptrb rf ear (o o' : qlaw N) ig',
  init mu rpmin k m n r b wp et ig grid tol omin omax thr sun ptrb rf ear = Ok o -> later o ig o' ig' ->
  let given := match tol with Some l => l | None => repeat (dec 1 3) 5 end in
  pretty_settings (element_names (q_etype o)) o' =
    (et, if String.eqb et "keplerian" then ["a"; "e"; "i"; "raan"; "omega"; "ta"]%string else ["a"; "f"; "g"; "h"; "k"; "L"]%string,
     ig', given, map (nmul rf) given, ear).
Proof. exact @C114_lem. Qed.
Print Assumptions C114_settings_shown.
(** Assigning elements_type afterwards changes the type shown; the names shown and the dynamics stay. *)
Theorem C114_type_assigned : forall (N : Num) names (o o' : qlaw N) s et, built et o -> set_elements_type o s = Ok o' ->
  pretty_settings names o' = (s, names, integ_name (q_integ o), vec5_to_list (q_tol o), vec5_to_list (q_tol_relaxed o), q_exit_relaxed o) /\
  q_eom o' = eom_of et.
Proof. exact @C114_retyped_lem. Qed.
Print Assumptions C114_type_assigned.
Example C114_example : exists o o1 o2 o3,
  init (N:=QNum) q1 q1 q1 q1 q1 q1 q1 q0 "mee_with_a" "rk4" 4 None None None 10 false None (qq 10) 5 = Ok o /\
  solve 10 o1 no_eta no_eta = Returns o2 /\ later o "rk4" o2 "rk4" /\ later o "rk4" o3 "rkf45" /\
  built MeeWithA o1 /\ exists o4, set_elements_type o1 "keplerian" = Ok o4.
Proof.
  pose proof built_ok as E. unfold o_built, bind in E.
  match type of E with (match ?i with Ok _ => _ | Err _ => _ end) = _ => destruct i as [oi|e] eqn:Ei end; [|discriminate].
  exists oi, o_built', o_first. destruct (set_integrator oi "rkf45") as [o3|] eqn:I; [|discriminate I]. exists o3. split; [reflexivity|].
  assert (S : solve 10 o_built' no_eta no_eta = Returns o_first) by (apply is_ret_eq; vm_compute; reflexivity).
  split; [exact S|]. split; [eapply la_solve; [eapply la_problem; [apply la_now|exact E]|left; exact S]|].
  split; [eapply la_integ; [apply la_now|exact I]|]. split; [apply built_facts|]. eexists. reflexivity.
Qed.

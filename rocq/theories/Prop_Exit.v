(** Properties C01-C09: what solve() records and what its exit code means.
    All statements hold for every number type, every object (whatever its dynamics, control law,
    perturbation model and convergence test), every problem and every number of steps. *)
From Coq Require Import ZArith QArith String List Bool.
From Verif Require Import Num Base Convergence Perturb Qlaw Spec SolveProofs ExitProofs StateProofs Sim Runs.
Import ListNotations.
Local Open Scope Z_scope.

(** C01 *)
Theorem C01_histories_aligned : forall (N : Num) fuel (o : qlaw N) ea er p o' h,
  ran fuel o ea er p o' h ->
  exists n, length (h_times h) = S n /\ length (h_states h) = S n /\ length (h_masses h) = S n /\
    length (h_battery h) = S n /\ length (h_controls h) = n /\ length (h_etas h) = n /\
    length (h_bounds h) = n /\ length (h_Qs h) = n /\ length (h_dQdts h) = n.
Proof. exact (fun N fuel o ea er p o' h H => ran_lengths o p ea er fuel o' h H). Qed.
Print Assumptions C01_histories_aligned.
Theorem C01_first_entries : forall (N : Num) fuel (o : qlaw N) ea er p o' h,
  ran fuel o ea er p o' h ->
  nth_error (h_times h) 0 = Some (nofZ 0) /\ nth_error (h_masses h) 0 = Some (p_mass0 p) /\
  nth_error (h_battery h) 0 = Some (p_batt0 p) /\
  (exists p', q_problem o' = Some p' /\ nth_error (h_states h) 0 = Some (p_oe0 p')).
Proof. exact (fun N fuel o ea er p o' h H => ran_first o p ea er fuel o' h H). Qed.
Print Assumptions C01_first_entries.
Example C01_example : exists o' h, ran 10 o_kep no_eta no_eta p_exitm2 o' h /\
  q_exitcode o' = (-2)%Z /\ length (h_controls h) = 3%nat.
Proof. exact run_kep. Qed.

(** C02 *)
Theorem C02_exit1_target_met : forall (N : Num) et fuel (o : qlaw N) ea er p o' h,
  built et o -> fresh o -> ran fuel o ea er p o' h -> q_exitcode o' = 1 ->
  q_converge o' = true /\
  exists rest z, h_states h = rest ++ [z] /\ meets et z (p_oeT p) (p_woe p) (q_tol o).
Proof. exact (fun N et fuel o ea er p o' h => C02_built_lem et fuel o ea er p o' h). Qed.
Print Assumptions C02_exit1_target_met.
(** Whatever convergence test the object carries, exit code 1 means that test accepts the last state. *)
Theorem C02_exit1_check_passed : forall (N : Num) fuel (o : qlaw N) ea er p o' h,
  fresh o -> ran fuel o ea er p o' h -> q_exitcode o' = 1 ->
  q_converge o' = true /\ exists rest z, h_states h = rest ++ [z] /\ strict o p z = Ok true.
Proof. exact (fun N fuel o ea er p o' h => C02_lem o p ea er fuel o' h). Qed.
Print Assumptions C02_exit1_check_passed.
Example C02_example : exists o p o' h, o_built = Ok o /\ built MeeWithA o /\ fresh o /\
  ran 10 o no_eta no_eta p o' h /\ q_exitcode o' = 1.
Proof.
  destruct built_facts as (B & F & _). destruct run_built as (p & o' & h & R & X & _).
  exists o_built', p, o', h. split; [exact built_ok|]. auto.
Qed.

(** C03 *)
Theorem C03_exit2_relaxed_count : forall (N : Num) fuel (o : qlaw N) ea er p o' h,
  fresh o -> ran fuel o ea er p o' h -> q_exitcode o' = 2 ->
  exists zs z, raws o (p_oe0 p) h (zs ++ [z]) /\ relaxed o p z = Ok true /\
    Forall (fun x => strict o p x = Ok false) (zs ++ [z]) /\
    count_relaxed o p (zs ++ [z]) = Z.max 1 (q_exit_relaxed o).
Proof. exact (fun N fuel o ea er p o' h => C03_lem o p ea er fuel o' h). Qed.
Print Assumptions C03_exit2_relaxed_count.
(** For objects made by the constructor the relaxed tolerance is factor * tol_oe, and the relaxed
    test is the same element-wise test. *)
Theorem C03_relaxed_tolerance : forall (N : Num) mu rpmin k m n r b wp et ig grid tol omin omax thr sun ptrb rf ear
  (o : qlaw N), init mu rpmin k m n r b wp et ig grid tol omin omax thr sun ptrb rf ear = Ok o ->
  q_tol_relaxed o = v5scal rf (q_tol o) /\ q_exit_relaxed o = ear /\
  forall p oe, relaxed o p oe = Ok true <-> meets (q_etype o) oe (p_oeT p) (p_woe p) (v5scal rf (q_tol o)).
Proof. exact (fun N mu rpmin k m n r b wp et ig grid tol omin omax thr sun ptrb rf ear o =>
  init_relaxed mu rpmin k m n r b wp et ig grid tol omin omax thr sun ptrb rf ear o). Qed.
Print Assumptions C03_relaxed_tolerance.
Example C03_example : exists o' h, fresh o_exit2 /\ ran 10 o_exit2 no_eta no_eta p_exit1 o' h /\
  q_exitcode o' = 2 /\ length (h_controls h) = 3%nat.
Proof. destruct run_exit2 as (o' & h & H). exists o', h. split; [split; reflexivity|exact H]. Qed.

(** C04 *)
Theorem C04_exit_minus1_mass_out : forall (N : Num) fuel (o : qlaw N) ea er p o' h,
  fresh o -> ran fuel o ea er p o' h -> q_exitcode o' = -1 ->
  exists ms m zs, h_masses h = p_mass0 p :: ms ++ [m] /\ raws o (p_oe0 p) h zs /\
    nleb m (p_mass_min p) = true /\ Forall (fun x => nleb x (p_mass_min p) = false) ms /\
    Forall (fun x => strict o p x = Ok false) zs.
Proof. exact (fun N fuel o ea er p o' h => C04_lem o p ea er fuel o' h). Qed.
Print Assumptions C04_exit_minus1_mass_out.
Example C04_example : exists o' h, fresh o_exitm1 /\ ran 10 o_exitm1 no_eta no_eta p_exitm1 o' h /\
  q_exitcode o' = -1 /\ length (h_controls h) = 2%nat.
Proof. destruct run_exitm1 as (o' & h & H). exists o', h. split; [split; reflexivity|exact H]. Qed.

(** C05 *)
Theorem C05_exit_minus2_time_out : forall (N : Num) fuel (o : qlaw N) ea er p o' h,
  fresh o -> ran fuel o ea er p o' h -> q_exitcode o' = -2 ->
  exists ts t ms zs, h_times h = ts ++ [t] /\ nltb (nabs t) (nabs (p_tf_max p)) = false /\
    h_masses h = p_mass0 p :: ms /\ raws o (p_oe0 p) h zs /\
    Forall (fun x => nleb x (p_mass_min p) = false) ms /\
    Forall (fun x => strict o p x = Ok false) zs /\
    (count_relaxed o p zs < q_exit_relaxed o \/ count_relaxed o p zs = 0).
Proof. exact (fun N fuel o ea er p o' h => C05_lem o p ea er fuel o' h). Qed.
Print Assumptions C05_exit_minus2_time_out.
Example C05_example : exists o' h, fresh o_exitm2 /\ ran 10 o_exitm2 no_eta no_eta p_exitm2 o' h /\
  q_exitcode o' = -2 /\ length (h_controls h) = 3%nat.
Proof. destruct run_exitm2 as (o' & h & H). exists o', h. split; [split; reflexivity|exact H]. Qed.

(** C06 *)
Theorem C06_exit_minus3_nan_count : forall (N : Num) fuel (o : qlaw N) ea er p o' h,
  fresh o -> ran fuel o ea er p o' h -> q_exitcode o' = -3 -> 0 <= q_nan_thr o ->
  exists ks : list nat,
    Z.of_nat (length ks) = q_nan_thr o /\ NoDup ks /\
    (forall k, In k ks -> exists t m oe b dt, nth_error (h_times h) k = Some t /\
       nth_error (h_times h) (S k) = Some (nadd t dt) /\ nth_error (h_masses h) k = Some m /\
       nth_error (h_states h) k = Some oe /\ nth_error (h_battery h) k = Some b /\ takes_step o p oe b dt /\
       nan_at o p (nmul (npsign dt) (p_tmax p) / m)%num oe /\
       nth_error (h_controls h) k = Some (nofZ 0, nofZ 0, 0)) /\
    (exists m oe b dt, nth_error (h_masses h) (length (h_controls h)) = Some m /\
       nth_error (h_states h) (length (h_controls h)) = Some oe /\
       nth_error (h_battery h) (length (h_controls h)) = Some b /\ takes_step o p oe b dt /\
       nan_at o p (nmul (npsign dt) (p_tmax p) / m)%num oe) /\
    (exists t, nth_error (h_times h) (length (h_controls h)) = Some t /\
       nltb (nabs t) (nabs (p_tf_max p)) = true).
Proof. exact (fun N fuel o ea er p o' h => C06_lem o p ea er fuel o' h). Qed.
Print Assumptions C06_exit_minus3_nan_count.
Example C06_example : exists o' h, fresh o_exitm3 /\ ran 10 o_exitm3 no_eta no_eta p_exit1 o' h /\
  q_exitcode o' = -3 /\ length (h_controls h) = 2%nat.
Proof. destruct run_exitm3 as (o' & h & H). exists o', h. split; [split; reflexivity|exact H]. Qed.

(** C07 *)
Theorem C07_exit_codes_total : forall (N : Num) fuel (o : qlaw N) ea er p o' h,
  fresh o -> ran fuel o ea er p o' h ->
  In (q_exitcode o') [1; 2; -1; -2; -3] /\
  (q_converge o' = true <-> q_exitcode o' = 1 \/ q_exitcode o' = 2).
Proof. exact (fun N fuel o ea er p o' h => C07_lem o p ea er fuel o' h). Qed.
Print Assumptions C07_exit_codes_total.

(** C08.  False as stated: the flags of an earlier run survive a run that ends on time. *)
Theorem C08_resolve_reports_new_outcome_refuted : exists (o1 o2 o3 : qlaw QNum) h p,
  (* o1 is the result of a converged first solve on an object made by the constructor *)
  (exists o0, o_built = Ok o0 /\ solve 10 o0 no_eta no_eta = Returns o1 /\ q_exitcode o1 = 1) /\
  (* a second problem with another target and a short duration is set and solved *)
  set_problem (N:=QNum) o1 [q1; qq (1 # 10); qq (1 # 10); qq (1 # 10); qq (1 # 10); q0]
    [qq 2; qq (1 # 10); qq (1 # 10); qq (1 # 10); qq (1 # 10)] q1 q0 q0
    (qq (1 # 4)) (qq (1 # 4)) (qq (1 # 10)) None (qq 100) q0 q1 q0 q1 q1 q1 false = Ok o2 /\
  ran 10 o2 no_eta no_eta p o3 h /\ length (h_controls h) = 1%nat /\
  (* it reports convergence although its last state is not within tolerance *)
  q_exitcode o3 = 1 /\ q_converge o3 = true /\
  forall z, In z (h_states h) -> strict o2 p z = Ok false.
Proof. exact C08_refuted_lem. Qed.
Print Assumptions C08_resolve_reports_new_outcome_refuted.
(** Exactly what a re-used object reports, compared with the same object with reset flags ([h] is the
    same): converge is never cleared, and "time ran out" is masked by the previous code. *)
Theorem C08_resolve_report_partial : forall (N : Num) fuel (o : qlaw N) ea er p o' h,
  ran fuel o ea er p o' h ->
  exists o1, ran fuel (reset o) ea er p o1 h /\
    q_converge o' = (q_converge o || q_converge o1)%bool /\
    q_exitcode o' = if Z.eqb (q_exitcode o1) (-2) then
                      (if negb (q_converge o) && Z.eqb (q_exitcode o) 0 then -2 else q_exitcode o)
                    else q_exitcode o1.
Proof. exact (fun N fuel o ea er p o' h => C08_exact_lem fuel o ea er p o' h). Qed.
Print Assumptions C08_resolve_report_partial.

(** C09 *)
Theorem C09_stops_at_first_converged : forall (N : Num) fuel (o : qlaw N) ea er p o' h,
  ran fuel o ea er p o' h ->
  exists zs, raws o (p_oe0 p) h zs /\ length zs = length (h_controls h) /\
    Forall (fun x => strict o p x = Ok false) (removelast zs).
Proof. exact (fun N fuel o ea er p o' h => C09_lem o p ea er fuel o' h). Qed.
Print Assumptions C09_stops_at_first_converged.
Example C07_C09_example : exists o' h, fresh o_exit1 /\ ran 10 o_exit1 no_eta no_eta p_exit1 o' h /\
  q_exitcode o' = 1 /\ length (h_controls h) = 4%nat.
Proof. destruct run_exit1 as (o' & h & H). exists o', h. split; [split; reflexivity|exact H]. Qed.

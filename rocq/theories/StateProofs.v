(** Object-level facts: which functions an object uses, what its convergence test means, and what
    survives from one solve to the next. *)
From Coq Require Import ZArith String List Bool Lia.
From Verif Require Import Num Base Elements Integrate Eom Convergence Lyapunov Perturb Qlaw Trace Spec
  SolveProofs ExitProofs GateProofs.
Import ListNotations.

Section P.
Context {N : Num}.

Lemma entry_near (w d tol : car) : check_entry w d tol = 1%nat <-> near w tol d.
Proof.
  unfold check_entry, near. destruct (neqb w (nofZ 0)); [tauto|].
  destruct (nleb d tol); intuition congruence.
Qed.
Lemma entry_01 (w d tol : car) : check_entry w d tol = 0%nat \/ check_entry w d tol = 1%nat.
Proof. unfold check_entry. destruct (neqb _ _); auto. destruct (nleb _ _); auto. Qed.

Lemma check_all_near (w0 w1 w2 w3 w4 d0 d1 d2 d3 d4 t0 t1 t2 t3 t4 : car) :
  check_all (mk5 w0 w1 w2 w3 w4) (mk5 d0 d1 d2 d3 d4) (mk5 t0 t1 t2 t3 t4) = true <->
  near w0 t0 d0 /\ near w1 t1 d1 /\ near w2 t2 d2 /\ near w3 t3 d3 /\ near w4 t4 d4.
Proof.
  unfold check_all. rewrite Nat.eqb_eq, <- !entry_near.
  pose proof (entry_01 w0 d0 t0). pose proof (entry_01 w1 d1 t1). pose proof (entry_01 w2 d2 t2).
  pose proof (entry_01 w3 d3 t3). pose proof (entry_01 w4 d4 t4).
  generalize dependent (check_entry w0 d0 t0). generalize dependent (check_entry w1 d1 t1).
  generalize dependent (check_entry w2 d2 t2). generalize dependent (check_entry w3 d3 t3).
  generalize dependent (check_entry w4 d4 t4). intros. lia.
Qed.

Lemma check_meets et oe T w tol : check_of (N:=N) et oe T w tol = Ok true <-> meets et oe T w tol.
Proof.
  destruct oe as [o0 o1 o2 o3 o4 o5], w as [w0 w1 w2 w3 w4], tol as [t0 t1 t2 t3 t4].
  unfold check_of, meets.
  assert (E : forall g3 g4 : car -> car,
    (match T with
     | T0 :: T1 :: T2 :: T3 :: T4 :: _ =>
        Ok (check_all (mk5 w0 w1 w2 w3 w4) (mk5 (nabs (nsub T0 o0)) (nabs (nsub T1 o1)) (nabs (nsub T2 o2)) (g3 T3) (g4 T4)) (mk5 t0 t1 t2 t3 t4))
     | _ => Err ValueError end = Ok true <->
    exists T0 T1 T2 T3 T4 rest, T = T0 :: T1 :: T2 :: T3 :: T4 :: rest /\
    near w0 t0 (nabs (nsub T0 o0)) /\ near w1 t1 (nabs (nsub T1 o1)) /\ near w2 t2 (nabs (nsub T2 o2)) /\
    near w3 t3 (g3 T3) /\ near w4 t4 (g4 T4))).
  { intros g3 g4.
    destruct T as [|T0 [|T1 [|T2 [|T3 [|T4 rest]]]]];
      try (split; [discriminate|intros (?&?&?&?&?&?&X&_); discriminate]).
    split.
    - intros H. assert (H' : check_all (mk5 w0 w1 w2 w3 w4) (mk5 (nabs (nsub T0 o0)) (nabs (nsub T1 o1)) (nabs (nsub T2 o2)) (g3 T3) (g4 T4)) (mk5 t0 t1 t2 t3 t4) = true) by congruence.
      apply check_all_near in H'. exists T0, T1, T2, T3, T4, rest. tauto.
    - intros (A0&A1&A2&A3&A4&r&X&H). injection X as <- <- <- <- <- <-. f_equal.
      apply check_all_near. tauto. }
  destruct et.
  - apply (E (fun T3 => nabs (nacos (ncos (nsub T3 o3)))) (fun T4 => nabs (nacos (ncos (nsub T4 o4))))).
  - apply (E (fun T3 => nabs (nsub T3 o3)) (fun T4 => nabs (nsub T4 o4))).
Qed.

Lemma strict_meets et (o : qlaw N) p oe : built et o ->
  (strict o p oe = Ok true <-> meets et oe (p_oeT p) (p_woe p) (q_tol o)).
Proof. intros (_ & _ & _ & _ & H). unfold strict. rewrite H. apply check_meets. Qed.
Lemma relaxed_meets et (o : qlaw N) p oe : built et o ->
  (relaxed o p oe = Ok true <-> meets et oe (p_oeT p) (p_woe p) (q_tol_relaxed o)).
Proof. intros (_ & _ & _ & _ & H). unfold relaxed. rewrite H. apply check_meets. Qed.

Lemma C02_built_lem et fuel (o : qlaw N) ea er p o' h : built et o -> fresh o ->
  ran fuel o ea er p o' h -> q_exitcode o' = 1%Z ->
  q_converge o' = true /\
  exists rest z, h_states h = rest ++ [z] /\ meets et z (p_oeT p) (p_woe p) (q_tol o).
Proof.
  intros B F R X. destruct (C02_lem _ _ _ _ _ _ _ F R X) as (C & rest & z & E & S).
  split; [exact C|]. exists rest, z. split; [exact E|]. apply (strict_meets et o p z B). exact S.
Qed.

Lemma init_built mu rpmin k m n r b wp et ig grid tol omin omax thr sun ptrb rf ear (o : qlaw N) :
  init mu rpmin k m n r b wp et ig grid tol omin omax thr sun ptrb rf ear = Ok o ->
  exists e, etype_of_string et = Ok e /\ built e o /\ fresh o /\ q_problem o = None /\ q_hist o = None /\
    q_step_min o = dec 1 4 /\ q_step_max o = nofZ 2 /\ q_sundman o = sun /\
    q_tol_relaxed o = v5scal rf (q_tol o) /\ q_nan_thr o = thr /\ q_exit_relaxed o = ear /\
    nltb (nofZ 0) (q_mu o) = true /\ nleb (nofZ 1) rf = true.
Proof.
  unfold init. destruct (nleb _ rf) eqn:H0; [|discriminate]. simpl.
  destruct (nltb _ mu) eqn:H1; [|discriminate]. simpl.
  destruct (etype_of_string et) as [e|]; [|discriminate]. simpl.
  destruct (integ_of_string ig) as [i|]; [|discriminate]. simpl.
  destruct tol as [l|]; simpl.
  - destruct (list_to_vec5 l); [|discriminate]. simpl. intros H. injection H as <-.
    exists e. unfold built, fresh. simpl. auto 20.
  - intros H. injection H as <-. exists e. unfold built, fresh. simpl. auto 20.
Qed.

Lemma set_problem_with (o o' : qlaw N) oe0 oeT mass0 tmax mdot tf ts mm woe don doff b0 lo hi ch dis full :
  set_problem o oe0 oeT mass0 tmax mdot tf ts mm woe don doff b0 lo hi ch dis full = Ok o' ->
  exists p, o' = with_run o (Some p) (q_hist o) (q_converge o) (q_exitcode o) /\
    p_tf_max p = tf /\ list_to_vec6 oe0 = Some (p_oe0 p) /\ p_mass_min p = mm /\ p_mass0 p = mass0.
Proof.
  unfold set_problem. destruct (list_to_vec6 oe0) as [v|]; [|discriminate].
  destruct (nleb _ mm); [|discriminate]. simpl.
  destruct woe as [l|]; simpl.
  - destruct (list_to_vec5 l); [|discriminate]. simpl. intros H. injection H as <-. eexists. split; [reflexivity|]. auto.
  - intros H. injection H as <-. eexists. split; [reflexivity|]. auto.
Qed.

Lemma set_problem_built et (o o' : qlaw N) oe0 oeT mass0 tmax mdot tf ts mm woe don doff b0 lo hi ch dis full :
  built et o ->
  set_problem o oe0 oeT mass0 tmax mdot tf ts mm woe don doff b0 lo hi ch dis full = Ok o' -> built et o'.
Proof. intros B H. apply set_problem_with in H as (p & -> & _). exact B. Qed.

Lemma solve_built et fuel (o : qlaw N) ea er o' :
  (solve fuel o ea er = Returns o' \/ exists e, solve fuel o ea er = Raises e o') -> built et o -> built et o'.
Proof.
  intros H B. unfold solve in H. destruct (q_problem o) as [p|].
  - destruct ea.
    + destruct (loop _ _ _ _ _ _); destruct H as [H|[e0 H]]; try discriminate; injection H; intros; subst; exact B.
    + destruct (loop _ _ _ _ _ _); destruct H as [H|[e0 H]]; try discriminate; injection H; intros; subst; exact B.
    + destruct H as [H|[e0 H]]; try discriminate; injection H; intros; subst; exact B.
  - destruct H as [H|[e0 H]]; try discriminate; injection H; intros; subst; exact B.
Qed.

Lemma set_mu_built et (o o' : qlaw N) mu : set_mu o mu = Ok o' -> built et o -> built et o'.
Proof. unfold set_mu. destruct (nltb _ mu); [|discriminate]. simpl. intros H B. injection H as <-. exact B. Qed.

Lemma set_integrator_built et (o o' : qlaw N) s : set_integrator o s = Ok o' -> built et o -> built et o'.
Proof. unfold set_integrator. destruct (integ_of_string s); [|discriminate]. simpl. intros H B. injection H as <-. exact B. Qed.

(** Assigning [elements_type] afterwards only changes the name. *)
Lemma retype (o o' : qlaw N) et s : built et o -> set_elements_type o s = Ok o' ->
  etype_of_string s = Ok (q_etype o') /\
  q_eom o' = eom_of et /\ q_lyap o' = lyap_of_etype et /\ q_check o' = check_of et.
Proof.
  unfold set_elements_type. intros (B1 & B2 & B3 & B4 & B5).
  destruct (etype_of_string s); [|discriminate]. simpl. intros H. injection H as <-. simpl. auto.
Qed.

(** A run that leaves the loop through the while test keeps the old flags (-2 only replaces a code
    of 0). *)
Lemma C08_time_lem fuel (o : qlaw N) ea er p :
  q_problem o = Some p -> ea <> EtaOther -> nltb (nabs (nofZ 0)) (nabs (p_tf_max p)) = false ->
  exists o' h, solve fuel o ea er = Returns o' /\ q_hist o' = Some h /\ h_controls h = [] /\
    q_converge o' = q_converge o /\
    q_exitcode o' = if negb (q_converge o) && Z.eqb (q_exitcode o) 0 then (-2)%Z else q_exitcode o.
Proof.
  intros Hp He Hg. unfold solve. rewrite Hp.
  assert (L : loop fuel o p ea er (init_state p) = LEnd (init_state p)).
  { destruct fuel; simpl; unfold guard; simpl; rewrite Hg; reflexivity. }
  destruct ea; [| |congruence]; rewrite L; eexists _, _; (split; [reflexivity|]);
    simpl; repeat split; reflexivity.
Qed.

End P.

(** Runs do not look at the outcome flags left by an earlier run; only the report does. *)
Section Flags.
Context {N : Num}.

Lemma step_reset (o : qlaw N) p ea er s : step (reset o) p ea er s = step o p ea er s.
Proof. reflexivity. Qed.
Lemma loop_reset (o : qlaw N) p ea er n : forall s, loop n (reset o) p ea er s = loop n o p ea er s.
Proof.
  induction n as [|n IH]; intros s; [reflexivity|]. cbn [loop]. rewrite step_reset.
  destruct (guard p s); [|reflexivity]. destruct (step o p ea er s); auto.
Qed.

Lemma C08_exact_lem fuel (o : qlaw N) ea er p o' h : ran fuel o ea er p o' h ->
  exists o1, ran fuel (reset o) ea er p o1 h /\
    q_converge o' = (q_converge o || q_converge o1)%bool /\
    q_exitcode o' = (if Z.eqb (q_exitcode o1) (-2) then
                       (if negb (q_converge o) && Z.eqb (q_exitcode o) 0 then -2 else q_exitcode o)
                     else q_exitcode o1)%Z.
Proof.
  intros R. pose proof (ran_ended o p ea er _ _ _ R) as (gs & oel & code & conv & He & Hh & Hc & Hx & _).
  assert (Hcode : match code with Some c => In c [1; 2; -1; -3]%Z | None => True end).
  { destruct He as [gs s Htr Hg|gs s g code conv s' Htr Hg Hit Hex|gs s pl Htr Hg H1 H2]; [exact I| |simpl; tauto].
    pose proof (exit_cases o p (post g)) as E. rewrite Hex in E. inversion E; subst; simpl; tauto. }
  destruct R as (S & Hp & Hh').
  assert (S' : exists o1, solve fuel (reset o) ea er = Returns o1 /\ q_hist o1 = Some h).
  { unfold solve in *. change (q_problem (reset o)) with (q_problem o). rewrite Hp in *.
    rewrite loop_reset. destruct ea; try discriminate;
    (destruct (loop fuel o p _ er (init_state p)) as [s|c cv s|e s|s]; try discriminate;
     injection S as <-; injection Hh' as <-; eexists; split; reflexivity). }
  destruct S' as (o1 & S1 & H1). exists o1.
  assert (R1 : ran fuel (reset o) ea er p o1 h) by (split; [exact S1|split; [exact Hp|exact H1]]).
  split; [exact R1|].
  (* the fresh run ended the same way *)
  unfold solve in S, S1. change (q_problem (reset o)) with (q_problem o) in S1. rewrite Hp in S, S1.
  rewrite loop_reset in S1.
  pose proof (loop_cases o p ea er fuel) as LC.
  assert (forall c v s, loop fuel o p ea er (init_state p) = LStop c v s -> In c [1; 2; -1; -3]%Z) as HC.
  { intros c v s E. rewrite E in LC. inversion LC as [|gs0 s0 g c1 v1 s1 Htr Hg Hit Hex Heq|gs0 s0 pl Htr Hg X1 X2 Heq| |]; subst; [|simpl; tauto].
    pose proof (exit_cases o p (post g)) as EE. rewrite Hex in EE. inversion EE; subst; simpl; tauto. }
  destruct ea; try discriminate;
  (destruct (loop fuel o p _ er (init_state p)) as [s|c cv s|e s|s]; try discriminate;
    [ injection S as <-; injection S1 as <-; simpl; rewrite orb_false_r; split; reflexivity
    | specialize (HC c cv s eq_refl); injection S as <-; injection S1 as <-; simpl;
      split; [rewrite orb_false_r; apply orb_comm|];
      simpl in HC; destruct HC as [<-|[<-|[<-|[<-|[]]]]]; simpl; rewrite ?andb_false_r; reflexivity]).
Qed.
End Flags.

Lemma init_relaxed {N : Num} mu rpmin k m n r b wp et ig grid tol omin omax thr sun ptrb rf ear (o : qlaw N) :
  init mu rpmin k m n r b wp et ig grid tol omin omax thr sun ptrb rf ear = Ok o ->
  q_tol_relaxed o = v5scal rf (q_tol o) /\ q_exit_relaxed o = ear /\
  forall p oe, relaxed o p oe = Ok true <-> meets (q_etype o) oe (p_oeT p) (p_woe p) (v5scal rf (q_tol o)).
Proof.
  intros H. apply init_built in H as (e & _ & B & _ & _ & _ & _ & _ & _ & T & _ & E & _).
  split; [exact T|]. split; [exact E|]. intros p oe. rewrite <- T.
  assert (Be : q_etype o = e) by apply B. rewrite Be. apply relaxed_meets. exact B.
Qed.

Lemma C29_reachable_lem {N : Num} (o : qlaw N) : reachable o -> built (q_etype o) o.
Proof.
  induction 1 as [* H|* R IH H|* R IH H|* R IH H|* R IH H].
  - apply init_built in H as (e & _ & B & _). assert (E : q_etype o = e) by apply B. rewrite E. exact B.
  - pose proof (set_problem_built _ _ _ _ _ _ _ _ _ _ _ _ _ _ _ _ _ _ _ _ IH H) as B.
    assert (E : q_etype o' = q_etype o) by apply B. rewrite E. exact B.
  - pose proof (solve_built _ _ _ _ _ _ H IH) as B.
    assert (E : q_etype o' = q_etype o) by apply B. rewrite E. exact B.
  - pose proof (set_mu_built _ _ _ _ H IH) as B.
    assert (E : q_etype o' = q_etype o) by apply B. rewrite E. exact B.
  - pose proof (set_integrator_built _ _ _ _ H IH) as B.
    assert (E : q_etype o' = q_etype o) by apply B. rewrite E. exact B.
Qed.

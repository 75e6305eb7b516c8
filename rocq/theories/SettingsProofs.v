(** pretty_settings shows what the constructor was given, through the life of the object. *)
From Coq Require Import ZArith List Bool String.
From Verif Require Import Num Base Perturb Qlaw Export Report Spec ReportSpec StateProofs.
Import ListNotations.

Section S.
Context {N : Num}.
Lemma integ_named s ig : integ_of_string s = Ok ig -> integ_name ig = s.
Proof.
  unfold integ_of_string. destruct (String.eqb_spec s "rk4"); [intros H; injection H as <-; auto|].
  destruct (String.eqb_spec s "rkf45"); [intros H; injection H as <-; auto|discriminate].
Qed.
Lemma etype_named s et : etype_of_string s = Ok et -> etype_name et = s.
Proof.
  unfold etype_of_string. destruct (String.eqb_spec s "keplerian"); [intros H; injection H as <-; auto|].
  destruct (String.eqb_spec s "mee_with_a"); [intros H; injection H as <-; auto|discriminate].
Qed.
Definition kept (o o' : qlaw N) : Prop := q_etype o' = q_etype o /\ q_tol o' = q_tol o /\ q_tol_relaxed o' = q_tol_relaxed o /\ q_exit_relaxed o' = q_exit_relaxed o.
Lemma later_kept (o o' : qlaw N) i i' : integ_name (q_integ o) = i -> later o i o' i' -> kept o o' /\ integ_name (q_integ o') = i'.
Proof.
  intros I. induction 1 as [|* R IH H|* R IH H|* R IH H|* R IH H].
  - split; [repeat split|exact I].
  - apply set_problem_with in H as (p & -> & _). exact IH.
  - unfold solve in H. destruct (q_problem o1) as [p|].
    + destruct ea.
      * destruct (loop _ _ _ _ _ _); destruct H as [H|[e0 H]]; try discriminate; injection H; intros; subst; exact IH.
      * destruct (loop _ _ _ _ _ _); destruct H as [H|[e0 H]]; try discriminate; injection H; intros; subst; exact IH.
      * destruct H as [H|[e0 H]]; try discriminate; injection H; intros; subst; exact IH.
    + destruct H as [H|[e0 H]]; try discriminate; injection H; intros; subst; exact IH.
  - unfold set_mu in H. destruct (nltb _ mu); [|discriminate]. injection H as <-. exact IH.
  - unfold set_integrator in H. destruct (integ_of_string s) as [ig|] eqn:E; [|discriminate]. injection H as <-. split; [apply IH|]. cbn. apply integ_named. exact E.
Qed.
Lemma C114_lem mu rpmin k m n r b wp et ig grid tol omin omax thr sun ptrb rf ear (o o' : qlaw N) ig' :
  init mu rpmin k m n r b wp et ig grid tol omin omax thr sun ptrb rf ear = Ok o -> later o ig o' ig' ->
  let given := match tol with Some l => l | None => repeat (dec 1 3) 5 end in
  pretty_settings (element_names (q_etype o)) o' =
    (et, if String.eqb et "keplerian" then ["a"; "e"; "i"; "raan"; "omega"; "ta"]%string else ["a"; "f"; "g"; "h"; "k"; "L"]%string,
     ig', given, map (nmul rf) given, ear).
Proof.
  intros H L given. unfold init in H. destruct (negb _); [discriminate|]. destruct (negb _); [discriminate|].
  destruct (etype_of_string et) as [e|] eqn:E; [|discriminate]. destruct (integ_of_string ig) as [g|] eqn:G; [|discriminate]. cbn [bind] in H.
  assert (X : exists t, (match tol with None => Ok (mk5 (dec 1 3) (dec 1 3) (dec 1 3) (dec 1 3) (dec 1 3))
             | Some l => match list_to_vec5 l with Some v => Ok v | None => Err AssertionError end end) = Ok t /\ vec5_to_list t = given /\
             vec5_to_list (v5scal rf t) = map (nmul rf) given).
  { destruct tol as [l|]; [|eexists; repeat split]. cbn in H.
    destruct (list_to_vec5 l) as [v|] eqn:V; [|discriminate]. exists v. split; [reflexivity|].
    unfold list_to_vec5 in V. destruct l as [|a0 [|a1 [|a2 [|a3 [|a4 [|a5 l]]]]]]; try discriminate V. injection V as <-. split; reflexivity. }
  destruct X as (t & X & T1 & T2). rewrite X in H. cbn [bind] in H. injection H as H.
  assert (I : integ_name (q_integ o) = ig) by (rewrite <- H; apply integ_named; exact G).
  destruct (later_kept _ _ _ _ I L) as ((K1 & K2 & K3 & K4) & K5).
  unfold pretty_settings. rewrite K1, K2, K3, K4, K5, <- H. cbn [q_etype q_tol q_tol_relaxed q_exit_relaxed].
  rewrite T1, T2, (etype_named _ _ E). f_equal. f_equal. f_equal. f_equal. f_equal.
  revert E. unfold etype_of_string. destruct (String.eqb et "keplerian"); [intros E; injection E as <-; reflexivity|].
  destruct (String.eqb et "mee_with_a"); [intros E; injection E as <-; reflexivity|discriminate].
Qed.
(** Assigning elements_type afterwards changes the printed name only. *)
Lemma C114_retyped_lem names (o o' : qlaw N) s et : built et o -> set_elements_type o s = Ok o' ->
  pretty_settings names o' = (s, names, integ_name (q_integ o), vec5_to_list (q_tol o), vec5_to_list (q_tol_relaxed o), q_exit_relaxed o) /\ q_eom o' = eom_of et.
Proof.
  intros B H. destruct (retype _ _ _ _ B H) as (T & Q & _). split; [|exact Q].
  unfold set_elements_type in H. destruct (etype_of_string s) as [e|] eqn:E; [|discriminate]. injection H as <-. unfold pretty_settings. cbn. rewrite (etype_named _ _ E). reflexivity.
Qed.
End S.

(** Concrete transcripts for C101-C104. *)
From Coq Require Import QArith ZArith String List Bool.
From Verif Require Import Num Base Perturb Qlaw Export Report Spec StateProofs Sim Runs GateRuns ReportSpec ReportProofs.
Import ListNotations.

Definition normal : voice := mkvoice 1 200.
Definition chatty : voice := mkvoice 2 2.

(** A converging run that prints every second step. *)
Lemma chatty_case : exists o' h, fresh o_exit1 /\ printable o_exit1 p_exit1 /\ ran 10 o_exit1 no_eta no_eta p_exit1 o' h /\
  List.length (h_controls h) = 4%nat /\ q_exitcode o' = 1%Z /\
  snd (tell 10 chatty o_exit1 no_eta no_eta) = Returns o' /\
  exists t0 d0 e0 t2 d2 e2, fst (tell 10 chatty o_exit1 no_eta no_eta) = [Header; Row 0 t0 d0 e0; Row 2 t2 d2 e2; TargetReached].
Proof.
  destruct run_exit1 as (o' & h & R & X & L). exists o', h.
  assert (P : printable o_exit1 p_exit1) by (left; cbv; repeat constructor).
  split; [split; reflexivity|]. split; [exact P|]. split; [exact R|]. split; [exact L|]. split; [exact X|].
  split; [rewrite (C101_lem chatty 10 o_exit1 no_eta no_eta); [exact (proj1 R)|]|].
  - intros p E. replace p with p_exit1 by (injection E; auto). exact P.
  - do 6 eexists. vm_compute. reflexivity.
Qed.

(** The second run of an object that has converged before: it reaches nothing and says it has reached the target. *)
Lemma C102_stale_lem : exists (o1 o2 o3 : qlaw QNum) h p,
  (exists o0, o_built = Ok o0 /\ solve 10 o0 no_eta no_eta = Returns o1) /\ o_second o1 = Ok o2 /\
  ran 10 o2 no_eta no_eta p o3 h /\ printable o2 p /\ (forall z, In z (h_states h) -> strict o2 p z = Ok false) /\
  fst (tell 10 normal o2 no_eta no_eta) = [TargetReached].
Proof.
  destruct C08_refuted_lem as (o1 & o2 & o3 & h & p & (o0 & A1 & A2 & A3) & B & R & _ & _ & _ & S).
  exists o1, o2, o3, h, p. split; [exists o0; auto|]. split; [exact B|]. split; [exact R|].
  assert (P : printable o2 p).
  { right. exists MeeWithA. destruct built_facts as (Bf & _). rewrite built_ok in A1. injection A1 as <-.
    refine (set_problem_built _ _ _ _ _ _ _ _ _ _ _ _ _ _ _ _ _ _ _ _ _ B).
    eapply solve_built; [left; exact A2|exact Bf]. }
  split; [exact P|]. split; [exact S|].
  assert (E1 : o1 = returned o_exit1 (solve 10 (get o_exit1 o_built) no_eta no_eta)) by (rewrite A1; cbn [get]; rewrite A2; reflexivity).
  assert (E2 : o2 = get o_exit1 (o_second o1)) by (unfold o_second; rewrite B; reflexivity).
  rewrite E2, E1. vm_compute. reflexivity.
Qed.

(** A run that ends on time, repeated on the same object, says nothing the second time. *)
Lemma C102_silent_lem : exists (o1 o2 : qlaw QNum) p1 p2 h1 h2, fresh o_exitm2 /\
  ran 10 o_exitm2 no_eta no_eta p1 o1 h1 /\ fst (tell 10 normal o_exitm2 no_eta no_eta) = [TimeOut] /\
  ran 10 o1 no_eta no_eta p2 o2 h2 /\ q_exitcode o2 = (-2)%Z /\ fst (tell 10 normal o1 no_eta no_eta) = [].
Proof.
  destruct run_exitm2 as (o1 & h1 & R1 & _).
  assert (E : o1 = returned o_exit1 (solve 10 o_exitm2 no_eta no_eta)) by (rewrite (proj1 R1); reflexivity).
  assert (H : exists p2, q_problem o1 = Some p2).
  { subst o1. destruct (q_problem _) eqn:E; [eauto|]. exfalso. revert E. vm_compute. discriminate. }
  destruct H as (p2 & Hp).
  assert (R2 : exists o2 h2, ran 10 o1 no_eta no_eta p2 o2 h2 /\ q_exitcode o2 = (-2)%Z).
  { apply ran_of; [exact Hp|]. rewrite E. vm_compute. reflexivity. }
  destruct R2 as (o2 & h2 & R2 & X).
  exists o1, o2, p_exitm2, p2, h1, h2. split; [split; reflexivity|]. split; [exact R1|]. split; [vm_compute; reflexivity|].
  split; [exact R2|]. split; [exact X|]. rewrite E. vm_compute. reflexivity.
Qed.

(** After a Keplerian run pretty() shows the safeguarded start, not the one that was set. *)
Definition shown_start (o : qlaw QNum) : option (car (Num:=QNum)) :=
  match q_problem o with
  | Some p => match pretty (element_names Keplerian) p with
              | Ok rows => option_map (fun r => snd (fst (fst r))) (nth_error rows 1)
              | Err _ => None
              end
  | None => None
  end.
Lemma C104_refuted_lem : exists o' : qlaw QNum, solve 5 o_circ no_eta no_eta = Returns o' /\
  shown_start o_circ = Some q0 /\ shown_start o' = Some (qq (1 # 10000)).
Proof.
  exists (returned o_exit1 (solve 5 o_circ no_eta no_eta)).
  split; [apply is_ret_eq; vm_compute; reflexivity|]. split; vm_compute; reflexivity.
Qed.

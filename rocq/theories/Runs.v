(** Concrete runs used by the examples beside the theorems. *)
From Coq Require Import Reals QArith Qreals ZArith String List Bool Lia Lra.
From Verif Require Import RMath Num Base Elements Integrate Eom Convergence Lyapunov Perturb Qlaw Spec XSpec StateProofs XTrace Sim.
Import ListNotations.

(** Reading the result of a computed run. *)
Lemma ran_of {N : Num} fuel (o : qlaw N) ea er p (P : qlaw N -> hist N -> Prop) :
  q_problem o = Some p ->
  match solve fuel o ea er with
  | Returns o' => match q_hist o' with Some h => P o' h | None => False end
  | _ => False
  end -> exists o' h, ran fuel o ea er p o' h /\ P o' h.
Proof.
  intros Hp H. destruct (solve fuel o ea er) as [o'|e o'|] eqn:S; try contradiction.
  destruct (q_hist o') as [h|] eqn:Hh; [|contradiction]. exists o', h. split; [split; auto|exact H].
Qed.

(** ** Runs over the rationals
    [demo u chk ear thr]: the semimajor axis grows at unit rate, the control law returns [u], and the
    convergence test is [chk]. *)
Definition qq (x : Q) : car (Num:=QNum) := Some x.
Definition q0 := qq 0.
Definition q1 := qq 1.
Definition qnan : car (Num:=QNum) := None.
Definition growing : eom_fn (N:=QNum) := fun _ _ _ => Ok (@mk6 QNum q1 q0 q0 q0 q0 q0).
Definition law (u : vec3 QNum) : lyap_fn QNum := fun _ _ _ _ _ _ _ _ _ _ _ _ =>
  Ok (@mklyap QNum u (@mkpsi QNum (v5of (N:=QNum) q0) (v5of (N:=QNum) q0) (v5of (N:=QNum) q0)) q1 (v5of (N:=QNum) q1)).
Definition along : vec3 QNum := @mk3 QNum q0 q1 q0.
Definition nowhere : vec3 QNum := @mk3 QNum qnan qnan qnan.

Definition demo (et : etype) (u : vec3 QNum) (ear thr : Z) : qlaw QNum :=
  {| q_mu := q1; q_rpmin := q1; q_k := q1; q_m := q1; q_n := q1; q_r := q1; q_b := q1; q_wp := q1;
     q_etype := et; q_integ := RK4; q_grid := 2;
     q_tol := v5of (N:=QNum) (qq (1 # 1000)); q_tol_relaxed := v5of (N:=QNum) (qq (6 # 10)); q_exit_relaxed := ear;
     q_oe_min := default_oe_min et; q_oe_max := default_oe_max et; q_nan_thr := thr;
     q_eom := growing; q_lyap := law u;
     q_dqdt := fun _ _ _ _ _ _ _ _ _ _ _ _ => Ok (qq (-1));
     q_check := check_of MeeWithA;
     q_step_min := qq (1 # 10000); q_step_max := qq 2; q_ode_tol := qq (1 # 100000); q_sundman := false;
     q_ptrb := None; q_problem := None; q_hist := None; q_converge := false; q_exitcode := 0%Z |}.
(** From a = 1 to a = 2 (other elements 1/10 and already at target), step 1/4, unit mass. *)
Definition demo_problem (tf mmin mdot b0 : Q) : problem QNum :=
  @mkproblem QNum (@mk6 QNum q1 (qq (1 # 10)) (qq (1 # 10)) (qq (1 # 10)) (qq (1 # 10)) q0)
    [qq 2; qq (1 # 10); qq (1 # 10); qq (1 # 10); qq (1 # 10)] q1 q1 (qq mdot) (qq tf)
    (qq (1 # 4)) (qq mmin) (v5of (N:=QNum) q1) (qq 100) (qq 0) (qq b0) q0 q1 q0 q0 false.
Definition demo_at (et : etype) (u : vec3 QNum) (ear thr : Z) (tf mmin mdot : Q) : qlaw QNum :=
  withp (demo et u ear thr) (demo_problem tf mmin mdot 1).
Definition no_eta : eta_arg QNum := EtaFloat (N:=QNum) q0.

Ltac run := apply ran_of; [reflexivity|]; vm_compute; repeat split; reflexivity.

(** Converges on the fourth step. *)
Definition o_exit1 : qlaw QNum := demo_at MeeWithA along 5 10 10 (1 # 10) (1 # 100).
Definition p_exit1 : problem QNum := demo_problem 10 (1 # 10) (1 # 100) 1.
Lemma run_exit1 : exists o' h, ran 10 o_exit1 no_eta no_eta p_exit1 o' h /\
  q_exitcode o' = 1%Z /\ length (h_controls h) = 4%nat.
Proof. run. Qed.
(** Two states within the relaxed tolerance. *)
Definition o_exit2 : qlaw QNum := demo_at MeeWithA along 2 10 10 (1 # 10) (1 # 100).
Lemma run_exit2 : exists o' h, ran 10 o_exit2 no_eta no_eta p_exit1 o' h /\
  q_exitcode o' = 2%Z /\ length (h_controls h) = 3%nat.
Proof. run. Qed.
(** Out of propellant on the second step. *)
Definition o_exitm1 : qlaw QNum := demo_at MeeWithA along 5 10 10 (1 # 2) 1.
Definition p_exitm1 : problem QNum := demo_problem 10 (1 # 2) 1 1.
Lemma run_exitm1 : exists o' h, ran 10 o_exitm1 no_eta no_eta p_exitm1 o' h /\
  q_exitcode o' = (-1)%Z /\ length (h_controls h) = 2%nat.
Proof. run. Qed.
(** Out of time after three steps. *)
Definition o_exitm2 : qlaw QNum := demo_at MeeWithA along 5 10 (3 # 4) (1 # 10) (1 # 100).
Definition p_exitm2 : problem QNum := demo_problem (3 # 4) (1 # 10) (1 # 100) 1.
Lemma run_exitm2 : exists o' h, ran 10 o_exitm2 no_eta no_eta p_exitm2 o' h /\
  q_exitcode o' = (-2)%Z /\ length (h_controls h) = 3%nat.
Proof. run. Qed.
(** Nan angles on every step, threshold 2. *)
Definition o_exitm3 : qlaw QNum := demo_at MeeWithA nowhere 5 2 10 (1 # 10) (1 # 100).
Lemma run_exitm3 : exists o' h, ran 10 o_exitm3 no_eta no_eta p_exit1 o' h /\
  q_exitcode o' = (-3)%Z /\ length (h_controls h) = 2%nat.
Proof. run. Qed.
(** Keplerian object (the clamp is active: the angles start above their lower bound, the run ends on
    time). *)
Definition o_kep : qlaw QNum := demo_at Keplerian along 5 10 (3 # 4) (1 # 10) (1 # 100).
Lemma run_kep : exists o' h, ran 10 o_kep no_eta no_eta p_exitm2 o' h /\
  q_exitcode o' = (-2)%Z /\ length (h_controls h) = 3%nat.
Proof. run. Qed.

(** An object made by the constructor and set_problem: equinoctial elements, target already met.
    Q = 0, so the control direction is 0/0: the first step coasts and the run converges. *)
Definition o_built : Res (qlaw QNum) :=
  do o <- init (N:=QNum) q1 q1 q1 q1 q1 q1 q1 q0 "mee_with_a" "rk4" 4 None None None 10 false None (qq 10) 5;
  set_problem (N:=QNum) o [q1; qq (1 # 10); qq (1 # 10); qq (1 # 10); qq (1 # 10); q0]
    [q1; qq (1 # 10); qq (1 # 10); qq (1 # 10); qq (1 # 10)] q1 (qq (1 # 100)) (qq (1 # 100))
    (qq 10) (qq (1 # 4)) (qq (1 # 10)) None (qq 100) q0 q1 q0 q1 q1 q1 false.
Definition get {A} (d : A) (r : Res A) : A := match r with Ok x => x | Err _ => d end.
Definition o_built' : qlaw QNum := get o_exit1 o_built.

(** Second solve on the converged object: another target, one step of time. *)
Definition o_second (o1 : qlaw QNum) : Res (qlaw QNum) :=
  set_problem (N:=QNum) o1 [q1; qq (1 # 10); qq (1 # 10); qq (1 # 10); qq (1 # 10); q0]
    [qq 2; qq (1 # 10); qq (1 # 10); qq (1 # 10); qq (1 # 10)] q1 q0 q0
    (qq (1 # 4)) (qq (1 # 4)) (qq (1 # 10)) None (qq 100) q0 q1 q0 q1 q1 q1 false.
Definition returned (d : qlaw QNum) (s : sres QNum) : qlaw QNum :=
  match s with Returns o => o | _ => d end.
Definition o_first : qlaw QNum := returned o_exit1 (solve 10 o_built' no_eta no_eta).
Definition is_ret (s : sres QNum) : bool := match s with Returns _ => true | _ => false end.
Lemma is_ret_eq d s : is_ret s = true -> s = Returns (returned d s).
Proof. destruct s; intros; try discriminate. reflexivity. Qed.
Lemma is_ok_eq {A} (d : A) r : is_ok r = true -> r = Ok (get d r).
Proof. destruct r; intros; try discriminate. reflexivity. Qed.
Lemma built_ok : o_built = Ok o_built'.
Proof. apply is_ok_eq. vm_compute. reflexivity. Qed.
Lemma first_ret : solve 10 o_built' no_eta no_eta = Returns o_first.
Proof. apply is_ret_eq. vm_compute. reflexivity. Qed.

Lemma C08_refuted_lem : exists (o1 o2 o3 : qlaw QNum) h p,
  (exists o0, o_built = Ok o0 /\ solve 10 o0 no_eta no_eta = Returns o1 /\ q_exitcode o1 = 1%Z) /\
  set_problem (N:=QNum) o1 [q1; qq (1 # 10); qq (1 # 10); qq (1 # 10); qq (1 # 10); q0]
    [qq 2; qq (1 # 10); qq (1 # 10); qq (1 # 10); qq (1 # 10)] q1 q0 q0
    (qq (1 # 4)) (qq (1 # 4)) (qq (1 # 10)) None (qq 100) q0 q1 q0 q1 q1 q1 false = Ok o2 /\
  ran 10 o2 no_eta no_eta p o3 h /\ length (h_controls h) = 1%nat /\
  q_exitcode o3 = 1%Z /\ q_converge o3 = true /\
  forall z, In z (h_states h) -> strict o2 p z = Ok false.
Proof.
  set (o2 := get o_exit1 (o_second o_first)).
  assert (E2 : o_second o_first = Ok o2) by (apply is_ok_eq; vm_compute; reflexivity).
  assert (P : exists p, q_problem o2 = Some p).
  { destruct (q_problem o2) as [p|] eqn:E; [eauto|]. exfalso. revert E. vm_compute. discriminate. }
  destruct P as [p Hp].
  assert (R : exists o' h, ran 10 o2 no_eta no_eta p o' h /\
     (length (h_controls h) = 1%nat /\ q_exitcode o' = 1%Z /\ q_converge o' = true /\
      map (fun z => match q_problem o2 with Some p => strict o2 p z | None => Ok true end) (h_states h) = [Ok false; Ok false])).
  { apply ran_of; [exact Hp|]. vm_compute. repeat split; reflexivity. }
  destruct R as (o3 & h & R & L & X & C & S).
  exists o_first, o2, o3, h, p. split; [exists o_built'; split; [exact built_ok|split; [exact first_ret|vm_compute; reflexivity]]|].
  split; [exact E2|]. split; [exact R|]. split; [exact L|]. split; [exact X|]. split; [exact C|].
  intros z Hz. rewrite Hp in S.
  assert (In (strict o2 p z) [Ok false; Ok false]) by (rewrite <- S; apply (in_map (fun z => strict o2 p z)); exact Hz).
  destruct H as [H|[H|[]]]; symmetry; exact H.
Qed.

Lemma built_facts : built MeeWithA o_built' /\ fresh o_built' /\ exists p, q_problem o_built' = Some p.
Proof.
  pose proof built_ok as E. unfold o_built, bind in E.
  match type of E with (match ?i with Ok _ => _ | Err _ => _ end) = _ => destruct i as [oi|e] eqn:Ei end; [|discriminate].
  destruct (init_built _ _ _ _ _ _ _ _ _ _ _ _ _ _ _ _ _ _ _ _ Ei) as (et & Et & B & F & _).
  injection Et as <-. pose proof (set_problem_built _ _ _ _ _ _ _ _ _ _ _ _ _ _ _ _ _ _ _ _ B E) as B'.
  destruct (set_problem_with _ _ _ _ _ _ _ _ _ _ _ _ _ _ _ _ _ _ _ E) as (p & Eo & _).
  split; [exact B'|]. rewrite Eo. split; [exact F|]. exists p. reflexivity.
Qed.
Lemma run_built : exists p o' h, ran 10 o_built' no_eta no_eta p o' h /\ q_exitcode o' = 1%Z /\
  length (h_controls h) = 1%nat.
Proof.
  destruct built_facts as (_ & _ & p & Hp). exists p. apply ran_of; [exact Hp|]. vm_compute. repeat split; reflexivity.
Qed.

(** What the constructor and set_problem store, and the default problem. *)
From Coq Require Import Reals ZArith String List Bool Lia Lra.
From Verif Require Import RMath Num Base Elements Integrate Eom Convergence Lyapunov Perturb Qlaw Trace Spec XSpec
  SolveProofs GateProofs StateProofs XTrace XSolve RunSpec RunProofs XReason.
Import ListNotations.
Local Open Scope list_scope.

Section D.
Context {N : Num}.
Lemma list5 l (v : vec5 N) : list_to_vec5 l = Some v -> vec5_to_list v = l.
Proof.
  destruct l as [|a [|b [|c [|d [|e [|f l]]]]]]; try discriminate. intros H. injection H as <-. reflexivity.
Qed.
Lemma list6 l (v : vec6 N) : list_to_vec6 l = Some v -> vec6_to_list v = l.
Proof.
  destruct l as [|a [|b [|c [|d [|e [|f [|g l]]]]]]]; try discriminate. intros H. injection H as <-. reflexivity.
Qed.

Lemma init_stores mu rpmin k m n r b wp et ig grid tol omin omax thr sun ptrb rf ear (o : qlaw N) :
  init mu rpmin k m n r b wp et ig grid tol omin omax thr sun ptrb rf ear = Ok o ->
  q_mu o = mu /\ q_rpmin o = rpmin /\ q_k o = k /\ q_m o = m /\ q_n o = n /\ q_r o = r /\ q_b o = b /\ q_wp o = wp /\
  (et = "keplerian"%string /\ q_etype o = Keplerian \/ et = "mee_with_a"%string /\ q_etype o = MeeWithA) /\
  (ig = "rk4"%string /\ q_integ o = RK4 \/ ig = "rkf45"%string /\ q_integ o = RKF45) /\
  q_grid o = grid /\ q_nan_thr o = thr /\ q_sundman o = sun /\ q_ptrb o = ptrb /\ q_exit_relaxed o = ear /\
  vec5_to_list (q_tol o) = match tol with Some l => l | None => repeat (dec 1 3) 5 end /\
  vec5_to_list (q_tol_relaxed o) = map (nmul rf) (vec5_to_list (q_tol o)) /\
  vec5_to_list (q_oe_min o) = match omin with
    | Some v => vec5_to_list v
    | None => match q_etype o with
              | Keplerian => [dec 5 2; dec 1 4; dec 1 4; dec 1 4; dec 1 4]
              | MeeWithA => [dec 5 2; nopp ninf; nopp ninf; nopp ninf; nopp ninf] end end /\
  vec5_to_list (q_oe_max o) = match omax with
    | Some v => vec5_to_list v
    | None => match q_etype o with
              | Keplerian => [nofZ 100; dec 95 2; npi; ninf; ninf]
              | MeeWithA => [nofZ 100; nofZ 10; nofZ 10; ninf; ninf] end end /\
  q_step_min o = dec 1 4 /\ q_step_max o = nofZ 2 /\ q_ode_tol o = dec 1 5 /\
  q_problem o = None /\ q_hist o = None /\ q_converge o = false /\ q_exitcode o = 0%Z.
Proof.
  unfold init, etype_of_string, integ_of_string. intros H. repeat (destruct (negb _); [discriminate|]).
  destruct (String.eqb_spec et "keplerian"), (String.eqb_spec et "mee_with_a"),
      (String.eqb_spec ig "rk4"), (String.eqb_spec ig "rkf45"); try congruence; cbn [bind] in H; try discriminate;
    (destruct tol as [l|]; [destruct (list_to_vec5 l) as [v|] eqn:El; [|discriminate]; pose proof (list5 _ _ El) as E5|]);
    cbn [bind] in H; injection H as <-; cbn;
    repeat match goal with |- _ /\ _ => split end; auto; try (destruct omin); try (destruct omax); auto;
    destruct v; reflexivity.
Qed.

Lemma set_problem_stores (o o' : qlaw N) oe0 oeT mass0 tmax mdot tf ts mm woe don doff b0 lo hi ch dis full :
  set_problem o oe0 oeT mass0 tmax mdot tf ts mm woe don doff b0 lo hi ch dis full = Ok o' ->
  exists p, o' = with_run o (Some p) (q_hist o) (q_converge o) (q_exitcode o) /\
    vec6_to_list (p_oe0 p) = oe0 /\ p_oeT p = (if Nat.eqb (length oeT) 6 then firstn 5 oeT else oeT) /\
    p_mass0 p = mass0 /\ p_tmax p = tmax /\ p_mdot p = mdot /\ p_tf_max p = tf /\ p_t_step p = ts /\ p_mass_min p = mm /\
    vec5_to_list (p_woe p) = match woe with Some l => l | None => repeat (nofZ 1) 5 end /\
    p_duty_on p = don /\ p_duty_off p = doff /\ p_batt0 p = b0 /\ p_cap_lo p = lo /\ p_cap_hi p = hi /\
    p_charge p = ch /\ p_discharge p = dis /\ p_full p = full.
Proof.
  unfold set_problem. destruct (list_to_vec6 oe0) as [v|] eqn:E6; [|discriminate]. destruct (negb _); [discriminate|].
  pose proof (list6 _ _ E6) as E6'. destruct woe as [l|].
  - destruct (list_to_vec5 l) as [w|] eqn:E5; [|discriminate]. pose proof (list5 _ _ E5). cbn [bind]. intros H0. injection H0 as <-.
    eexists. split; [reflexivity|]. cbn. repeat split; auto.
  - cbn [bind]. intros H0. injection H0 as <-. eexists. split; [reflexivity|]. cbn. repeat split; auto.
Qed.

Lemma set_problem_keeps (o o' : qlaw N) oe0 oeT mass0 tmax mdot tf ts mm woe don doff b0 lo hi ch dis full :
  set_problem o oe0 oeT mass0 tmax mdot tf ts mm woe don doff b0 lo hi ch dis full = Ok o' ->
  exists p, q_problem o' = Some p /\
    with_run o' (q_problem o) (q_hist o) (q_converge o) (q_exitcode o) = with_run o (q_problem o) (q_hist o) (q_converge o) (q_exitcode o) /\
    q_hist o' = q_hist o /\ q_converge o' = q_converge o /\ q_exitcode o' = q_exitcode o.
Proof.
  intros H. apply set_problem_stores in H as (p & -> & _). exists p. repeat split; reflexivity.
Qed.

(** The adaptive-step limits never change. *)
Lemma reachable_steps (o : qlaw N) : reachable o -> q_step_min o = dec 1 4 /\ q_step_max o = nofZ 2.
Proof.
  induction 1 as [* H|* R IH H|* R IH H|* R IH H|* R IH H].
  - apply init_built in H as (e & _ & _ & _ & _ & _ & A & B & _). auto.
  - apply set_problem_stores in H as (p & -> & _). exact IH.
  - unfold solve in H. destruct (q_problem o) as [p|].
    + destruct ea; try (destruct H as [H|[e H]]; [discriminate|injection H as _ <-; exact IH]).
      all: destruct (loop _ _ _ _ _ _); destruct H as [H|[e' H]]; try discriminate.
      all: try (injection H as <-; exact IH). all: injection H as _ <-; exact IH.
    + destruct H as [H|[e H]]; [discriminate|]. injection H as _ <-. exact IH.
  - unfold set_mu in H. destruct (negb _); [discriminate|]. injection H as <-. exact IH.
  - unfold set_integrator in H. destruct (integ_of_string s); [|discriminate]. injection H as <-. exact IH.
Qed.
End D.

Local Open Scope R_scope.
Lemma xdec m e : dec (N:=XNum) m e = Fin (IZR m / 10 ^ e).
Proof. apply xdec_gen. Qed.

Definition par_default (mass0 mdot : R) : params :=
  mkpar mass0 mdot 100000 (1 / 10 ^ 1) (1 / 10 ^ 1) (IZR (10 ^ 16)) 0 1 (2 / 10 ^ 1) 1 0 0 false.

Lemma defaults_regular (o o' : qlaw XNum) oe0 oeT mass0 tmax mdot : reachable o -> q_sundman o = false ->
  set_problem_defaults o oe0 oeT (Fin mass0) tmax (Fin mdot) = Ok o' ->
  exists p, q_problem o' = Some p /\ regular o' p (par_default mass0 mdot).
Proof.
  intros R S H. destruct (reachable_steps o R) as [S1 S2]. apply set_problem_stores in H as (p & -> & H). exists p.
  split; [reflexivity|]. destruct H as (_ & _ & F1 & _ & F2 & F3 & F4 & F5 & _ & F6 & F7 & F8 & F9 & F10 & F11 & F12 & F13).
  split; [|split; [exact S|]].
  - unfold finite_problem, par_default. cbn [a_mass0 a_mdot a_tf a_ts a_mmin a_on a_off a_b0 a_lo a_hi a_ch a_dis a_full].
    rewrite F1, F2, F3, F4, F5, F6, F7, F8, F9, F10, F11, F12, F13, !xdec. repeat split; reflexivity.
  - exists (1 / 10 ^ 4), 2. cbn [q_step_min q_step_max with_run]. rewrite S1, S2, xdec. split; [reflexivity|]. split; [reflexivity|].
    simpl. lra.
Qed.

Lemma default_coasts (o o' : qlaw XNum) oe0 oeT mass0 tmax mdot ea er fuel o2 p h k : reachable o -> q_sundman o = false ->
  set_problem_defaults o oe0 oeT (Fin mass0) tmax (Fin mdot) = Ok o' ->
  ran fuel o' ea er p o2 h -> throttle h k 0 -> law_coasts o' p ea er h k.
Proof.
  intros R S H Rn T. destruct (defaults_regular o o' oe0 oeT mass0 tmax mdot R S H) as (p' & P & Rg).
  assert (p' = p) by (destruct Rn as (_ & Hp & _); congruence). subst p'.
  eapply unlimited; try eassumption; cbn [par_default a_tf a_on a_off a_ts a_dis a_ch a_lo a_b0 a_hi]; try lra.
  - rewrite Rabs_pos_eq by lra. change (100000 <= IZR (10 ^ 16)). lra.
Qed.

Lemma default_coasts_nan (o o' : qlaw XNum) oe0 oeT mass0 tmax mdot fuel o2 p h k : reachable o -> q_sundman o = false ->
  set_problem_defaults o oe0 oeT (Fin mass0) tmax (Fin mdot) = Ok o' ->
  ran fuel o' (EtaFloat eta_default) (EtaFloat eta_default) p o2 h -> throttle h k 0 ->
  exists t dt m oe, nth_error (h_times h) k = Some t /\ nth_error (h_times h) (S k) = Some (nadd (Num:=XNum) t dt) /\
    nth_error (h_masses h) k = Some m /\ nth_error (h_states h) k = Some oe /\ nan_at o' p (thrust_acc p dt m) oe.
Proof.
  intros R S H Rn T.
  destruct (default_coasts o o' oe0 oeT mass0 tmax mdot _ _ _ _ _ _ _ R S H Rn T)
    as (t & dt & m & b & oe & al & be & D & psi & q & qd & A1 & A2 & A3 & A4 & A5 & L & [X|(M & mn & _ & G & _)]).
  - exists t, dt, m, oe. do 4 (split; [assumption|]). exists al, be, D, psi, q, qd. split; [exact L|exact X].
  - exfalso. unfold threshold, eta_default in G. cbn [nltb XNum nofZ xltb] in G.
    assert (E : Rltb 0 0 = false) by (apply Rltb_false; lra). rewrite E in G. discriminate.
Qed.

(** QLaw() and set_problem with five arguments succeed. *)
Lemma default_case : exists o o', init_defaults (N:=XNum) = Ok o /\ reachable o /\ q_sundman o = false /\
  set_problem_defaults (N:=XNum) o [Fin 1; Fin 0; Fin 0; Fin 0; Fin 0; Fin 0] [Fin 2; Fin 0; Fin 0; Fin 0; Fin 0] (Fin 1) (Fin 1) (Fin 1) = Ok o'.
Proof.
  assert (H : exists o, init_defaults (N:=XNum) = Ok o /\ q_sundman o = false).
  { assert (E1 : nleb (Num:=XNum) (nofZ 1) (nofZ 10) = true).
    { cbn. apply orb_true_iff. left. apply Rltb_true. lra. }
    assert (E2 : nltb (Num:=XNum) (nofZ 0) (nofZ 1) = true) by (cbn; apply Rltb_true; lra).
    unfold init_defaults, init. rewrite E1, E2. cbn [negb]. eexists. split; reflexivity. }
  destruct H as (o & E & S). exists o. eexists. split; [exact E|]. split; [eapply re_init; exact E|]. split; [exact S|].
  assert (E1 : nleb (Num:=XNum) (dec (N:=XNum) 1 2) (dec (N:=XNum) 1 1) = true).
  { rewrite !xdec. cbn. apply orb_true_iff. left. apply Rltb_true. lra. }
  unfold set_problem_defaults, set_problem. rewrite E1. cbn [negb list_to_vec6 bind]. reflexivity.
Qed.

Lemma defaults_stored {N : Num} (o1 o : qlaw N) oe0 oeT mass0 tmax mdot :
  init_defaults = Ok o1 -> set_problem_defaults o1 oe0 oeT mass0 tmax mdot = Ok o ->
  q_mu o = nofZ 1 /\ q_rpmin o = dec 1 1 /\ q_k o = nofZ 1 /\ q_m o = nofZ 3 /\ q_n o = nofZ 4 /\ q_r o = nofZ 2 /\ q_b o = dec 1 2 /\
  q_wp o = nofZ 1 /\ q_etype o = MeeWithA /\ q_integ o = RK4 /\ q_grid o = 5%nat /\ q_nan_thr o = 10%Z /\ q_sundman o = false /\
  q_ptrb o = None /\ q_exit_relaxed o = 100%Z /\ vec5_to_list (q_tol_relaxed o) = repeat (nmul (nofZ 10) (dec 1 3)) 5 /\
  exists p, q_problem o = Some p /\ p_tf_max p = nofZ 100000 /\ p_t_step p = dec 1 1 /\ p_mass_min p = dec 1 1 /\
    vec5_to_list (p_woe p) = repeat (nofZ 1) 5 /\ p_duty_on p = nofZ (10 ^ 16) /\ p_duty_off p = nofZ 0 /\ p_batt0 p = nofZ 1 /\
    p_cap_lo p = dec 2 1 /\ p_cap_hi p = nofZ 1 /\ p_charge p = nofZ 0 /\ p_discharge p = nofZ 0 /\ p_full p = false.
Proof.
  intros H1 H2. apply set_problem_stores in H2 as (p & -> & _ & _ & _ & _ & _ & P).
  unfold init_defaults in H1. apply init_stores in H1.
  destruct H1 as (A1 & A2 & A3 & A4 & A5 & A6 & A7 & A8 & B1 & B2 & A9 & A10 & A11 & A12 & A13 & B3 & B4 & _).
  cbn [q_mu q_rpmin q_k q_m q_n q_r q_b q_wp q_etype q_integ q_grid q_nan_thr q_sundman q_ptrb q_exit_relaxed q_tol_relaxed q_problem with_run].
  do 8 (split; [assumption|]). split; [destruct B1 as [[B _]|[_ B]]; [discriminate|exact B]|].
  split; [destruct B2 as [[_ B]|[B _]]; [exact B|discriminate]|]. do 5 (split; [assumption|]).
  split; [rewrite B4, B3; reflexivity|]. exists p. split; [reflexivity|].
  destruct P as (P1 & P2 & P3 & P4 & P5 & P6 & P7 & P8 & P9 & P10 & P11 & P12). repeat split; assumption.
Qed.

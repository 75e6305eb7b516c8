(** Vocabulary of the property statements about runs of [solve]. *)
From Coq Require Import ZArith List Bool.
From Verif Require Import Num Base Convergence Eom Lyapunov SymKep SymMee Perturb Qlaw.
Import ListNotations.

Section Spec.
Context {N : Num}.

(** "solve() was called on [o], whose problem was [p], and returned; the object is now [o'] with
    histories [h]". *)
Definition ran (fuel : nat) (o : qlaw N) (ea er : eta_arg N) (p : problem N) (o' : qlaw N) (h : hist N) : Prop :=
  solve fuel o ea er = Returns o' /\ q_problem o = Some p /\ q_hist o' = Some h.

(** An object whose outcome flags are still those of the constructor. *)
Definition fresh (o : qlaw N) : Prop := q_converge o = false /\ q_exitcode o = 0%Z.

(** The same object with the outcome flags of a new one. *)
Definition reset (o : qlaw N) : qlaw N := with_run o (q_problem o) None false 0.

(** The strict / relaxed convergence verdict on an element vector. *)
Definition strict (o : qlaw N) (p : problem N) (oe : vec6 N) : Res bool :=
  q_check o oe (p_oeT p) (p_woe p) (q_tol o).
Definition relaxed (o : qlaw N) (p : problem N) (oe : vec6 N) : Res bool :=
  q_check o oe (p_oeT p) (p_woe p) (q_tol_relaxed o).

(** What an element vector looks like in the history once the next step has started: Keplerian
    vectors have been clamped in place, equinoctial ones are untouched. *)
Definition guarded (o : qlaw N) (oe : vec6 N) : vec6 N :=
  match q_etype o with
  | Keplerian => elements_safety oe (q_oe_min o) (q_oe_max o)
  | MeeWithA => oe
  end.

(** [raws o oe0 h zs]: [zs] are the element vectors produced by the integrator, one per recorded
    step; the recorded states are oe0 followed by [zs], each clamped once a later step used it.
    The last one is clamped only when the run stopped on nan angles. *)
Definition raws (o : qlaw N) (oe0 : vec6 N) (h : hist N) (zs : list (vec6 N)) : Prop :=
  exists init lastz, oe0 :: zs = init ++ [lastz] /\
    (h_states h = map (guarded o) init ++ [lastz] \/
     h_states h = map (guarded o) init ++ [guarded o lastz]).

(** [meets et oe T w tol]: every element of [oe] with a non-zero weight is within its tolerance of the
    target [T]; Keplerian right ascension and argument of periapsis (slots 3 and 4) are compared through
    arccos (cos .), the others directly. *)
Definition near (w tol gap : car) : Prop := neqb w (nofZ 0) = true \/ nleb gap tol = true.
Definition meets (et : etype) (oe : vec6 N) (T : list car) (w tol : vec5 N) : Prop :=
  let 'mk6 o0 o1 o2 o3 o4 _ := oe in
  let 'mk5 w0 w1 w2 w3 w4 := w in
  let 'mk5 t0 t1 t2 t3 t4 := tol in
  exists T0 T1 T2 T3 T4 rest, T = T0 :: T1 :: T2 :: T3 :: T4 :: rest /\
    near w0 t0 (nabs (nsub T0 o0)) /\ near w1 t1 (nabs (nsub T1 o1)) /\ near w2 t2 (nabs (nsub T2 o2)) /\
    match et with
    | Keplerian => near w3 t3 (nabs (nacos (ncos (nsub T3 o3)))) /\ near w4 t4 (nabs (nacos (ncos (nsub T4 o4))))
    | MeeWithA => near w3 t3 (nabs (nsub T3 o3)) /\ near w4 t4 (nabs (nsub T4 o4))
    end.

(** The object's dynamics, control law, rate function and convergence test are those of [et]. *)
Definition built (et : etype) (o : qlaw N) : Prop :=
  q_etype o = et /\
  q_eom o = match et with Keplerian => eom_kep_gauss | MeeWithA => eom_mee_with_a_gauss end /\
  q_lyap o = match et with Keplerian => lyap_keplerian | MeeWithA => lyap_mee_with_a end /\
  q_dqdt o = match et with Keplerian => dqdt_keplerian | MeeWithA => dqdt_mee_with_a end /\
  q_check o = match et with Keplerian => check_convergence_keplerian | MeeWithA => check_convergence_mee end.

(** Objects obtained from the constructor by set_problem, solve (whether it returns or raises) and
    assignments to mu and integrator. *)
Inductive reachable : qlaw N -> Prop :=
| re_init mu rpmin k m n r b wp et ig grid tol omin omax thr sun ptrb rf ear o :
    init mu rpmin k m n r b wp et ig grid tol omin omax thr sun ptrb rf ear = Ok o -> reachable o
| re_problem o o' oe0 oeT mass0 tmax mdot tf ts mm woe don doff b0 lo hi ch dis full : reachable o ->
    set_problem o oe0 oeT mass0 tmax mdot tf ts mm woe don doff b0 lo hi ch dis full = Ok o' -> reachable o'
| re_solve o o' fuel ea er : reachable o ->
    (solve fuel o ea er = Returns o' \/ exists e, solve fuel o ea er = Raises e o') -> reachable o'
| re_mu o o' mu : reachable o -> set_mu o mu = Ok o' -> reachable o'
| re_integ o o' s : reachable o -> set_integrator o s = Ok o' -> reachable o'.

(** Componentwise order on the five slow elements. *)
Definition le5 (u v : vec5 N) : Prop :=
  let 'mk5 a0 a1 a2 a3 a4 := u in let 'mk5 b0 b1 b2 b3 b4 := v in
  nleb a0 b0 = true /\ nleb a1 b1 = true /\ nleb a2 b2 = true /\ nleb a3 b3 = true /\ nleb a4 b4 = true.

Definition okb (r : Res bool) : bool := match r with Ok true => true | _ => false end.
(** How many of the vectors [zs] meet the relaxed tolerance. *)
Definition count_relaxed (o : qlaw N) (p : problem N) (zs : list (vec6 N)) : Z :=
  Z.of_nat (length (filter (fun z => okb (relaxed o p z)) zs)).

(** What the threshold argument [e] of solve() demands at a step: a number is used as it is, a function is called with
    time, elements, mass and battery in this order, anything else counts as nan. *)
Definition threshold (e : eta_arg N) (t : car) (oe : vec6 N) (mass batt : car) : car :=
  match e with EtaFloat v => v | EtaFun f => f t oe mass batt | EtaOther => nnan end.

(** The control law called at elements [oe] with thrust acceleration [acc] answers with a nan angle. *)
Definition nan_at (o : qlaw N) (p : problem N) (acc : car) (oe : vec6 N) : Prop :=
  exists al be u psi q qd, 
    lyapunov_control_angles (q_lyap o) (q_mu o) acc oe (p_oeT p) (q_rpmin o) (q_m o) (q_n o) (q_r o) (q_b o) (q_k o)
      (q_wp o) (p_woe p) = Ok (al, be, u, psi, q, qd) /\
    (nisnan al || nisnan be)%bool = true.

(** The step that solve() takes from elements [oe] with battery level [b]: the configured one (that of Sundman's
    transformation if it is in use), or, if that would drain a battery that is not empty, the time left until it is. *)
Definition takes_step (o : qlaw N) (p : problem N) (oe : vec6 N) (b dt : car) : Prop :=
  exists d, (if q_sundman o then local_step o p oe = Ok d else d = p_t_step p) /\
    (dt = d \/ nleb b (p_cap_lo p + dec 1 12)%num = false /\ nltb (b - p_discharge p * d)%num (p_cap_lo p) = true /\
     dt = ((b - p_cap_lo p) / p_discharge p)%num).
End Spec.

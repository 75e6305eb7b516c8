(** Cases for C99: a Keplerian iteration that thrusts, and an equinoctial state at which the law leaves the plane although h and k have
    no weight: a = 1, f = g = 1/2, h = 1, k = 0, L = pi/2, weight on f only. *)
From Coq Require Import Reals Lra Lia ZArith List Bool Psatz.
From Verif Require Import RMath RLib DLib Num Base Elements Integrate Eom Convergence Lyapunov Symbolic SymKep SymMee Perturb Qlaw Spec RSpec LawSpec MaxSpec EffSpec
  ElemProofs DiffProofs CtlProofs KepQ MeeQ LawProofs GaussProofs LawRuns EffProofs EffRuns FinSpec FinProofs FinRuns NanRun ZeroSpec ZeroCase MirrorSpec PlaneSpec PlaneProofs.
Import ListNotations.
Local Open Scope R_scope.

Lemma C99_case : let o := qlaw_for T_free (o_kink 0) in let p := problem_for T_free p_kink in
  built Keplerian o /\ q_problem o = Some p /\ no_plane_weight (p_woe p) /\ pulls_in_orbit o /\ plane_in_bounds o (p_oe0 p) /\
  exists c s pl, plan o p s = Ok pl /\ s = safety o (init_state p) /\ control o p zeta zeta s pl (accel_thrust p (pl_dt pl) (l_mass s)) = Ok (Ctl c) /\ c_thr c = 1%Z.
Proof.
  intros o p. split; [repeat split|]. split; [reflexivity|]. split; [repeat split|]. split; [intros f t oe et v E; discriminate E|].
  split; [|exact free_steers]. pose proof (kink_guarded 0) as G. change (guarded o (p_oe0 p) = p_oe0 p) in G. unfold plane_in_bounds. rewrite G. split; reflexivity.
Qed.

Definition oe_tilt : vec6 RNum := elems 1 (1 / 2) (1 / 2) 1 0 (PI / 2).
Definition p_tilt : problem XNum :=
  @mkproblem XNum (fin6 oe_tilt) (map Fin (LawSpec.list5 T_eff)) (Fin 1) (Fin 1) (Fin 0) (Fin 10) (Fin 1) (Fin (1 / 10)) (fin5 (@mk5 RNum 0 1 0 0 0)) (Fin 100) (Fin 0) (Fin 1) (Fin 0) (Fin 1) (Fin 0) (Fin 0) false.
Lemma tilt_holds : holds o_fin p_tilt (Fin 1) (lw 1).
Proof. repeat split; reflexivity. Qed.
Lemma tilt_regular : regular MeeWithA (lw 1) oe_tilt.
Proof. split; [exact (eff_sound 1 one_one)|]. cbn. repeat split; lra. Qed.
Lemma Q_tilt a f g h k : 0 < a -> f * f + g * g < 1 ->
  Qof (lyap_mee_with_a (N:=RNum)) (lw 1) (elems a f g h k (PI / 2)) = f * f / (4 * a * (1 - f * f - g * g)).
Proof. exact (Q_eff 1 one_one a f g h k). Qed.
Lemma tilt_dq : eval5 (N:=RNum) (env_of (lw 1) oe_tilt) (dqdoe SymMee.q) = @mk5 RNum (- (1 / 8)) (3 / 4) (1 / 4) 0 0.
Proof.
  destruct tilt_regular as (Sd & St & Sm & _).
  pose proof (partials_lem SymMee.psi SymMee.q (lw 1) oe_tilt (mee_S (lw 1) oe_tilt Sd St Sm)) as Pt.
  unfold partials, oe_tilt at 1, elems at 1 in Pt. destruct (eval5 (N:=RNum) (env_of (lw 1) oe_tilt) (dqdoe SymMee.q)) as [d0 d1 d2 d3 d4]. cbn in d0, d1, d2, d3, d4.
  destruct Pt as (D0 & D1 & D2 & D3 & D4).
  assert (V0 : d0 = - (1 / 8)).
  { eapply uniqueness_limite; [exact D0|]. eapply (dlocal _ _ _ _ (1 / 4)); [lra| |].
    - intros t Ht. symmetry. apply Q_tilt; [apply near_one, Ht|lra].
    - eapply dval; [|apply (d_inv_a (1 - 1 / 2 * (1 / 2) - 1 / 2 * (1 / 2))); lra]. field. }
  assert (V1 : d1 = 3 / 4).
  { eapply uniqueness_limite; [exact D1|]. eapply (dlocal _ _ _ _ (1 / 8)); [lra| |].
    - intros t Ht. symmetry. apply Q_tilt; [lra|]. apply Rabs_def2 in Ht. nra.
    - eapply dval; [|apply (d_div (fun t => t * t) (fun t => 4 * 1 * (1 - t * t - 1 / 2 * (1 / 2))) (1 / 2) (1 * (1 / 2) + 1 / 2 * 1) (- 4))]; [field| | |lra].
      + apply (d_mult (fun t => t) (fun t => t) (1 / 2) 1 1); apply d_id.
      + eapply dval; [|apply (d_mult (fun _ => 4 * 1) (fun t => 1 - t * t - 1 / 2 * (1 / 2)) (1 / 2) 0 (- 1)); [apply d_const|]]; [ring|].
        eapply dval; [|apply (d_minus (fun t => 1 - t * t) (fun _ => 1 / 2 * (1 / 2)) (1 / 2) (- 1) 0); [|apply d_const]]; [ring|].
        eapply dval; [|apply (d_minus (fun _ => 1) (fun t => t * t) (1 / 2) 0 1); [apply d_const|]]; [ring|].
        eapply dval; [|apply (d_mult (fun t => t) (fun t => t) (1 / 2) 1 1); apply d_id]. field. }
  assert (V2 : d2 = 1 / 4).
  { eapply uniqueness_limite; [exact D2|]. eapply (dlocal _ _ _ _ (1 / 8)); [lra| |].
    - intros t Ht. symmetry. apply Q_tilt; [lra|]. apply Rabs_def2 in Ht. nra.
    - eapply dval; [|apply (d_div (fun _ => 1 / 2 * (1 / 2)) (fun t => 4 * 1 * (1 - 1 / 2 * (1 / 2) - t * t)) (1 / 2) 0 (- 4))]; [field|apply d_const| |lra].
      eapply dval; [|apply (d_mult (fun _ => 4 * 1) (fun t => 1 - 1 / 2 * (1 / 2) - t * t) (1 / 2) 0 (- 1)); [apply d_const|]]; [ring|].
      eapply dval; [|apply (d_minus (fun _ => 1 - 1 / 2 * (1 / 2)) (fun t => t * t) (1 / 2) 0 1); [apply d_const|]]; [ring|].
      eapply dval; [|apply (d_mult (fun t => t) (fun t => t) (1 / 2) 1 1); apply d_id]. field. }
  assert (V3 : d3 = 0).
  { eapply uniqueness_limite; [exact D3|]. eapply (dlocal (fun _ => 1 / 2 * (1 / 2) / (4 * 1 * (1 - 1 / 2 * (1 / 2) - 1 / 2 * (1 / 2)))) _ _ _ 1); [lra| |apply d_const].
    intros t _. symmetry. apply Q_tilt; lra. }
  assert (V4 : d4 = 0).
  { eapply uniqueness_limite; [exact D4|]. eapply (dlocal (fun _ => 1 / 2 * (1 / 2) / (4 * 1 * (1 - 1 / 2 * (1 / 2) - 1 / 2 * (1 / 2)))) _ _ _ 1); [lra| |apply d_const].
    intros t _. symmetry. apply Q_tilt; lra. }
  subst. reflexivity.
Qed.
Lemma tilt_out : exists out, ask (lyap_of_etype (N:=RNum) MeeWithA) (lw 1) oe_tilt = Ok out /\ (v3_0 (lo_u out) <> 0 \/ v3_1 (lo_u out) <> 0) /\ v3_2 (lo_u out) <> 0.
Proof.
  destruct (C90_law_lem MeeWithA (lw 1) oe_tilt tilt_regular) as (out & E & _). exists out. split; [exact E|].
  assert (U : lo_u out = gradient_at MeeWithA (lw 1) oe_tilt (v6_5 oe_tilt)) by (rewrite here, E; reflexivity).
  rewrite U. rewrite grad_val. change (qsym_of MeeWithA) with SymMee.q. rewrite tilt_dq. change (psi_of MeeWithA) with SymMee.psi.
  unfold oe_tilt, with_anomaly, elems. cbn [v6_5]. change (@mk6 RNum 1 (1 / 2) (1 / 2) 1 0 (PI / 2)) with (elems 1 (1 / 2) (1 / 2) 1 0 (PI / 2)).
  rewrite evalpsi_mee; [|cbn; lra|lra|lra|lra]. change (g_mu (lw 1)) with 1. unfold mee_psi. cbv zeta. rewrite cos_PI2, sin_PI2.
  replace (1 * (1 - 1 / 2 * (1 / 2) - 1 / 2 * (1 / 2)) / 1) with (1 / 2) by field.
  assert (SD : side (1 / 2) = 1) by (unfold side; destruct (Rlt_dec 0 (1 / 2)); lra). rewrite SD.
  assert (Q : 0 < sqrt (1 / 2)) by (apply sqrt_lt_R0; lra). set (q := sqrt (1 / 2)) in *.
  unfold lin3, dot5R, vec. cbn [v5_0 v5_1 v5_2 v5_3 v5_4 v3_0 v3_1 v3_2]. split.
  - left. assert (S : q * q = 1 / 2) by (apply sqrt_sqrt; lra). intros Z. change (@car RNum) with R in *.
    apply (f_equal (fun x => x * q)) in Z.
    match type of Z with ?l = _ => replace l with (- (1 / 8) + 3 / 4 * (q * q)) in Z by (field; lra) end. rewrite S in Z. lra.
  - intros Z. change (@car RNum) with R in *. match type of Z with ?l = _ => replace l with (- (q / 6)) in Z by field end. lra.
Qed.
Lemma C99_mee_refuted_lem : exists (o : qlaw XNum) (p : problem XNum) pl (c : ctl_t XNum), built MeeWithA o /\ p_woe p = @mk5 XNum (Fin 0) (Fin 1) (Fin 0) (Fin 0) (Fin 0) /\
  control o p (eta 0) (eta 0) (init_state (N:=XNum) p) pl (Fin 1) = Ok (Ctl c) /\ c_thr c = 1%Z /\ exists x : R, v3_2 (c_u c) = Fin x /\ x <> 0.
Proof.
  destruct tilt_out as (out & E & I & Nz).
  destruct (C90_on_lem MeeWithA o_fin p_tilt (Fin 1) (lw 1) oe_tilt out (eta 0) (eta 0) (init_state (N:=XNum) p_tilt) pl_fin eq_refl tilt_holds tilt_regular E I) as (c & E1 & _ & T & Uc).
  - reflexivity.
  - reflexivity.
  - cbn. apply Rltb_false. lra.
  - cbn. apply Rltb_false. lra.
  - exists o_fin, p_tilt, pl_fin, c. split; [exact o_fin_built|]. split; [reflexivity|]. split; [exact E1|]. split; [exact T|].
    rewrite Uc. change (g_f (lw 1)) with 1. assert (P : 0 < norm (lo_u out)).
    { apply norm_pos_grad. intros Z. rewrite Z in Nz. apply Nz. reflexivity. }
    destruct (lo_u out) as [x y z]. cbn [v3_2] in Nz. unfold scale, fin3, vec. cbn [v3_2 v3_0 v3_1]. eexists. split; [reflexivity|].
    change (@car RNum) with R in *. intros Z. apply Rmult_integral in Z. destruct Z as [Z|Z]; [|exact (Nz Z)].
    unfold Rdiv in Z. apply Rmult_integral in Z. destruct Z as [Z|Z]; [lra|]. apply Rinv_neq_0_compat in Z; lra.
Qed.

(** A concrete state on which the effectivity theorems bite: weights on f only, target f = 0, the orbit
    a = 1, f = 1/2, g = h = k = 0, current location L = pi, two grid points (L = 2 pi and L = 3 pi). *)
From Coq Require Import Reals Lra Lia ZArith List Bool Psatz.
From Verif Require Import RMath RLib DLib Num Base Elements Integrate Eom Convergence Lyapunov Symbolic SymKep SymMee Perturb Qlaw Spec RSpec LawSpec MaxSpec EffSpec
  ElemProofs DiffProofs CtlProofs KepQ MeeQ LawProofs GaussProofs LawRuns EffProofs.
Import ListNotations.
Local Open Scope R_scope.

Definition T_eff : vec5 RNum := @mk5 RNum 2 0 0 0 0.
Definition oe_eff : vec6 RNum := elems 1 (1 / 2) 0 0 0 PI.
Definition o_eff : qlaw RNum :=
  @mkqlaw RNum 1 1 1 3 4 2 (1 / 100) 0 MeeWithA RK4 2
    (@mk5 RNum (1 / 1000) (1 / 1000) (1 / 1000) (1 / 1000) (1 / 1000)) (@mk5 RNum (1 / 100) (1 / 100) (1 / 100) (1 / 100) (1 / 100)) 200%Z
    (default_oe_min (N:=RNum) MeeWithA) (default_oe_max (N:=RNum) MeeWithA) 10%Z
    (eom_of (N:=RNum) MeeWithA) (lyap_of_etype (N:=RNum) MeeWithA) (dqdt_of_etype (N:=RNum) MeeWithA) (check_of (N:=RNum) MeeWithA)
    (1 / 10000) 2 (1 / 100000) false None None None false 0%Z.
Definition p_eff : problem RNum :=
  @mkproblem RNum oe_eff (list5 T_eff) 1 1 0 10 1 (1 / 10) (@mk5 RNum 0 1 0 0 0) 100 0 1 0 1 0 0 false.
Definition s_eff : lstate RNum := init_state (N:=RNum) p_eff.
Definition pl_eff : plan_t RNum := @mkplan RNum 1 true 0 0 false.
Definition low : eta_arg RNum := EtaFloat (N:=RNum) (1 / 10).
Definition lw (acc : R) : law_args := law_of o_eff p_eff T_eff acc.

Section One.
Variable acc : R.
Hypothesis A1 : acc * acc = 1.
Lemma acc0 : acc <> 0.
Proof. intros ->. lra. Qed.
Lemma Q_eff a f g h k : 0 < a -> f * f + g * g < 1 ->
  Qof (lyap_mee_with_a (N:=RNum)) (lw acc) (elems a f g h k PI) = f * f / (4 * a * (1 - f * f - g * g)).
Proof.
  intros Ha He. unfold lyap_mee_with_a. rewrite Qof_lyap. change (lw acc) with (mklaw 1 acc (@mk5 RNum 2 0 0 0 0) 1 3 4 2 (1 / 100) 1 0 (@mk5 RNum 0 1 0 0 0)). unfold env_of. cbn [g_T g_mu g_f g_rpmin g_m g_n g_r g_b g_k g_wp g_w].
  rewrite ev_mq. unfold Qmee. pose proof acc0 as A0.
  assert (P : 0 < mp a f g) by (apply mp_pos; assumption). assert (H : 0 < msp 1 a f g) by (apply msp_pos; [lra|assumption|assumption]).
  assert (S : msp 1 a f g * msp 1 a f g = mp a f g / 1). { unfold msp. apply sqrt_sqrt. lra. }
  assert (N : (f - 0) / (acc * (2 * msp 1 a f g)) * ((f - 0) / (acc * (2 * msp 1 a f g))) = f * f / (4 * a * (1 - f * f - g * g))).
  { replace ((f - 0) / (acc * (2 * msp 1 a f g)) * ((f - 0) / (acc * (2 * msp 1 a f g))))
      with (f * f / (acc * acc) / (4 * (msp 1 a f g * msp 1 a f g))) by (field; split; lra).
    rewrite S, A1. unfold mp in *. field. split; nra. }
  rewrite N. ring.
Qed.
Lemma eff_sound : sound (lw acc).
Proof. pose proof acc0. cbn. repeat split; lra. Qed.
Lemma eff_regular : regular MeeWithA (lw acc) oe_eff.
Proof. split; [exact eff_sound|]. cbn. repeat split; lra. Qed.
Lemma eff_dq : eval5 (N:=RNum) (env_of (lw acc) oe_eff) (dqdoe SymMee.q) = @mk5 RNum (- (1 / 12)) (4 / 9) 0 0 0.
Proof.
  destruct eff_regular as (Sd & St & Sm & _).
  pose proof (partials_lem SymMee.psi SymMee.q (lw acc) oe_eff (mee_S (lw acc) oe_eff Sd St Sm)) as Pt.
  unfold partials, oe_eff at 1, elems at 1 in Pt. destruct (eval5 (N:=RNum) (env_of (lw acc) oe_eff) (dqdoe SymMee.q)) as [d0 d1 d2 d3 d4]. cbn in d0, d1, d2, d3, d4.
  destruct Pt as (D0 & D1 & D2 & D3 & D4).
  assert (V0 : d0 = - (1 / 12)).
  { eapply uniqueness_limite; [exact D0|]. eapply (dlocal _ _ _ _ (1 / 4)); [lra| |].
    - intros t Ht. symmetry. apply Q_eff; [apply near_one, Ht|lra].
    - eapply dval; [|apply (d_inv_a (1 - 1 / 2 * (1 / 2) - 0 * 0)); lra]. field. }
  assert (V1 : d1 = 4 / 9).
  { eapply uniqueness_limite; [exact D1|]. eapply (dlocal _ _ _ _ (1 / 4)); [lra| |exact d_q_e].
    intros t Ht. symmetry. apply near_half in Ht. transitivity (t * t / (4 * 1 * (1 - t * t - 0 * 0))); [apply Q_eff; [lra|nra]|].
    f_equal. ring. }
  assert (V2 : d2 = 0).
  { eapply uniqueness_limite; [exact D2|]. eapply (dlocal _ _ _ _ (1 / 4)); [lra| |].
    - intros t Ht. symmetry. apply Q_eff; [lra|]. rewrite Rminus_0_r in Ht. apply Rabs_def2 in Ht. nra.
    - eapply dval; [|apply (d_div (fun _ => 1 / 2 * (1 / 2)) (fun t => 4 * 1 * (1 - 1 / 2 * (1 / 2) - t * t)) 0 0 0)]; [field|apply d_const| |lra].
      eapply dval; [|apply (d_mult (fun _ => 4 * 1) (fun t => 1 - 1 / 2 * (1 / 2) - t * t) 0 0 0); [apply d_const|]]; [ring|].
      eapply dval; [|apply (d_minus (fun _ => 1 - 1 / 2 * (1 / 2)) (fun t => t * t) 0 0 0); [apply d_const|]]; [ring|].
      eapply dval; [|apply (d_mult (fun t => t) (fun t => t) 0 1 1); apply d_id]. ring. }
  assert (V3 : d3 = 0).
  { eapply uniqueness_limite; [exact D3|]. eapply (dlocal (fun _ => 1 / 2 * (1 / 2) / (4 * 1 * (1 - 1 / 2 * (1 / 2) - 0 * 0))) _ _ _ 1); [lra| |apply d_const].
    intros t _. symmetry. apply Q_eff; lra. }
  assert (V4 : d4 = 0).
  { eapply uniqueness_limite; [exact D4|]. eapply (dlocal (fun _ => 1 / 2 * (1 / 2) / (4 * 1 * (1 - 1 / 2 * (1 / 2) - 0 * 0))) _ _ _ 1); [lra| |apply d_const].
    intros t _. symmetry. apply Q_eff; lra. }
  subst. reflexivity.
Qed.
Lemma eff_grad l : let q := sqrt (3 / 4) in let w := 1 + 1 / 2 * cos l in
  gradient_at MeeWithA (lw acc) oe_eff l =
  vec (2 / q * (1 / 2 * sin l) * - (1 / 12) + q * sin l * (4 / 9)) (2 / q * w * - (1 / 12) + q / w * ((w + 1) * cos l + 1 / 2) * (4 / 9)) 0.
Proof.
  intros q w. rewrite grad_val. change (qsym_of MeeWithA) with SymMee.q. rewrite eff_dq. change (psi_of MeeWithA) with SymMee.psi.
  unfold oe_eff, with_anomaly, elems. change (@mk6 RNum 1 (1 / 2) 0 0 0 l) with (elems 1 (1 / 2) 0 0 0 l).
  rewrite evalpsi_mee; [|cbn; lra|lra|lra|lra]. change (g_mu (lw acc)) with 1. unfold mee_psi. cbv zeta.
  replace (1 * (1 - 1 / 2 * (1 / 2) - 0 * 0) / 1) with (3 / 4) by field. fold q.
  assert (SD : side (1 / 2) = 1) by (unfold side; destruct (Rlt_dec 0 (1 / 2)); lra). rewrite SD.
  assert (Q : 0 < q) by (apply sqrt_lt_R0; lra). assert (W : w <> 0) by (unfold w; pose proof (COS_bound l); lra).
  unfold lin3, dot5R. cbn [v5_0 v5_1 v5_2 v5_3 v5_4].
  replace (1 + 1 / 2 * cos l + 0 * sin l) with w by (unfold w; ring).
  assert (K : w - 1 = 1 / 2 * cos l) by (unfold w; ring). clearbody w. unfold vec. f_equal; change (@eq (@car RNum)) with (@eq R); field; lra.
Qed.
Lemma eff_far : gradient_at MeeWithA (lw acc) oe_eff PI = vec 0 (- (3 / 4) / sqrt (3 / 4)) 0.
Proof.
  rewrite eff_grad. rewrite cos_PI, sin_PI. assert (Q : 0 < sqrt (3 / 4)) by (apply sqrt_lt_R0; lra). assert (S : sqrt (3 / 4) * sqrt (3 / 4) = 3 / 4) by (apply sqrt_sqrt; lra).
  set (q := sqrt (3 / 4)) in *. clearbody q. unfold vec. f_equal; change (@eq (@car RNum)) with (@eq R); [ring|].
  apply (Rmult_eq_reg_r q); [|lra]. transitivity (- (1 / 12) - (8 / 9) * (q * q)); [field; lra|]. rewrite S. field. lra.
Qed.
Lemma eff_near : gradient_at MeeWithA (lw acc) oe_eff (2 * PI) = vec 0 (5 / 12 / sqrt (3 / 4)) 0.
Proof.
  rewrite eff_grad. rewrite cos_2PI, sin_2PI. assert (Q : 0 < sqrt (3 / 4)) by (apply sqrt_lt_R0; lra). assert (S : sqrt (3 / 4) * sqrt (3 / 4) = 3 / 4) by (apply sqrt_sqrt; lra).
  set (q := sqrt (3 / 4)) in *. clearbody q. unfold vec. f_equal; change (@eq (@car RNum)) with (@eq R); [ring|].
  apply (Rmult_eq_reg_r q); [|lra]. transitivity (- (1 / 4) + (8 / 9) * (q * q)); [field; lra|]. rewrite S. field. lra.
Qed.
Lemma norm_axis x : norm (vec 0 x 0) = Rabs x.
Proof. unfold norm, vec. cbn. replace (0 * 0 + x * x + 0 * 0) with (x * x) by ring. apply sqrt_Rsqr_abs. Qed.
Lemma grid1 : grid_point oe_eff 2 1 = 2 * PI.
Proof. unfold grid_point. cbn. field. Qed.
Lemma grid2 : grid_point oe_eff 2 2 = PI + 2 * PI.
Proof. unfold grid_point. cbn. field. Qed.
Lemma eff_at2 : gradient_at MeeWithA (lw acc) oe_eff (grid_point oe_eff 2 2) = vec 0 (- (3 / 4) / sqrt (3 / 4)) 0.
Proof. rewrite grid2, grad_period by exact eff_regular. exact eff_far. Qed.
Lemma eff_at1 : gradient_at MeeWithA (lw acc) oe_eff (grid_point oe_eff 2 1) = vec 0 (5 / 12 / sqrt (3 / 4)) 0.
Proof. rewrite grid1. exact eff_near. Qed.
Lemma eff_nonzero k : (1 <= k <= 2)%nat -> gradient_at MeeWithA (lw acc) oe_eff (grid_point oe_eff 2 k) <> null.
Proof.
  intros Hk. assert (Q : 0 < sqrt (3 / 4)) by (apply sqrt_lt_R0; lra). assert (I : 0 < / sqrt (3 / 4)) by (apply Rinv_0_lt_compat, Q).
  assert (K : k = 1%nat \/ k = 2%nat) by lia. destruct K as [-> | ->]; [rewrite eff_at1|rewrite eff_at2]; intros E; apply (f_equal (fun v : vec3 RNum => v3_1 v)) in E; cbn in E; unfold Rdiv in E; nra.
Qed.
Lemma eff_speeds : speed MeeWithA (lw acc) oe_eff 2 1 < speed MeeWithA (lw acc) oe_eff 2 2.
Proof.
  unfold speed. rewrite eff_at1, eff_at2, !norm_axis. change (g_f (lw acc)) with acc.
  assert (Q : 0 < sqrt (3 / 4)) by (apply sqrt_lt_R0; lra). assert (I : 0 < / sqrt (3 / 4)) by (apply Rinv_0_lt_compat, Q).
  rewrite (Rabs_pos_eq (5 / 12 / sqrt (3 / 4))) by (unfold Rdiv; nra). rewrite (Rabs_left (- (3 / 4) / sqrt (3 / 4))) by (unfold Rdiv; nra).
  apply Rmult_lt_compat_l; [apply Rabs_pos_lt, acc0|]. unfold Rdiv. nra.
Qed.
Lemma eff_step : exists c, control (N:=RNum) o_eff p_eff low low s_eff pl_eff acc = Ok (Ctl c).
Proof.
  apply (control_runs MeeWithA o_eff p_eff T_eff low low s_eff pl_eff acc); try reflexivity.
  - cbn; lia.
  - intros k Hk. apply eff_nonzero. exact Hk.
  - right. change (v6_5 (l_oe s_eff)) with PI. change (l_oe s_eff) with oe_eff. fold (lw acc). rewrite eff_far. cbn. 
    assert (I : 0 < / sqrt (3 / 4)) by (apply Rinv_0_lt_compat, sqrt_lt_R0; lra). unfold Rdiv. nra.
Qed.
End One.
Lemma one_one : 1 * 1 = 1. Proof. ring. Qed.
Lemma mone_one : -1 * -1 = 1. Proof. ring. Qed.

(** the hypotheses of the effectivity theorems hold here, in both directions of time *)
Lemma eff_case acc : acc * acc = 1 ->
  q_lyap o_eff = lyap_of_etype (N:=RNum) MeeWithA /\ q_dqdt o_eff = dqdt_of_etype (N:=RNum) MeeWithA /\ p_oeT p_eff = list5 T_eff /\ (0 < q_grid o_eff)%nat /\
  regular MeeWithA (law_of o_eff p_eff T_eff acc) (l_oe s_eff) /\
  (forall k, (1 <= k <= q_grid o_eff)%nat -> gradient_at MeeWithA (law_of o_eff p_eff T_eff acc) (l_oe s_eff) (grid_point (l_oe s_eff) (q_grid o_eff) k) <> null) /\
  pl_duty pl_eff = true /\ 0 < threshold low (l_t s_eff) (l_oe s_eff) (l_mass s_eff) (l_batt s_eff) /\
  exists c, control (N:=RNum) o_eff p_eff low low s_eff pl_eff acc = Ok (Ctl c).
Proof.
  intros A. split; [reflexivity|]. split; [reflexivity|]. split; [reflexivity|]. split; [cbn; lia|]. split; [exact (eff_regular acc A)|].
  split; [intros k Hk; exact (eff_nonzero acc A k Hk)|]. split; [reflexivity|]. split; [cbn; lra|]. exact (eff_step acc A).
Qed.
Lemma eff_extremes acc best worst : acc * acc = 1 -> strongest MeeWithA (law_of o_eff p_eff T_eff acc) (l_oe s_eff) (q_grid o_eff) best ->
  weakest MeeWithA (law_of o_eff p_eff T_eff acc) (l_oe s_eff) (q_grid o_eff) worst ->
  best = speed MeeWithA (lw acc) oe_eff 2 2 /\ worst < best.
Proof.
  intros A [(kb & Kb & Eb) SB] [(kw & Kw & Ew) SW]. pose proof (eff_speeds acc A) as Lt.
  change (law_of o_eff p_eff T_eff acc) with (lw acc) in *. change (l_oe s_eff) with oe_eff in *. change (q_grid o_eff) with 2%nat in *.
  pose proof (SB 2%nat ltac:(lia)) as B2. pose proof (SW 1%nat ltac:(lia)) as W1.
  assert (K : kb = 1%nat \/ kb = 2%nat) by lia. destruct K as [-> | ->]; split; lra.
Qed.
(** backward: an effectivity above 1, and 0 at the strongest location *)
Lemma C30_backward_refuted_lem : exists c best worst, control (N:=RNum) o_eff p_eff low low s_eff pl_eff (-1) = Ok (Ctl c) /\
  strongest MeeWithA (law_of o_eff p_eff T_eff (-1)) (l_oe s_eff) (q_grid o_eff) best /\
  weakest MeeWithA (law_of o_eff p_eff T_eff (-1)) (l_oe s_eff) (q_grid o_eff) worst /\ worst < best /\
  Rabs (c_qdot c) = best /\ 1 < fst (c_etas c) /\ snd (c_etas c) = 0 /\ c_thr c = 0%Z.
Proof.
  destruct (eff_case (-1) mone_one) as (H1 & H2 & H3 & H4 & H5 & H6 & H7 & H8 & c & H9).
  destruct (C30_backward_lem MeeWithA o_eff p_eff T_eff low low s_eff pl_eff (-1) c H1 H2 H3 H4 H5 H6 H7 (or_introl H8) H9 ltac:(lra)) as (best & worst & SB & SW & Q & P1 & P2 & P3).
  destruct (eff_lem MeeWithA o_eff p_eff T_eff low low s_eff pl_eff (-1) c H1 H2 H3 H4 H5 H6 H7 (or_introl H8) H9) as (_ & _ & _ & _ & _ & _ & _ & TH).
  destruct (eff_extremes (-1) best worst mone_one SB SW) as [EB Lt]. destruct (P3 Lt) as (_ & _ & R0).
  change (speed MeeWithA (law_of o_eff p_eff T_eff (-1)) (l_oe s_eff) (q_grid o_eff) (q_grid o_eff)) with (speed MeeWithA (lw (-1)) oe_eff 2 2) in Q. rewrite <- EB in Q.
  assert (Q' : - c_qdot c = best) by (rewrite Q; apply Ropp_involutive).
  assert (Z : snd (c_etas c) = 0) by (apply R0, Q').
  assert (G : 1 < fst (c_etas c)). { destruct P1 as [P1|P1]; [exact P1|]. symmetry in P1. apply P2 in P1. rewrite Q' in P1. lra. }
  exists c, best, worst. split; [exact H9|]. split; [exact SB|]. split; [exact SW|]. split; [exact Lt|]. split.
  { assert (0 <= best). { rewrite EB. unfold speed. apply Rmult_le_pos; [apply Rabs_pos|apply norm_sq]. }
    rewrite Q, Rabs_Ropp. apply Rabs_pos_eq. assumption. }
  split; [exact G|]. split; [exact Z|]. rewrite TH. change (threshold low _ _ _ _) with (1 / 10). rewrite Z.
  destruct (Rlt_dec (fst (c_etas c)) (1 / 10)); [reflexivity|]. destruct (Rlt_dec 0 (1 / 10)); [reflexivity|lra].
Qed.
(** forward: 1 for both at the strongest location *)
Lemma C30_forward_case : exists c, control (N:=RNum) o_eff p_eff low low s_eff pl_eff 1 = Ok (Ctl c) /\ c_etas c = (1, 1) /\ c_thr c = 1%Z.
Proof.
  destruct (eff_case 1 one_one) as (H1 & H2 & H3 & H4 & H5 & H6 & H7 & H8 & c & H9).
  destruct (C30_forward_lem MeeWithA o_eff p_eff T_eff low low s_eff pl_eff 1 c H1 H2 H3 H4 H5 H6 H7 (or_introl H8) H9 ltac:(lra)) as (best & worst & SB & SW & Q & P1 & P2 & P3).
  destruct (eff_lem MeeWithA o_eff p_eff T_eff low low s_eff pl_eff 1 c H1 H2 H3 H4 H5 H6 H7 (or_introl H8) H9) as (_ & _ & _ & _ & _ & _ & _ & TH).
  destruct (eff_extremes 1 best worst one_one SB SW) as [EB Lt]. destruct (P3 Lt) as (_ & R1 & _).
  change (speed MeeWithA (law_of o_eff p_eff T_eff 1) (l_oe s_eff) (q_grid o_eff) (q_grid o_eff)) with (speed MeeWithA (lw 1) oe_eff 2 2) in Q. rewrite <- EB in Q.
  apply P2 in Q as F1. apply R1 in Q as F2. exists c. split; [exact H9|]. destruct (c_etas c) as [x y]. cbn [fst snd] in *. subst x y. split; [reflexivity|].
  rewrite TH. change (threshold low _ _ _ _) with (1 / 10). destruct (Rlt_dec 1 (1 / 10)); [lra|reflexivity].
Qed.

(** Concrete states on which the hypotheses of the control-law theorems hold. *)
From Coq Require Import Reals Lra Lia ZArith List Bool.
From Verif Require Import RMath RLib DLib Num Base Lyapunov Symbolic SymKep SymMee RSpec LawSpec DiffProofs CtlProofs KepQ MeeQ LawProofs.
Import ListNotations.
Local Open Scope R_scope.

(** only the second element is weighted; eT = fT = 0, f = mu = 1 *)
Definition p_kep : law_args := mklaw 1 1 (@mk5 RNum 2 0 0 0 0) 1 3 4 2 (1 / 100) 1 0 (@mk5 RNum 0 1 0 0 0).
Definition oe_kep : vec6 RNum := elems 1 (1 / 2) (PI / 4) (PI / 4) (PI / 4) (PI / 2).
Definition p_mee : law_args := p_kep.
Definition oe_mee : vec6 RNum := elems 1 (1 / 2) 0 0 0 (PI / 2).

Lemma sin_pi4_pos : 0 < sin (PI / 4).
Proof. apply sin_gt_0; pose proof PI_RGT_0; lra. Qed.
Lemma cos_pi4_pos : 0 < cos (PI / 4).
Proof. apply cos_gt_0; pose proof PI_RGT_0; lra. Qed.
Lemma p_kep_sound : sound p_kep.
Proof. cbn. repeat split; lra. Qed.
Lemma oe_kep_state : kep_state oe_kep.
Proof. pose proof sin_pi4_pos. cbn. repeat split; lra. Qed.
Lemma oe_kep_power : power_ok p_kep oe_kep.
Proof. right. exists 2%Z. reflexivity. Qed.
Lemma oe_kep_smooth : kep_smooth p_kep oe_kep.
Proof.
  pose proof sin_pi4_pos. pose proof cos_pi4_pos. cbn. rewrite Rminus_0_r. repeat split; lra.
Qed.
Lemma oe_mee_state : mee_state oe_mee.
Proof. cbn. split; lra. Qed.
Lemma oe_mee_smooth : mee_smooth p_mee oe_mee.
Proof. cbn. split; lra. Qed.

Lemma kep_Q_value a e : 0 < a -> 0 < e < 1 ->
  Qof (lyap_keplerian (N:=RNum)) p_kep (elems a e (PI / 4) (PI / 4) (PI / 4) (PI / 2)) = e * e / (4 * a * (1 - e * e)).
Proof.
  intros Ha He. unfold lyap_keplerian. rewrite Qof_lyap. unfold env_of, p_kep. cbn [g_T g_mu g_f g_rpmin g_m g_n g_r g_b g_k g_wp g_w].
  rewrite ev_q by assumption. unfold Qkep.
  assert (P : 0 < kp a e) by (apply kp_pos; assumption). assert (H : 0 < kh 1 a e) by (apply kh_pos; [lra|assumption|assumption]).
  assert (S : kh 1 a e * kh 1 a e = 1 * kp a e) by (apply kh_sq; [lra|assumption|assumption]).
  assert (N : (e - 0) / N1 1 1 a e * ((e - 0) / N1 1 1 a e) = e * e / (4 * a * (1 - e * e))).
  { unfold N1. replace ((e - 0) / (2 * kp a e * 1 / kh 1 a e) * ((e - 0) / (2 * kp a e * 1 / kh 1 a e)))
      with (e * e * (kh 1 a e * kh 1 a e) / (4 * kp a e * kp a e)) by (field; lra).
    rewrite S. unfold kp in *. field. split; [nra|lra]. }
  rewrite N. ring.
Qed.
Lemma mee_Q_value a f : 0 < a -> 0 < f < 1 ->
  Qof (lyap_mee_with_a (N:=RNum)) p_mee (elems a f 0 0 0 (PI / 2)) = f * f / (4 * a * (1 - f * f)).
Proof.
  intros Ha Hf. unfold lyap_mee_with_a. rewrite Qof_lyap. unfold env_of, p_mee, p_kep. cbn [g_T g_mu g_f g_rpmin g_m g_n g_r g_b g_k g_wp g_w].
  rewrite ev_mq. unfold Qmee.
  assert (E : f * f + 0 * 0 < 1) by nra.
  assert (P : 0 < mp a f 0) by (apply mp_pos; assumption). assert (H : 0 < msp 1 a f 0) by (apply msp_pos; [lra|assumption|assumption]).
  assert (S : msp 1 a f 0 * msp 1 a f 0 = mp a f 0 / 1). { unfold msp. apply sqrt_sqrt. lra. }
  assert (N : (f - 0) / (1 * (2 * msp 1 a f 0)) * ((f - 0) / (1 * (2 * msp 1 a f 0))) = f * f / (4 * a * (1 - f * f))).
  { replace ((f - 0) / (1 * (2 * msp 1 a f 0)) * ((f - 0) / (1 * (2 * msp 1 a f 0))))
      with (f * f / (4 * (msp 1 a f 0 * msp 1 a f 0))) by (field; lra).
    rewrite S. unfold mp in *. field. split; nra. }
  rewrite N. ring.
Qed.
Lemma d_inv_a c : c <> 0 -> dlim (fun a => (1 / 2) * (1 / 2) / (4 * a * c)) 1 (- (1 / (16 * c))).
Proof.
  intros Hc. eapply dval; [|apply (d_div (fun _ => 1 / 2 * (1 / 2)) (fun a => 4 * a * c) 1 0 (4 * c))].
  - field. exact Hc.
  - apply d_const.
  - eapply dval; [|apply (d_mult (fun a => 4 * a) (fun _ => c) 1 4 0); [|apply d_const]]; [ring|].
    eapply dval; [|apply (d_mult (fun _ => 4) (fun a => a) 1 0 1); [apply d_const|apply d_id]]. ring.
  - lra.
Qed.
Lemma d_q_e : dlim (fun e => e * e / (4 * 1 * (1 - e * e))) (1 / 2) (4 / 9).
Proof.
  eapply dval; [|apply (d_div (fun e => e * e) (fun e => 4 * 1 * (1 - e * e)) (1 / 2) 1 (-4))].
  - field.
  - eapply dval; [|apply (d_mult (fun e => e) (fun e => e) (1 / 2) 1 1); apply d_id]. field.
  - eapply dval; [|apply (d_mult (fun _ => 4 * 1) (fun e => 1 - e * e) (1 / 2) 0 (-1)); [apply d_const|]]; [field|].
    eapply dval; [|apply (d_minus (fun _ => 1) (fun e => e * e) (1 / 2) 0 1); [apply d_const|]]; [ring|].
    eapply dval; [|apply (d_mult (fun e => e) (fun e => e) (1 / 2) 1 1); apply d_id]. field.
  - lra.
Qed.
Lemma near_half t : Rabs (t - 1 / 2) < 1 / 4 -> 0 < t < 1.
Proof. intros H. apply Rabs_def2 in H. lra. Qed.
Lemma near_one t : Rabs (t - 1) < 1 / 4 -> 0 < t.
Proof. intros H. apply Rabs_def2 in H. lra. Qed.

Lemma kep_gradient_value : exists out, ask (lyap_keplerian (N:=RNum)) p_kep oe_kep = Ok out /\ v3_0 (lo_u out) <> 0.
Proof.
  eexists. split; [unfold lyap_keplerian; apply ask_lyap|]. cbn [lo_u].
  pose proof (partials_lem SymKep.psi SymKep.q p_kep oe_kep
    (kep_S p_kep oe_kep p_kep_sound oe_kep_state oe_kep_power oe_kep_smooth)) as Pt.
  unfold partials, oe_kep at 1, elems at 1, dqdoe, oe_vars in Pt. cbn [map eval5] in Pt. destruct Pt as (D0 & D1 & _).
  set (ev := env_of p_kep oe_kep) in *.
  assert (V0 : reval ev (diff Voe0 SymKep.q) = - (1 / 12)).
  { eapply uniqueness_limite; [exact D0|].
    eapply (dlocal _ _ _ _ (1 / 4)); [lra| |].
    - intros t Ht. symmetry. apply kep_Q_value; [apply near_one, Ht|lra].
    - eapply dval; [|apply (d_inv_a (1 - 1 / 2 * (1 / 2))); lra]. field. }
  assert (V1 : reval ev (diff Voe1 SymKep.q) = 4 / 9).
  { eapply uniqueness_limite; [exact D1|].
    eapply (dlocal _ _ _ _ (1 / 4)); [lra| |].
    - intros t Ht. symmetry. apply kep_Q_value; [lra|apply near_half, Ht].
    - exact d_q_e. }
  unfold usym, dqdoe, oe_vars, SymKep.psi. cbn [map edot5 eval3 v3_0].
  rewrite !ev_add, (ev_mul _ _ (diff Voe0 _)), (ev_mul _ _ (diff Voe1 _)), (ev_mul _ _ (diff Voe2 _)), (ev_mul _ _ (diff Voe3 _)),
    (ev_mul _ _ (diff Voe4 _)), V0, V1, !ev_int.
  assert (X : reval ev (#2 * SymKep.a^2 / SymKep.h * SymKep.e * ESin SymKep.ta)%expr = 1 / kh 1 1 (1 / 2)).
  { transitivity (2 * (1 * 1) / kh 1 1 (1 / 2) * (1 / 2) * sin (PI / 2)); [reflexivity|].
    rewrite sin_PI2. unfold Rdiv. change (@eq (@car RNum)) with (@eq R). field. apply Rgt_not_eq, kh_pos; lra. }
  assert (Y : reval ev (SymKep.p / SymKep.h * ESin SymKep.ta)%expr = 3 / 4 / kh 1 1 (1 / 2)).
  { transitivity (1 * (1 - 1 / 2 * (1 / 2)) / kh 1 1 (1 / 2) * sin (PI / 2)); [reflexivity|].
    rewrite sin_PI2. change (@eq (@car RNum)) with (@eq R). field. apply Rgt_not_eq, kh_pos; lra. }
  assert (Z : reval ev (- SymKep.p / (SymKep.e * SymKep.h) * ECos SymKep.ta)%expr = 0).
  { transitivity (- (1 * (1 - 1 / 2 * (1 / 2))) / (1 / 2 * kh 1 1 (1 / 2)) * cos (PI / 2)); [reflexivity|].
    rewrite cos_PI2. change (@eq (@car RNum)) with (@eq R). ring. }
  rewrite X, Y, Z. assert (H : 0 < kh 1 1 (1 / 2)) by (apply kh_pos; lra).
  set (d2 := reval ev (diff Voe2 _)). set (d3 := reval ev (diff Voe3 _)). set (d4 := reval ev (diff Voe4 _)). clearbody d2 d3 d4.
  assert (N : 1 / kh 1 1 (1 / 2) * - (1 / 12) + 3 / 4 / kh 1 1 (1 / 2) * (4 / 9) + 0 * d2 + 0 * d3 + 0 * d4 = / (4 * kh 1 1 (1 / 2))) by (field; lra).
  intros C. apply (Rinv_neq_0_compat (4 * kh 1 1 (1 / 2))); [lra|]. rewrite <- N. exact C.
Qed.
Lemma mee_gradient_value : exists out, ask (lyap_mee_with_a (N:=RNum)) p_mee oe_mee = Ok out /\ v3_0 (lo_u out) <> 0.
Proof.
  eexists. split; [unfold lyap_mee_with_a; apply ask_lyap|]. cbn [lo_u].
  pose proof (partials_lem SymMee.psi SymMee.q p_mee oe_mee (mee_S p_mee oe_mee p_kep_sound oe_mee_state oe_mee_smooth)) as Pt.
  unfold partials, oe_mee at 1, elems at 1, dqdoe, oe_vars in Pt. cbn [map eval5] in Pt. destruct Pt as (D0 & D1 & _).
  set (ev := env_of p_mee oe_mee) in *.
  assert (V0 : reval ev (diff Voe0 SymMee.q) = - (1 / 12)).
  { eapply uniqueness_limite; [exact D0|].
    eapply (dlocal _ _ _ _ (1 / 4)); [lra| |].
    - intros t Ht. symmetry. apply mee_Q_value; [apply near_one, Ht|lra].
    - eapply dval; [|apply (d_inv_a (1 - 1 / 2 * (1 / 2))); lra]. field. }
  assert (V1 : reval ev (diff Voe1 SymMee.q) = 4 / 9).
  { eapply uniqueness_limite; [exact D1|].
    eapply (dlocal _ _ _ _ (1 / 4)); [lra| |].
    - intros t Ht. symmetry. apply mee_Q_value; [lra|apply near_half, Ht].
    - exact d_q_e. }
  set (c := sqrt (3 / 4)). assert (Hc : 0 < c) by (apply sqrt_lt_R0; lra). assert (Cc : c * c = 3 / 4) by (apply sqrt_sqrt; lra).
  assert (E2 : sqrt (1 / 2 * (1 / 2) + 0 * 0) = 1 / 2) by (replace (1 / 2 * (1 / 2) + 0 * 0) with (1 / 2 * (1 / 2)) by ring; apply sqrt_square; lra).
  unfold usym, dqdoe, oe_vars, SymMee.psi. cbn [map edot5 eval3 v3_0].
  rewrite !ev_add, (ev_mul _ _ (diff Voe0 _)), (ev_mul _ _ (diff Voe1 _)), (ev_mul _ _ (diff Voe2 _)), (ev_mul _ _ (diff Voe3 _)),
    (ev_mul _ _ (diff Voe4 _)), V0, V1, !ev_int.
  assert (X : reval ev (#2 * SymMee.a^2 / SymMee.ang_mom * SymMee.e * ESin SymMee.ta)%expr = 1 / c).
  { transitivity (2 * (1 * 1) / sqrt (1 * 1 * (1 - sqrt (1 / 2 * (1 / 2) + 0 * 0) * sqrt (1 / 2 * (1 / 2) + 0 * 0)))
      * sqrt (1 / 2 * (1 / 2) + 0 * 0) * sin (PI / 2 - atan (0 / (1 / 2)))); [reflexivity|].
    rewrite E2. replace (0 / (1 / 2)) with 0 by field. rewrite atan_0, Rminus_0_r, sin_PI2.
    replace (1 * 1 * (1 - 1 / 2 * (1 / 2))) with (3 / 4) by field. fold c. change (@eq (@car RNum)) with (@eq R). field. lra. }
  assert (Y : reval ev (SymMee.sqrt_pmu * SymMee.sinL)%expr = c).
  { transitivity (sqrt (1 * (1 - 1 / 2 * (1 / 2) - 0 * 0) / 1) * sin (PI / 2)); [reflexivity|].
    rewrite sin_PI2. replace (1 * (1 - 1 / 2 * (1 / 2) - 0 * 0) / 1) with (3 / 4) by field. fold c. change (@eq (@car RNum)) with (@eq R). ring. }
  assert (Z : reval ev (- SymMee.sqrt_pmu * SymMee.cosL)%expr = 0).
  { transitivity (- sqrt (1 * (1 - 1 / 2 * (1 / 2) - 0 * 0) / 1) * cos (PI / 2)); [reflexivity|].
    rewrite cos_PI2. change (@eq (@car RNum)) with (@eq R). ring. }
  rewrite X, Y, Z.
  set (d2 := reval ev (diff Voe2 _)). set (d3 := reval ev (diff Voe3 _)). set (d4 := reval ev (diff Voe4 _)). clearbody d2 d3 d4 c.
  assert (N : 1 / c * - (1 / 12) + c * (4 / 9) + 0 * d2 + 0 * d3 + 0 * d4 = / (4 * c)).
  { replace (c * (4 / 9)) with (c * c * (4 / 9) / c) by (field; lra). rewrite Cc. field. lra. }
  intros C. apply (Rinv_neq_0_compat (4 * c)); [lra|]. rewrite <- N. exact C.
Qed.

(** A thrust step so long that it raises Q (C94): the state of EffRuns, thrust along the velocity at apoapsis. *)
From Coq Require Import Reals Lra Lia ZArith List Bool Psatz.
From Verif Require Import RMath RLib DLib Num Base Elements Integrate Eom Convergence Lyapunov Symbolic SymKep SymMee Perturb Qlaw Spec RSpec LawSpec MaxSpec EffSpec DiffProofs CtlProofs KepQ MeeQ LawProofs IntegProofs GaussProofs EffProofs LawRuns EffRuns DescProofs.
Import ListNotations.
Local Open Scope R_scope.

Lemma angles_psi (fn : lyap_fn RNum) p oe out al be u P qv qd : ask fn p oe = Ok out ->
  ask (lyapunov_control_angles (N:=RNum) fn) p oe = Ok (al, be, u, P, qv, qd) -> P = lo_psi out /\ qv = lo_q out.
Proof.
  intros HO. unfold ask in *. unfold lyapunov_control_angles. rewrite HO. cbn [bind].
  destruct (u_to_thrust_angles (lo_u out)) as [[[u' a'] b']|]; [|discriminate]. cbn [bind]. destruct (lo_psi out).
  intros E. injection E as _ _ _ <- <- _. split; reflexivity.
Qed.

Lemma long_step : exists out alpha beta u P qv qdot h y,
  ask (lyap_mee_with_a (N:=RNum)) (lw 1) oe_eff = Ok out /\ (v3_0 (lo_u out) <> 0 \/ v3_1 (lo_u out) <> 0) /\
  ask (lyapunov_control_angles (N:=RNum) lyap_mee_with_a) (lw 1) oe_eff = Ok (alpha, beta, u, P, qv, qdot) /\ 0 < h /\
  rk4 (N:=RNum) (eom_mee_with_a_gauss (N:=RNum)) 0 h oe_eff (mkparams (N:=RNum) (g_mu (lw 1)) (scale (g_f (lw 1)) (direction alpha beta)) P null) = Ok y /\
  mee_state y /\ Qof (lyap_mee_with_a (N:=RNum)) (lw 1) oe_eff < Qof (lyap_mee_with_a (N:=RNum)) (lw 1) y.
Proof.
  assert (HO : exists out, ask (lyap_mee_with_a (N:=RNum)) (lw 1) oe_eff = Ok out) by (eexists; unfold lyap_mee_with_a; apply ask_lyap).
  destruct HO as [out HO]. exists out.
  set (q := sqrt (3 / 4)). assert (Hq : 0 < q) by (apply sqrt_lt_R0; lra). assert (Qq : q * q = 3 / 4) by (apply sqrt_sqrt; lra).
  assert (Hi : 0 < / q) by (apply Rinv_0_lt_compat, Hq).
  assert (HD : lo_u out = vec 0 (- (3 / 4) / q) 0).
  { pose proof (eff_far 1 one_one) as G. unfold gradient_at in G. change (with_anomaly PI oe_eff) with oe_eff in G.
    change (lyap_of_etype (N:=RNum) MeeWithA) with (lyap_mee_with_a (N:=RNum)) in G. rewrite HO in G. exact G. }
  assert (HP : lo_psi out = mee_psi 1 1 (1 / 2) 0 0 0 PI).
  { pose proof HO as HO'. unfold lyap_mee_with_a in HO'. rewrite ask_lyap in HO'. apply Ok_inj in HO'. rewrite <- HO'. cbn [lo_psi]. unfold oe_eff.
    apply evalpsi_mee; [cbn; lra|lra|lra|lra]. }
  assert (N0 : v3_0 (lo_u out) <> 0 \/ v3_1 (lo_u out) <> 0).
  { right. rewrite HD. cbn. unfold Rdiv. nra. }
  destruct (C33_lem (lyap_mee_with_a (N:=RNum)) _ _ _ _ _ _ _ _ _ _ _ _ out HO N0) as (al & be & u & P & qv & qd & EA & Dir & _).
  destruct (angles_psi _ (lw 1) oe_eff out _ _ _ _ _ _ HO EA) as [-> _].
  assert (DT : direction al be = vec 0 1 0).
  { rewrite Dir, HD, norm_axis, Rabs_left by (unfold Rdiv; nra). unfold scale, vec. cbn. f_equal; change (@eq (@car RNum)) with (@eq R); field; lra. }
  assert (RT : slow_rate (lo_psi out) (scale 1 (direction al be)) = @mk5 RNum (1 / q) (- (2 * q)) 0 0 0).
  { rewrite DT, HP. unfold mee_psi. cbv zeta. replace (1 * (1 - 1 / 2 * (1 / 2) - 0 * 0) / 1) with (3 / 4) by field. fold q.
    assert (SD : side (1 / 2) = 1) by (unfold side; destruct (Rlt_dec 0 (1 / 2)); lra). rewrite SD, cos_PI, sin_PI.
    unfold slow_rate, scale, dot, vec. cbn. f_equal; change (@eq (@car RNum)) with (@eq R); field; lra. }
  set (h := 29 / 40 / q). exists al, be, u, (lo_psi out), qv, qd, h.
  assert (E1 : euler5 h oe_eff (slow_rate (lo_psi out) (scale 1 (direction al be))) = @mk5 RNum (59 / 30) (- (19 / 20)) 0 0 0).
  { rewrite RT. unfold oe_eff, elems, h. cbn. f_equal; change (@eq (@car RNum)) with (@eq R); [|field; lra|ring|ring|ring].
    apply (Rmult_eq_reg_r (q * q)); [|nra]. transitivity (q * q + 29 / 40); [field; lra|]. rewrite Qq. field. }
  assert (E2 : euler5 (h * (5 / 10)) oe_eff (slow_rate (lo_psi out) (scale 1 (direction al be))) = @mk5 RNum (89 / 60) (- (9 / 40)) 0 0 0).
  { rewrite RT. unfold oe_eff, elems, h. cbn. f_equal; change (@eq (@car RNum)) with (@eq R); [|field; lra|ring|ring|ring].
    apply (Rmult_eq_reg_r (q * q)); [|nra]. transitivity (q * q + 29 / 80); [field; lra|]. rewrite Qq. field. }
  set (pr := mkparams (N:=RNum) 1 (scale 1 (direction al be)) (lo_psi out) null).
  destruct (rk4_ok (eom_mee_with_a_gauss (N:=RNum)) pr mee_dom (slow_rate (lo_psi out) (scale 1 (direction al be))) 0 h oe_eff) as [y Ey].
  { intros t z Z. pose proof (mee_rhs pr Rlt_0_1 t z Z) as X. cbn [op_psi op_u op_ptrb pr] in X. rewrite add_null in X. exact X. }
  { cbn. lra. }
  { rewrite E2. cbn. lra. }
  { rewrite E1. cbn. lra. }
  pose proof (C45_euler_lem _ 0 h oe_eff pr y (or_intror eq_refl) Ey) as Sy. cbn [op_psi op_u op_ptrb pr] in Sy. rewrite add_null, E1 in Sy.
  exists y. split; [exact HO|]. split; [exact N0|]. split; [exact EA|]. split; [unfold h, Rdiv; nra|]. split; [exact Ey|].
  destruct y as [a f g hh k l]. cbn [slow] in Sy. injection Sy as -> -> -> -> ->. split; [cbn; lra|].
  assert (F : Qof (lyap_mee_with_a (N:=RNum)) (lw 1) (@mk6 RNum (59 / 30) (- (19 / 20)) 0 0 0 l) = Qof (lyap_mee_with_a (N:=RNum)) (lw 1) (elems (59 / 30) (- (19 / 20)) 0 0 0 PI))
    by (apply Qof_fast; reflexivity).
  rewrite F.
  assert (X1 : 0 < 59 / 30) by lra. assert (X2 : - (19 / 20) * - (19 / 20) + 0 * 0 < 1) by lra. assert (X3 : 1 / 2 * (1 / 2) + 0 * 0 < 1) by lra.
  unfold oe_eff. rewrite (Q_eff 1 one_one 1 (1 / 2) 0 0 0 Rlt_0_1 X3), (Q_eff 1 one_one _ _ 0 0 0 X1 X2).
  replace (1 / 2 * (1 / 2) / (4 * 1 * (1 - 1 / 2 * (1 / 2) - 0 * 0))) with (1 / 12) by field.
  replace (- (19 / 20) * - (19 / 20) / (4 * (59 / 30) * (1 - - (19 / 20) * - (19 / 20) - 0 * 0))) with (1805 / 1534) by field.
  clear. lra.
Qed.
Lemma long_step_lem : exists p oe out alpha beta u P qv qdot h y,
  sound p /\ mee_state oe /\ mee_smooth p oe /\ v6_1 oe <> 0 /\
  ask (lyap_mee_with_a (N:=RNum)) p oe = Ok out /\ (v3_0 (lo_u out) <> 0 \/ v3_1 (lo_u out) <> 0) /\
  ask (lyapunov_control_angles (N:=RNum) lyap_mee_with_a) p oe = Ok (alpha, beta, u, P, qv, qdot) /\ 0 < h * g_f p /\
  rk4 (N:=RNum) (eom_mee_with_a_gauss (N:=RNum)) 0 h oe (mkparams (N:=RNum) (g_mu p) (scale (g_f p) (direction alpha beta)) P null) = Ok y /\
  mee_state y /\ Qof (lyap_mee_with_a (N:=RNum)) p oe < Qof (lyap_mee_with_a (N:=RNum)) p y.
Proof.
  destruct long_step as (out & al & be & u & P & qv & qd & h & y & E1 & E2 & E3 & E4 & E5 & E6 & E7).
  exists (lw 1), oe_eff, out, al, be, u, P, qv, qd, h, y. destruct (eff_regular 1 one_one) as (S1 & S2 & S3 & _).
  split; [exact S1|]. split; [exact S2|]. split; [exact S3|]. split; [cbn; lra|]. split; [exact E1|]. split; [exact E2|]. split; [exact E3|].
  split; [change (g_f (lw 1)) with 1; lra|]. split; [exact E5|]. split; [exact E6|exact E7].
Qed.

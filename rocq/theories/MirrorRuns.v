(** Cases for C96. *)
From Coq Require Import Reals Lra Lia ZArith List Bool.
From Verif Require Import RMath RLib Num Base Elements Convergence Lyapunov Symbolic Perturb RSpec LawSpec Qlaw Spec NanSpec NanProofs NanRun XLaw ElemProofs ScaleProofs TurnCases MirrorSpec MirrorProofs MirrorSolve EffRuns FinSpec FinRuns ZeroCase FlatProofs.
Import ListNotations.
Local Open Scope R_scope.

Lemma C96_kep a e i ra om ta mu : 0 < mu -> 0 < a -> 0 <= e < 1 ->
  exists s, kep2sv (N:=RNum) (elems a e i ra om ta) mu = Ok s /\ kep2sv (N:=RNum) (elems a e i (ra + PI) (om + PI) ta) mu = Ok (cart_reflect s).
Proof.
  intros Hm Ha He. exists (concat33 (kep_r a e i ra om ta) (kep_v mu a e i ra om ta)). rewrite !kep2sv_closed by assumption. split; [reflexivity|]. f_equal.
  unfold kep_r, kep_v, in_plane, vec. cbv zeta. replace (om + PI + ta) with (om + ta + PI) by ring. rewrite !neg_cos, !neg_sin. unfold concat33, cart_reflect. f_equal; ring.
Qed.
Lemma C96_mee_kept a f g h k l mu : 0 < mu -> 0 < a -> f * f + g * g < 1 -> periapsis_kept f g h k ->
  exists s, mee_with_a2sv (N:=RNum) (elems a f g h k l) mu = Ok s /\ mee_with_a2sv (N:=RNum) (elems a f g (- h) (- k) l) mu = Ok (cart_reflect s).
Proof.
  intros Hm Ha He K. destruct (C50_pos a f g h k l mu Hm Ha He) as (s & E & P & _). destruct (C50_pos a f g (- h) (- k) l mu Hm Ha He) as (s' & E' & P' & _).
  exists s. split; [exact E|]. rewrite E'. f_equal. rewrite (P K), P'.
  - unfold mee_r, mee_v, vec. cbv zeta. replace (- h * - h) with (h * h) by ring. replace (- k * - k) with (k * k) by ring. unfold concat33, cart_reflect. f_equal; unfold Rdiv; ring.
  - destruct K as [K|[K|K]]; [left|right; left|right; right; exact K]; intros Z; apply K; rewrite <- (Ropp_involutive h) || idtac; lra.
Qed.
Lemma C96_mee a f g h k l mu : 0 < mu -> 0 < a -> f * f + g * g < 1 ->
  exists s, mee_with_a2sv (N:=RNum) (elems a f g h k l) mu = Ok s /\ mee_with_a2sv (N:=RNum) (elems a f g (- h) (- k) l) mu = Ok (cart_reflect s).
Proof.
  intros Hm Ha He. destruct (Req_dec h 0) as [Hh|Hh]; [|apply C96_mee_kept; try assumption; left; exact Hh].
  destruct (Req_dec k 0) as [Hk|Hk]; [|apply C96_mee_kept; try assumption; right; left; exact Hk]. subst h k. rewrite !Ropp_0.
  destruct (mee_e f g) as [E1 E2]. destruct (mee_flat f g 0 0 l eq_refl eq_refl) as (A & B & C & _).
  assert (E : mee_with_a2sv (N:=RNum) (elems a f g 0 0 l) mu = kep2sv (N:=RNum) (elems a (sqrt (f * f + g * g)) 0 0 0 (l - 0 - 0)) mu); [|rewrite E].
  2:{ assert (He1 : 0 <= sqrt (f * f + g * g) < 1) by (split; [exact E1|rewrite <- sqrt_1; apply sqrt_lt_1; nra]). rewrite kep2sv_closed by assumption. eexists. split; [reflexivity|]. f_equal. unfold kep_r, kep_v, in_plane, vec. cbv zeta. rewrite sin_0, cos_0. unfold concat33, cart_reflect. f_equal; ring. }
  unfold mee_with_a2sv. unfold elems at 1.
  change (mk6 (nmul (Num:=RNum) a (nsub (Num:=RNum) (nsub (Num:=RNum) (nofZ (Num:=RNum) 1) (sq (N:=RNum) f)) (sq (N:=RNum) g))) f g 0 0 l)
    with (elems (a * (1 - f * f - g * g)) f g 0 0 l).
  rewrite mee2kep_eq by lra. cbn [bind]. rewrite A, B, C.
  replace (a * (1 - f * f - g * g) / (1 - sqrt (f * f + g * g) * sqrt (f * f + g * g))) with a by (rewrite E2; field; lra). reflexivity.
Qed.
Lemma C96_kep2mee a e i ra om ta : kep2mee_with_a (N:=RNum) (elems a e i (ra + PI) (om + PI) ta) =
  let 'mk6 a f g h k l := kep2mee_with_a (N:=RNum) (elems a e i ra om ta) in @mk6 RNum a f g (- h) (- k) (l + 2 * PI).
Proof.
  unfold kep2mee_with_a, elems. cbn [nadd nmul ncos nsin ntan ndiv nofZ RNum]. replace (ra + PI + (om + PI)) with (ra + om + 2 * PI) by ring.
  replace (om + PI + (ra + PI)) with (om + ra + 2 * PI) by ring. 
  assert (C : forall x, cos (x + 2 * PI) = cos x) by (intros x; rewrite cos_plus, cos_2PI, sin_2PI; ring).
  assert (S : forall x, sin (x + 2 * PI) = sin x) by (intros x; rewrite sin_plus, cos_2PI, sin_2PI; ring).
  rewrite C, S, !neg_cos, !neg_sin. f_equal; ring.
Qed.
Lemma C96_kep_case : let z := EtaFloat (N:=XNum) (Fin 0) in built Keplerian o_low /\
  exists o' h, solve (N:=XNum) 11 (qlaw_reflect Keplerian o_low) z z = Returns o' /\ q_hist o' = Some h /\ length (h_states h) = 11%nat /\ q_exitcode o' = (-3)%Z.
Proof.
  intros z. destruct C82_case as (F & B & P & RM & Q). pose proof F as (Bo & _). split; [exact Bo|].
  destruct (C82_lem o_low p_low z z a_low F B P RM Q ltac:(discriminate) 11%nat ltac:(cbn; lia)) as (o' & h & (R1 & _ & R3) & X & _ & _ & Len & _).
  exists (qlaw_reflect Keplerian o'), (hist_reflect Keplerian h). pose proof (solve_reflect Keplerian o_low Bo 11 z z) as E. rewrite R1 in E. split; [exact E|].
  cbn [qlaw_reflect q_hist q_exitcode]. rewrite R3. split; [reflexivity|]. split; [|exact X]. cbn [hist_reflect h_states]. rewrite map_length. exact Len.
Qed.
Lemma C97_case : built MeeWithA o_one /\ q_problem o_one = Some p_fin /\ flat (p_oe0 p_fin) /\ (exists a f g, p_oeT p_fin = [a; f; g; Fin 0; Fin 0]) /\ keeps_flat o_one /\
  exists pl c, plan (N:=XNum) o_one p_fin (init_state (N:=XNum) p_fin) = Ok pl /\
    control (N:=XNum) o_one p_fin (eta 0) (eta 0) (init_state (N:=XNum) p_fin) pl (Fin 1) = Ok (Ctl c) /\ c_thr c = 1%Z /\ c_u c = @mk3 XNum (Fin 0) (Fin 1) (Fin 0).
Proof.
  split; [exact (proj1 C91_mee_case)|]. split; [reflexivity|]. split; [split; left; reflexivity|]. split; [do 3 eexists; reflexivity|].
  split; [intros f t oe v E; discriminate|].
  destruct C90_on_case as (c & E & T & _ & U).
  assert (P : exists pl, plan (N:=XNum) o_one p_fin (init_state (N:=XNum) p_fin) = Ok pl /\ pl_duty pl = true).
  { assert (A1 : nltb (Num:=XNum) (Fin 100) (nsub (Num:=XNum) (Fin 0) (Fin 0)) = false) by (cbn; apply Rltb_false; lra).
    assert (A2 : nleb (Num:=XNum) (Fin 1) (nadd (Num:=XNum) (Fin 0) (dec (N:=XNum) 1 12)) = false).
    { rewrite xdec. cbn [nadd nleb XNum xadd]. unfold xleb. cbn [xltb xeqb].
      assert (L : 0 + 1 / IZR (10 ^ Z.of_nat 12) < 1).
      { rewrite Rplus_0_l. apply Rmult_lt_reg_r with (IZR (10 ^ Z.of_nat 12)); [apply IZR_lt; reflexivity|]. unfold Rdiv. rewrite Rmult_assoc, Rinv_l by (apply not_0_IZR; discriminate).
        rewrite !Rmult_1_l. apply IZR_lt. reflexivity. }
      rewrite (proj2 (Rltb_false _ _)) by lra. apply Reqb_false. lra. }
    assert (A3 : nltb (Num:=XNum) (nsub (Num:=XNum) (Fin 1) (nmul (Num:=XNum) (Fin 0) (Fin 1))) (Fin 0) = false) by (cbn; apply Rltb_false; lra).
    unfold plan, local_step, init_state, duty_phase, battery_phase, recharge_phase.
    cbn [bind o_one q_sundman l_t l_batt l_duty l_ton l_toff l_chg p_fin p_batt0 p_t_step p_duty_on p_duty_off p_cap_lo p_cap_hi p_discharge p_full].
    change (nofZ (Num:=XNum) 0) with (Fin 0). rewrite A1. cbn [andb]. rewrite andb_false_r. rewrite A2, A3. eexists. split; reflexivity. }
  destruct P as (pl & P & D). exists pl, c. split; [exact P|]. split; [|split; assumption].
  rewrite <- E. change s_fin with (init_state (N:=XNum) p_fin). generalize (init_state (N:=XNum) p_fin). intros s.
  assert (L : lyap_call (N:=XNum) o_one p_fin (Fin 1) (l_oe s) = lyap_call (N:=XNum) o_fin p_fin (Fin 1) (l_oe s)) by (unfold lyap_call, o_one, o_fin; cbn [q_lyap q_mu q_rpmin q_m q_n q_r q_b q_k q_wp]; reflexivity).
  assert (M : evaluate_osculating_qdot (N:=XNum) o_one p_fin (l_oe s) (Fin 1) = evaluate_osculating_qdot (N:=XNum) o_fin p_fin (l_oe s) (Fin 1))
    by (unfold evaluate_osculating_qdot, o_one, o_fin; cbn [q_grid q_dqdt q_mu q_rpmin q_m q_n q_r q_b q_k q_wp]; reflexivity).
  unfold control. rewrite D, L. change (pl_duty pl_fin) with true. cbv iota. apply bind_ext. intros [[[[[al be] v] psi] q] qd]. rewrite M. change (q_nan_thr o_one) with (q_nan_thr o_fin). reflexivity.
Qed.

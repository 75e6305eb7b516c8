(** The Keplerian Q over the reals: its parts, its sign, its zeros, where it is differentiable. *)
From Coq Require Import Reals Lra Lia ZArith List Bool Psatz.
From Verif Require Import RMath RLib DLib Num Base Lyapunov Symbolic SymKep RSpec ElemProofs DiffProofs.
Import ListNotations.
Local Open Scope R_scope.

(** ** The cubic of the optimal anomaly for the argument of periapsis *)
Definition cbrt (x : R) : R := Rpower x (1 / 3).
Lemma cbrt_pos x : 0 < cbrt x.
Proof. apply exp_pos. Qed.
Lemma cbrt_cube x : 0 < x -> cbrt x * cbrt x * cbrt x = x.
Proof.
  intros H. unfold cbrt. rewrite <- !Rpower_plus. replace (1 / 3 + 1 / 3 + 1 / 3) with 1 by field. apply Rpower_1, H.
Qed.
Definition ta_root (e : R) : R := sqrt (1 / 4 * ((1 - e * e) / (e * e * e) * ((1 - e * e) / (e * e * e))) + 1 / 27).
Definition ta_b1 (e : R) : R := (1 - e * e) / (2 * (e * e * e)) + ta_root e.
Definition ta_b2 (e : R) : R := - (1 - e * e) / (2 * (e * e * e)) + ta_root e.
Definition cos_opt (e : R) : R := cbrt (ta_b1 e) - cbrt (ta_b2 e) - 1 / e.
Lemma ta_bases e : 0 < e < 1 -> 0 < ta_b1 e /\ 0 < ta_b2 e /\ ta_b1 e * ta_b2 e = 1 / 27.
Proof.
  intros H. assert (E3 : 0 < e * e * e) by (repeat apply Rmult_lt_0_compat; lra).
  assert (X : 0 < (1 - e * e) / (2 * (e * e * e))) by (apply Rdiv_lt_0_compat; nra).
  unfold ta_b1, ta_b2. set (x := (1 - e * e) / (2 * (e * e * e))) in *.
  replace (- (1 - e * e) / (2 * (e * e * e))) with (- x) by (unfold x; field; lra).
  assert (Rt : ta_root e = sqrt (x * x + 1 / 27)). { unfold ta_root, x. f_equal. field. lra. }
  rewrite Rt. assert (S : sqrt (x * x + 1 / 27) * sqrt (x * x + 1 / 27) = x * x + 1 / 27) by (apply sqrt_sqrt; nra).
  assert (L : x < sqrt (x * x + 1 / 27)).
  { assert (P : 0 < sqrt (x * x + 1 / 27)) by (apply sqrt_lt_R0; nra). nra. }
  repeat split; lra.
Qed.
Lemma cos_opt_spec e : 0 < e < 1 ->
  let w := 1 + e * cos_opt e in w * w * w + e * e * w = 1 - e * e /\ 0 < w /\ -1 < cos_opt e < 1.
Proof.
  intros H. destruct (ta_bases e H) as (B1 & B2 & B12). unfold cos_opt.
  set (t1 := cbrt (ta_b1 e)). set (t2 := cbrt (ta_b2 e)).
  assert (C1 : t1 * t1 * t1 = ta_b1 e) by (apply cbrt_cube, B1).
  assert (C2 : t2 * t2 * t2 = ta_b2 e) by (apply cbrt_cube, B2).
  assert (P1 : 0 < t1) by apply cbrt_pos. assert (P2 : 0 < t2) by apply cbrt_pos.
  assert (T : t1 * t2 = 1 / 3).
  { assert (K : (t1 * t2 - 1 / 3) * ((t1 * t2) * (t1 * t2) + t1 * t2 / 3 + 1 / 9) = 0).
    { replace ((t1 * t2 - 1 / 3) * ((t1 * t2) * (t1 * t2) + t1 * t2 / 3 + 1 / 9))
        with ((t1 * t1 * t1) * (t2 * t2 * t2) - 1 / 27) by field. rewrite C1, C2, B12. ring. }
    apply Rmult_integral in K as [K|K]; [lra|]. assert (0 < t1 * t2) by (apply Rmult_lt_0_compat; assumption). nra. }
  assert (D : ta_b1 e - ta_b2 e = (1 - e * e) / (e * e * e)) by (unfold ta_b1, ta_b2; field; lra).
  clearbody t1 t2. rewrite <- C1, <- C2 in D. clear B1 B2 B12 C1 C2.
  set (u := t1 - t2).
  assert (U : u * u * u + u = (1 - e * e) / (e * e * e)).
  { rewrite <- D. unfold u. replace ((t1 - t2) * (t1 - t2) * (t1 - t2) + (t1 - t2))
      with (t1 * t1 * t1 - t2 * t2 * t2 + (t1 - t2) * (1 - 3 * (t1 * t2))) by ring. rewrite T. field. }
  change (t1 - t2 - 1 / e) with (u - 1 / e). set (w := 1 + e * (u - 1 / e)). assert (W : w = e * u) by (unfold w; field; lra).
  assert (Q : w * w * w + e * e * w = 1 - e * e).
  { rewrite W. replace (e * u * (e * u) * (e * u) + e * e * (e * u)) with (e * e * e * (u * u * u + u)) by ring.
    rewrite U. field. lra. }
  assert (Wp : 0 < w).
  { destruct (Rlt_le_dec 0 w) as [|L]; [assumption|exfalso].
    assert (w * (w * w + e * e) <= 0) by nra. nra. }
  split; [exact Q|]. split; [exact Wp|].
  assert (Cw : u - 1 / e = (w - 1) / e) by (rewrite W; field; lra).
  rewrite Cw.
  assert (A : w < 1 + e).
  { destruct (Rlt_le_dec w (1 + e)) as [|L]; [assumption|exfalso].
    assert (1 <= w) by lra. assert (1 <= w * w) by nra. assert (w <= w * w * w) by nra. nra. }
  assert (B : 1 - e < w).
  { destruct (Rlt_le_dec (1 - e) w) as [|L]; [assumption|exfalso].
    assert (w * (w * w + e * e) <= (1 - e) * ((1 - e) * (1 - e) + e * e)).
    { apply Rmult_le_compat; nra. }
    assert ((1 - e) * ((1 - e) * (1 - e) + e * e) < (1 - e) * (1 + e)) by (apply Rmult_lt_compat_l; nra). nra. }
  split; apply (Rmult_lt_reg_r e); try lra; unfold Rdiv; rewrite Rmult_assoc, Rinv_l; lra.
Qed.

(** ** sqrt(1 - s^2) > |c| on an ellipse *)
Lemma ell_gap e s c : 0 <= e < 1 -> s * s + c * c = 1 -> 0 < sqrt (1 - e * e * (s * s)) - e * sqrt (c * c).
Proof.
  intros H S. change (c * c) with (Rsqr c). rewrite sqrt_Rsqr_abs.
  assert (A : 0 <= Rabs c) by apply Rabs_pos. assert (AA : Rabs c * Rabs c = c * c) by (unfold Rabs; destruct (Rcase_abs c); ring).
  assert (S2 : sqrt (1 - e * e * (s * s)) * sqrt (1 - e * e * (s * s)) = 1 - e * e * (s * s)).
  { apply sqrt_sqrt. assert (e * e <= 1) by nra. assert (s * s <= 1) by nra. assert (0 <= s * s) by nra. nra. }
  pose proof (sqrt_pos (1 - e * e * (s * s))) as P. set (q := sqrt (1 - e * e * (s * s))) in *.
  assert (0 <= e * Rabs c) by nra.
  assert (q * q - e * Rabs c * (e * Rabs c) = 1 - e * e).
  { rewrite S2. replace (e * Rabs c * (e * Rabs c)) with (e * e * (Rabs c * Rabs c)) by ring. rewrite AA. nra. }
  assert (0 < 1 - e * e) by nra. nra.
Qed.

Lemma sub_zero x y : x - y = 0 <-> x = y.
Proof. lra. Qed.
Lemma sum_zero P A0 A1 A2 A3 A4 : 0 < P -> 0 <= A0 -> 0 <= A1 -> 0 <= A2 -> 0 <= A3 -> 0 <= A4 ->
  0 <= P * (A0 + A1 + A2 + A3 + A4) /\ (P * (A0 + A1 + A2 + A3 + A4) = 0 <-> A0 = 0 /\ A1 = 0 /\ A2 = 0 /\ A3 = 0 /\ A4 = 0).
Proof.
  intros HP H0 H1 H2 H3 H4. split; [apply Rmult_le_pos; lra|]. split.
  - intros E. apply Rmult_integral in E as [E|E]; [lra|]. repeat split; lra.
  - intros (E0 & E1 & E2 & E3 & E4). rewrite E0, E1, E2, E3, E4. ring.
Qed.

Lemma sqrt_ell e s c : 0 <= e < 1 -> s * s + c * c = 1 -> 0 < 1 - e * e * (s * s).
Proof. intros He S. assert (e * e < 1) by nra. assert (s * s <= 1) by nra. assert (0 <= s * s) by nra. nra. Qed.
Lemma root_arg y : 0 < 1 / 4 * (y * y) + 1 / 27.
Proof. nra. Qed.
Lemma neg_div x y : x < 0 -> 0 < y -> x / y < 0.
Proof. intros X Y. unfold Rdiv. assert (0 < / y) by (apply Rinv_0_lt_compat, Y). nra. Qed.
Lemma sc2 x : sin x * sin x + cos x * cos x = 1.
Proof. apply sincos. Qed.
Lemma sq_pos x : x <> 0 -> 0 < x * x.
Proof. intros H. apply Rsqr_pos_lt in H. exact H. Qed.
Lemma acos_arg x : sin x <> 0 -> -1 < cos x < 1.
Proof. intros H. pose proof (sc2 x) as S. pose proof (sq_pos _ H). nra. Qed.
Lemma powerRZ_even x j : x <> 0 -> 0 < powerRZ x (2 * j).
Proof.
  intros H. replace (2 * j)%Z with (j + j)%Z by lia. rewrite powerRZ_add by exact H.
  pose proof (powerRZ_NOR x j H). nra.
Qed.
Lemma sq_zero w s d o : 0 <= w -> 0 < s -> o <> 0 -> 0 <= w * s * (d / o * (d / o)) /\ (w * s * (d / o * (d / o)) = 0 <-> w = 0 \/ d = 0).
Proof.
  intros Hw Hs Ho. split; [apply Rmult_le_pos; [nra|nra]|]. split.
  - intros E. apply Rmult_integral in E as [E|E].
    + apply Rmult_integral in E as [E|E]; [left; exact E|lra].
    + right. assert (Z : d / o = 0) by (apply Rmult_integral in E as [E|E]; exact E).
      apply (Rmult_eq_compat_r o) in Z. unfold Rdiv in Z. rewrite Rmult_assoc, Rinv_l in Z by exact Ho. lra.
  - intros [->| ->]; unfold Rdiv; ring.
Qed.
Lemma acos_cos_zero x y : acos (cos (x - y)) = 0 <-> same_angle x y.
Proof.
  split; intros H.
  - assert (C : cos (x - y) = 1). { rewrite <- (cos_acos (cos (x - y))); [rewrite H; apply cos_0|]. pose proof (COS_bound (x - y)). lra. }
    apply same_angle_iff. pose proof (sincos (x - y)) as S. rewrite C in S. assert (Z : sin (x - y) = 0) by nra.
    replace x with (x - y + y) by ring. rewrite cos_plus, sin_plus, C, Z. split; ring.
  - apply same_angle_iff in H as [C S].
    assert (E : cos (x - y) = 1). { rewrite cos_minus, C, S. pose proof (sincos y). lra. }
    rewrite E. apply acos_unique; [pose proof PI_RGT_0; lra|apply cos_0].
Qed.

Section Kep.
Variables mu f a e i ra om ta aT eT iT raT omT rpmin m n r b k wp w0 w1 w2 w3 w4 : R.
Let env := mkenv (N:=RNum) mu f (elems a e i ra om ta) (@mk5 RNum aT eT iT raT omT) rpmin m n r b k wp (@mk5 RNum w0 w1 w2 w3 w4).
Hypotheses (Hmu : 0 < mu) (Ha : 0 < a) (He : 0 < e < 1) (Hi : 0 < sin i) (Hb : 0 <= b).

Definition kp := a * (1 - e * e).
Definition kh := sqrt (a * mu * (1 - e * e)).
Lemma kp_pos : 0 < kp.
Proof. unfold kp. apply Rmult_lt_0_compat; nra. Qed.
Lemma kamu_pos : 0 < a * mu * (1 - e * e).
Proof. repeat apply Rmult_lt_0_compat; nra. Qed.
Lemma kh_pos : 0 < kh.
Proof. apply sqrt_lt_R0, kamu_pos. Qed.
Lemma kh_sq : kh * kh = mu * kp.
Proof. unfold kh, kp. rewrite sqrt_sqrt; [ring|]. pose proof kamu_pos. lra. Qed.
Lemma ev_p : reval env SymKep.p = kp.
Proof. reflexivity. Qed.
Lemma ev_h : reval env SymKep.h = kh.
Proof. reflexivity. Qed.

(** normalisers *)
Definition N0 := 2 * f * sqrt (a * a * a * (1 + e) / (mu * (1 - e))).
Definition N1 := 2 * kp * f / kh.
Definition N2 := kp * f / (kh * (sqrt (1 - e * e * (sin om * sin om)) - e * sqrt (cos om * cos om))).
Definition N3 := kp * f / (kh * sin i * (sqrt (1 - e * e * (cos om * cos om)) - e * sqrt (sin om * sin om))).
Definition N4i := let c := cos_opt e in let rx := kp / (1 + e * c) in
  f / (e * kh) * sqrt (kp * kp * (c * c) + (kp + rx) * (kp + rx) * (1 - c * c)).
Definition N4o := N3 * sqrt (cos i * cos i).
Definition N4 := (N4i + b * N4o) / (1 + b).
Lemma ev_o0 : reval env SymKep.oedot0 = N0.
Proof. reflexivity. Qed.
Lemma ev_o1 : reval env SymKep.oedot1 = N1.
Proof. reflexivity. Qed.
Lemma ev_o2 : reval env SymKep.oedot2 = N2.
Proof. reflexivity. Qed.
Lemma ev_o3 : reval env SymKep.oedot3 = N3.
Proof. reflexivity. Qed.
Lemma ev_b1 : reval env ((#1 - SymKep.e^2) / (#2 * SymKep.e^3) + SymKep.cos_ta_xx_sqrt)%expr = ta_b1 e.
Proof. reflexivity. Qed.
Lemma ev_b2 : reval env (- (#1 - SymKep.e^2) / (#2 * SymKep.e^3) + SymKep.cos_ta_xx_sqrt)%expr = ta_b2 e.
Proof. reflexivity. Qed.
Lemma ev_t1 : reval env SymKep.ta_xx_term1 = cbrt (ta_b1 e).
Proof.
  unfold SymKep.ta_xx_term1. rewrite ev_pow, ev_b1. change (reval env (ERat 1 3)) with (1 / 3). apply rpow_pos, (ta_bases e He).
Qed.
Lemma ev_t2 : reval env SymKep.ta_xx_term2 = cbrt (ta_b2 e).
Proof.
  unfold SymKep.ta_xx_term2. rewrite ev_pow, ev_b2. change (reval env (ERat 1 3)) with (1 / 3). apply rpow_pos, (ta_bases e He).
Qed.
Lemma ev_cx : reval env SymKep.cos_ta_xx = cos_opt e.
Proof.
  unfold SymKep.cos_ta_xx. rewrite !ev_sub, ev_t1, ev_t2, ev_div, ev_int. reflexivity.
Qed.
Lemma ev_rx : reval env SymKep.r_xx = kp / (1 + e * cos_opt e).
Proof. unfold SymKep.r_xx. rewrite ev_div, ev_add, ev_mul, ev_cx, ev_int. reflexivity. Qed.
Lemma ev_o4i : reval env SymKep.omdot_i = N4i.
Proof.
  unfold SymKep.omdot_i. rewrite ev_mul, ev_sqrt, ev_add, !ev_mul, ev_sub, !ev_sq, ev_add, ev_cx, ev_rx. reflexivity.
Qed.
Lemma ev_o4o : reval env SymKep.omdot_o = N4o.
Proof. reflexivity. Qed.
Lemma ev_o4 : reval env SymKep.oedot4 = N4.
Proof.
  unfold SymKep.oedot4, SymKep.omdot. rewrite ev_div, !ev_add, ev_mul, ev_o4i, ev_o4o. reflexivity.
Qed.

Definition G2 := sqrt (1 - e * e * (sin om * sin om)) - e * sqrt (cos om * cos om).
Definition G3 := sqrt (1 - e * e * (cos om * cos om)) - e * sqrt (sin om * sin om).
Lemma G2_pos : 0 < G2.
Proof. apply ell_gap; [lra|apply sc2]. Qed.
Lemma G3_pos : 0 < G3.
Proof. apply ell_gap; [lra|]. pose proof (sc2 om). lra. Qed.
Definition K0 := 2 * sqrt (a * a * a * (1 + e) / (mu * (1 - e))).
Definition K3 := kp / (kh * sin i * G3).
Definition K4i := let c := cos_opt e in let rx := kp / (1 + e * c) in
  / (e * kh) * sqrt (kp * kp * (c * c) + (kp + rx) * (kp + rx) * (1 - c * c)).
Lemma a3_pos : 0 < a * a * a * (1 + e) / (mu * (1 - e)).
Proof. apply Rdiv_lt_0_compat; repeat apply Rmult_lt_0_compat; lra. Qed.
Lemma in4_pos : let c := cos_opt e in let rx := kp / (1 + e * c) in
  0 < kp * kp * (c * c) + (kp + rx) * (kp + rx) * (1 - c * c).
Proof.
  destruct (cos_opt_spec e He) as (_ & W & C). intros c rx. fold c in W, C.
  assert (Rx : 0 < rx) by (apply Rdiv_lt_0_compat; [exact kp_pos|exact W]).
  pose proof kp_pos as P. assert (0 < (kp + rx) * (kp + rx) * (1 - c * c)) by (repeat apply Rmult_lt_0_compat; nra).
  assert (0 <= kp * kp * (c * c)) by (apply Rmult_le_pos; nra). lra.
Qed.
Lemma K0_pos : 0 < K0.
Proof. apply Rmult_lt_0_compat; [lra|apply sqrt_lt_R0, a3_pos]. Qed.
Lemma K3_pos : 0 < K3.
Proof. apply Rdiv_lt_0_compat; [exact kp_pos|]. repeat apply Rmult_lt_0_compat; [exact kh_pos|exact Hi|exact G3_pos]. Qed.
Lemma K4i_pos : 0 < K4i.
Proof.
  apply Rmult_lt_0_compat; [apply Rinv_0_lt_compat, Rmult_lt_0_compat; [lra|exact kh_pos]|apply sqrt_lt_R0, in4_pos].
Qed.
Definition K4 := (K4i + b * (K3 * sqrt (cos i * cos i))) / (1 + b).
Lemma K4_pos : 0 < K4.
Proof.
  apply Rdiv_lt_0_compat; [|lra]. pose proof K4i_pos. pose proof K3_pos.
  assert (0 <= b * (K3 * sqrt (cos i * cos i))). { apply Rmult_le_pos; [exact Hb|]. apply Rmult_le_pos; [lra|apply sqrt_pos]. } lra.
Qed.
Lemma N0_f : N0 = f * K0. Proof. unfold N0, K0. ring. Qed.
Lemma N1_f : N1 = f * (2 * kp / kh). Proof. unfold N1, Rdiv. ring. Qed.
Lemma N2_f : N2 = f * (kp / (kh * G2)). Proof. unfold N2. fold G2. unfold Rdiv. ring. Qed.
Lemma N3_f : N3 = f * K3. Proof. unfold N3, K3. fold G3. unfold Rdiv. ring. Qed.
Lemma N4i_f : N4i = f * K4i. Proof. unfold N4i, K4i. cbv zeta. unfold Rdiv. ring. Qed.
Lemma N4_f : N4 = f * K4. Proof. unfold N4, K4, N4o. rewrite N4i_f, N3_f. unfold Rdiv. ring. Qed.

(** ** Q *)
Definition amp := rpow (1 + rpow ((a - aT) / (m * aT)) n) (1 / r).
Definition pen := exp (k * (1 - a * (1 - e) / rpmin)).
Definition Qkep := (1 + wp * pen) *
  (w0 * amp * ((a - aT) / N0 * ((a - aT) / N0)) + w1 * 1 * ((e - eT) / N1 * ((e - eT) / N1))
   + w2 * 1 * ((i - iT) / N2 * ((i - iT) / N2))
   + w3 * 1 * (acos (cos (ra - raT)) / N3 * (acos (cos (ra - raT)) / N3))
   + w4 * 1 * (acos (cos (om - omT)) / N4 * (acos (cos (om - omT)) / N4))).
Lemma ev_q : reval env SymKep.q = Qkep.
Proof.
  unfold SymKep.q. rewrite ev_mul, !ev_add, !ev_mul, !ev_sq, !ev_div, ev_o0, ev_o1, ev_o2, ev_o3, ev_o4. reflexivity.
Qed.

Hypotheses (Hf : f <> 0) (HaT : 0 < aT) (Hm : 0 < m) (Hn : 0 < n)
  (HnE : aT <= a \/ exists j, n = IZR (2 * j)) (Hwp : 0 <= wp).
Lemma amp_arg : 0 <= rpow ((a - aT) / (m * aT)) n.
Proof.
  assert (M : 0 < m * aT) by (apply Rmult_lt_0_compat; assumption).
  destruct (Rtotal_order a aT) as [L|[E|G]].
  - destruct HnE as [H|[j Hj]]; [lra|]. rewrite Hj, rpow_neg.
    + apply Rlt_le, powerRZ_even. apply Rmult_integral_contrapositive_currified; [lra|apply Rinv_neq_0_compat; lra].
    + apply neg_div; [lra|exact M].
  - replace ((a - aT) / (m * aT)) with 0 by (rewrite E; field; lra). rewrite rpow_0 by exact Hn. lra.
  - rewrite rpow_pos; [apply Rlt_le, exp_pos|]. apply Rdiv_lt_0_compat; lra.
Qed.
Lemma amp_pos : 0 < amp.
Proof. unfold amp. pose proof amp_arg. rewrite rpow_pos by lra. apply exp_pos. Qed.
Lemma Q_sign : 0 <= w0 -> 0 <= w1 -> 0 <= w2 -> 0 <= w3 -> 0 <= w4 ->
  0 <= Qkep /\
  (Qkep = 0 <-> (w0 = 0 \/ a = aT) /\ (w1 = 0 \/ e = eT) /\ (w2 = 0 \/ i = iT) /\ (w3 = 0 \/ same_angle ra raT) /\ (w4 = 0 \/ same_angle om omT)).
Proof.
  intros W0 W1 W2 W3 W4. unfold Qkep.
  assert (NZ : forall x, 0 < x -> f * x <> 0) by (intros x Hx; apply Rmult_integral_contrapositive_currified; [exact Hf|lra]).
  assert (O0 : N0 <> 0) by (rewrite N0_f; apply NZ, K0_pos).
  assert (O1 : N1 <> 0). { rewrite N1_f. apply NZ, Rdiv_lt_0_compat; [pose proof kp_pos; lra|exact kh_pos]. }
  assert (O2 : N2 <> 0). { rewrite N2_f. apply NZ, Rdiv_lt_0_compat; [exact kp_pos|apply Rmult_lt_0_compat; [exact kh_pos|exact G2_pos]]. }
  assert (O3 : N3 <> 0) by (rewrite N3_f; apply NZ, K3_pos).
  assert (O4 : N4 <> 0) by (rewrite N4_f; apply NZ, K4_pos).
  destruct (sq_zero w0 amp (a - aT) N0 W0 amp_pos O0) as [P0 Z0].
  destruct (sq_zero w1 1 (e - eT) N1 W1 Rlt_0_1 O1) as [P1 Z1].
  destruct (sq_zero w2 1 (i - iT) N2 W2 Rlt_0_1 O2) as [P2 Z2].
  destruct (sq_zero w3 1 (acos (cos (ra - raT))) N3 W3 Rlt_0_1 O3) as [P3 Z3].
  destruct (sq_zero w4 1 (acos (cos (om - omT))) N4 W4 Rlt_0_1 O4) as [P4 Z4].
  rewrite acos_cos_zero in Z3, Z4.
  assert (PP : 0 < 1 + wp * pen).
  { assert (X : 0 < pen) by apply exp_pos. assert (0 <= wp * pen) by (apply Rmult_le_pos; [exact Hwp|apply Rlt_le, X]). lra. }
  set (A0 := w0 * _ * _) in *. set (A1 := w1 * _ * _) in *. set (A2 := w2 * _ * _) in *. set (A3 := w3 * _ * _) in *. set (A4 := w4 * _ * _) in *.
  destruct (sum_zero _ A0 A1 A2 A3 A4 PP P0 P1 P2 P3 P4) as [Pos Zero].
  split; [exact Pos|]. rewrite Zero, Z0, Z1, Z2, Z3, Z4, !sub_zero. reflexivity.
Qed.

(** ** Differentiability *)
Hypotheses (Hrp : rpmin <> 0) (Hr : r <> 0) (Hne : a <> aT) (Hco : cos om <> 0) (Hso : sin om <> 0) (Hci : cos i <> 0)
  (Hra : sin (ra - raT) <> 0) (Hom : sin (om - omT) <> 0).
Ltac sm := cbn [smooth]; repeat match goal with |- _ /\ _ => split end; try exact I.
Lemma S_p : smooth env SymKep.p. Proof. unfold SymKep.p, SymKep.a, SymKep.e. cbn. tauto. Qed.
Lemma S_h : smooth env SymKep.h.
Proof. unfold SymKep.h. cbn. repeat split. exact kamu_pos. Qed.
Lemma S_radot : smooth env SymKep.radot.
Proof.
  unfold SymKep.radot. sm; try apply S_p; try apply S_h.
  - pose proof (sc2 om) as X. apply (sqrt_ell e (cos om) (sin om)); lra.
  - apply sq_pos, Hso.
  - apply Rgt_not_eq. change (0 < kh * sin i * G3). repeat apply Rmult_lt_0_compat; [exact kh_pos|exact Hi|exact G3_pos].
Qed.
Lemma e3_pos : 0 < e * e * e.
Proof. repeat apply Rmult_lt_0_compat; lra. Qed.
Lemma S_root : smooth env SymKep.cos_ta_xx_sqrt.
Proof.
  unfold SymKep.cos_ta_xx_sqrt. sm; pose proof e3_pos as X.
  - apply Rgt_not_eq, X.
  - change (0 < 1 / 4 * ((1 - e * e) / (e * e * e) * ((1 - e * e) / (e * e * e))) + 1 / 27).
    apply root_arg.
Qed.
Lemma S_t1 : smooth env SymKep.ta_xx_term1.
Proof.
  unfold SymKep.ta_xx_term1. sm; try apply S_root; try reflexivity.
  - apply Rgt_not_eq. pose proof e3_pos. change (0 < 2 * (e * e * e)). lra.
  - left. rewrite ev_b1. apply (ta_bases e He).
Qed.
Lemma S_t2 : smooth env SymKep.ta_xx_term2.
Proof.
  unfold SymKep.ta_xx_term2. sm; try apply S_root; try reflexivity.
  - apply Rgt_not_eq. pose proof e3_pos. change (0 < 2 * (e * e * e)). lra.
  - left. rewrite ev_b2. apply (ta_bases e He).
Qed.
Lemma S_cx : smooth env SymKep.cos_ta_xx.
Proof. unfold SymKep.cos_ta_xx. sm; [apply S_t1|apply S_t2|]. apply Rgt_not_eq. change (0 < e). lra. Qed.
Lemma S_rx : smooth env SymKep.r_xx.
Proof.
  unfold SymKep.r_xx. sm; [apply S_p|apply S_cx|]. rewrite ev_add, ev_mul, ev_cx, ev_int. change (reval env SymKep.e) with e.
  destruct (cos_opt_spec e He) as (_ & W & _). apply Rgt_not_eq, W.
Qed.
Lemma S_o4i : smooth env SymKep.omdot_i.
Proof.
  unfold SymKep.omdot_i. sm; try apply S_p; try apply S_h; try apply S_cx; try apply S_rx.
  - apply Rgt_not_eq. change (0 < e * kh). apply Rmult_lt_0_compat; [lra|exact kh_pos].
  - rewrite ev_add, !ev_mul, ev_sub, !ev_sq, ev_add, ev_cx, ev_rx. exact in4_pos.
Qed.
Lemma S_o4 : smooth env SymKep.oedot4.
Proof.
  unfold SymKep.oedot4, SymKep.omdot, SymKep.omdot_o. sm; try apply S_o4i; try apply S_radot.
  - apply sq_pos, Hci.
  - apply Rgt_not_eq. change (0 < 1 + b). lra.
Qed.
Lemma S_o0 : smooth env SymKep.oedot0.
Proof.
  unfold SymKep.oedot0. sm.
  - apply Rgt_not_eq. change (0 < mu * (1 - e)). apply Rmult_lt_0_compat; lra.
  - exact a3_pos.
Qed.
Lemma S_o1 : smooth env SymKep.oedot1.
Proof. unfold SymKep.oedot1. sm; [apply S_p|apply S_h|]. rewrite ev_h. apply Rgt_not_eq, kh_pos. Qed.
Lemma S_o2 : smooth env SymKep.oedot2.
Proof.
  unfold SymKep.oedot2. sm; try apply S_p; try apply S_h.
  - apply (sqrt_ell e (sin om) (cos om)); [lra|apply sc2].
  - apply sq_pos, Hco.
  - apply Rgt_not_eq. change (0 < kh * G2). apply Rmult_lt_0_compat; [exact kh_pos|exact G2_pos].
Qed.
Lemma S_soe : smooth env SymKep.soe0.
Proof.
  assert (M : 0 < m * aT) by (apply Rmult_lt_0_compat; assumption).
  unfold SymKep.soe0. sm; try reflexivity.
  - apply Rgt_not_eq, M.
  - change (0 < (a - aT) / (m * aT) \/ (a - aT) / (m * aT) < 0 /\ exists j, n = IZR j).
    destruct (Rlt_le_dec a aT) as [L|G].
    + right. split; [apply neg_div; [lra|exact M]|].
      destruct HnE as [H|[j Hj]]; [lra|]. exists (2 * j)%Z. exact Hj.
    + left. apply Rdiv_lt_0_compat; lra.
  - left. change (0 < 1 + rpow ((a - aT) / (m * aT)) n). pose proof amp_arg. lra.
Qed.
Lemma S_q : smooth env SymKep.q.
Proof.
  assert (NZ : forall x, 0 < x -> f * x <> 0) by (intros x Hx; apply Rmult_integral_contrapositive_currified; [exact Hf|lra]).
  unfold SymKep.q, SymKep.p_rp, SymKep.rp, SymKep.doe0, SymKep.doe1, SymKep.doe2, SymKep.doe3, SymKep.doe4. sm; try apply S_soe; try apply S_o0; try apply S_o1; try apply S_o2; try apply S_o4; try apply S_radot.
  - exact Hrp.
  - rewrite ev_o0, N0_f. apply NZ, K0_pos.
  - rewrite ev_o1, N1_f. apply NZ, Rdiv_lt_0_compat; [pose proof kp_pos; lra|exact kh_pos].
  - rewrite ev_o2, N2_f. apply NZ, Rdiv_lt_0_compat; [exact kp_pos|apply Rmult_lt_0_compat; [exact kh_pos|exact G2_pos]].
  - apply acos_arg, Hra.
  - apply acos_arg, Hra.
  - rewrite ev_o3, N3_f. apply NZ, K3_pos.
  - apply acos_arg, Hom.
  - apply acos_arg, Hom.
  - rewrite ev_o4, N4_f. apply NZ, K4_pos.
Qed.
End Kep.

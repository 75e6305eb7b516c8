(** The equinoctial Q over the reals: its parts, its sign, its zeros, where it is differentiable. *)
From Coq Require Import Reals Lra Lia ZArith List Bool Psatz.
From Verif Require Import RMath RLib DLib Num Base Lyapunov Symbolic SymMee RSpec ElemProofs DiffProofs KepQ.
Import ListNotations.
Local Open Scope R_scope.

Lemma mee_gap f g : f * f + g * g < 1 -> 0 < 1 - g * g /\ 0 < sqrt (1 - g * g) + f.
Proof.
  intros H. assert (P : 0 < 1 - g * g) by nra. split; [exact P|].
  assert (S : sqrt (1 - g * g) * sqrt (1 - g * g) = 1 - g * g) by (apply sqrt_sqrt; lra).
  pose proof (sqrt_lt_R0 _ P). nra.
Qed.
Lemma mee_ecc f g : f * f + g * g < 1 -> 0 <= sqrt (f * f + g * g) < 1.
Proof.
  intros H. assert (Z : 0 <= f * f + g * g) by nra. split; [apply sqrt_pos|].
  assert (S : sqrt (f * f + g * g) * sqrt (f * f + g * g) = f * f + g * g) by (apply sqrt_sqrt, Z).
  pose proof (sqrt_pos (f * f + g * g)). nra.
Qed.
Lemma mee_ecc_sq f g : sqrt (f * f + g * g) * sqrt (f * f + g * g) = f * f + g * g.
Proof. apply sqrt_sqrt. nra. Qed.
Lemma one_sq_pos h k : 0 < 1 + h * h + k * k.
Proof. nra. Qed.

(** a positive multiple of five weighted squares *)
Lemma five_zero (c w0 w1 w2 w3 w4 m x0 y0 x1 y1 x2 y2 x3 y3 x4 y4 d0 d1 d2 d3 d4 : R) : 0 < c ->
  0 <= w0 -> 0 <= w1 -> 0 <= w2 -> 0 <= w3 -> 0 <= w4 -> 0 < m -> d0 <> 0 -> d1 <> 0 -> d2 <> 0 -> d3 <> 0 -> d4 <> 0 ->
  let Q := c * (w0 * m * ((x0 - y0) / d0 * ((x0 - y0) / d0)) + w1 * 1 * ((x1 - y1) / d1 * ((x1 - y1) / d1)) + w2 * 1 * ((x2 - y2) / d2 * ((x2 - y2) / d2))
    + w3 * 1 * ((x3 - y3) / d3 * ((x3 - y3) / d3)) + w4 * 1 * ((x4 - y4) / d4 * ((x4 - y4) / d4))) in
  0 <= Q /\ (Q = 0 <-> (w0 = 0 \/ x0 = y0) /\ (w1 = 0 \/ x1 = y1) /\ (w2 = 0 \/ x2 = y2) /\ (w3 = 0 \/ x3 = y3) /\ (w4 = 0 \/ x4 = y4)).
Proof.
  intros C W0 W1 W2 W3 W4 M D0 D1 D2 D3 D4. cbv zeta.
  destruct (sq_zero w0 m (x0 - y0) d0 W0 M D0) as [P0 Z0]. destruct (sq_zero w1 1 (x1 - y1) d1 W1 Rlt_0_1 D1) as [P1 Z1].
  destruct (sq_zero w2 1 (x2 - y2) d2 W2 Rlt_0_1 D2) as [P2 Z2]. destruct (sq_zero w3 1 (x3 - y3) d3 W3 Rlt_0_1 D3) as [P3 Z3].
  destruct (sq_zero w4 1 (x4 - y4) d4 W4 Rlt_0_1 D4) as [P4 Z4].
  destruct (sum_zero c _ _ _ _ _ C P0 P1 P2 P3 P4) as [Pos Zero].
  split; [exact Pos|]. rewrite Zero, Z0, Z1, Z2, Z3, Z4, !sub_zero. reflexivity.
Qed.

Section Mee.
Variables mu acc a f g h k l aT fT gT hT kT rpmin m n r b kk wp w0 w1 w2 w3 w4 : R.
Let env := mkenv (N:=RNum) mu acc (elems a f g h k l) (@mk5 RNum aT fT gT hT kT) rpmin m n r b kk wp (@mk5 RNum w0 w1 w2 w3 w4).
Hypotheses (Hmu : 0 < mu) (Ha : 0 < a) (He : f * f + g * g < 1).
Definition me := sqrt (f * f + g * g).
Definition mp := a * (1 - f * f - g * g).
Definition msp := sqrt (mp / mu).
Lemma mp_pos : 0 < mp.
Proof. unfold mp. apply Rmult_lt_0_compat; lra. Qed.
Lemma msp_pos : 0 < msp.
Proof. apply sqrt_lt_R0, Rdiv_lt_0_compat; [exact mp_pos|exact Hmu]. Qed.
Definition L0 := 2 * a * sqrt (a / mu) * sqrt ((1 + me) / (1 - me)).
Definition L3 := 1 / 2 * msp * (1 + h * h + k * k) / (sqrt (1 - g * g) + f).
Definition L4 := 1 / 2 * msp * (1 + h * h + k * k) / (sqrt (1 - f * f) + g).
Lemma ratio_pos : 0 < (1 + me) / (1 - me).
Proof. pose proof (mee_ecc f g He) as E. fold me in E. apply Rdiv_lt_0_compat; lra. Qed.
Lemma L0_pos : 0 < L0.
Proof.
  repeat apply Rmult_lt_0_compat; try lra; apply sqrt_lt_R0; [apply Rdiv_lt_0_compat; assumption|exact ratio_pos].
Qed.
Lemma L3_pos : 0 < L3.
Proof.
  apply Rdiv_lt_0_compat; [|apply (mee_gap f g He)]. repeat apply Rmult_lt_0_compat; try lra; [exact msp_pos|apply one_sq_pos].
Qed.
Lemma swap : g * g + f * f < 1.
Proof. lra. Qed.
Lemma L4_pos : 0 < L4.
Proof.
  apply Rdiv_lt_0_compat; [|apply (mee_gap g f swap)]. repeat apply Rmult_lt_0_compat; try lra; [exact msp_pos|apply one_sq_pos].
Qed.
Lemma ev_m0 : reval env SymMee.oedot0 = acc * L0.
Proof.
  transitivity (2 * acc * a * sqrt (a / mu) * sqrt ((1 + me) / (1 - me))); [reflexivity|unfold L0; change (@eq (@car RNum)) with (@eq R); ring].
Qed.
Lemma ev_m1 : reval env SymMee.oedot1 = acc * (2 * msp).
Proof. transitivity (2 * acc * msp); [reflexivity|change (@eq (@car RNum)) with (@eq R); ring]. Qed.
Lemma ev_m2 : reval env SymMee.oedot2 = acc * (2 * msp).
Proof. transitivity (2 * acc * msp); [reflexivity|change (@eq (@car RNum)) with (@eq R); ring]. Qed.
Lemma ev_m3 : reval env SymMee.oedot3 = acc * L3.
Proof.
  transitivity (1 / 2 * acc * msp * (1 + h * h + k * k) / (sqrt (1 - g * g) + f)); [reflexivity|unfold L3, Rdiv; change (@eq (@car RNum)) with (@eq R); ring].
Qed.
Lemma ev_m4 : reval env SymMee.oedot4 = acc * L4.
Proof.
  transitivity (1 / 2 * acc * msp * (1 + h * h + k * k) / (sqrt (1 - f * f) + g)); [reflexivity|unfold L4, Rdiv; change (@eq (@car RNum)) with (@eq R); ring].
Qed.
Definition mamp := rpow (1 + rpow (sqrt ((a - aT) * (a - aT)) / (m * aT)) n) (1 / r).
Definition mpen := exp (kk * (1 - a * (1 - me) / rpmin)).
Definition Qmee := (1 + wp * mpen) *
  (w0 * mamp * ((a - aT) / (acc * L0) * ((a - aT) / (acc * L0)))
   + w1 * 1 * ((f - fT) / (acc * (2 * msp)) * ((f - fT) / (acc * (2 * msp))))
   + w2 * 1 * ((g - gT) / (acc * (2 * msp)) * ((g - gT) / (acc * (2 * msp))))
   + w3 * 1 * ((h - hT) / (acc * L3) * ((h - hT) / (acc * L3)))
   + w4 * 1 * ((k - kT) / (acc * L4) * ((k - kT) / (acc * L4)))).
Lemma ev_mq : reval env SymMee.q = Qmee.
Proof.
  unfold SymMee.q. rewrite ev_mul, !ev_add, !ev_mul, !ev_sq, !ev_div, ev_m0, ev_m1, ev_m2, ev_m3, ev_m4. reflexivity.
Qed.

Hypotheses (Hf : acc <> 0) (HaT : 0 < aT) (Hm : 0 < m) (Hn : 0 < n) (Hwp : 0 <= wp).
Lemma maT : 0 < m * aT.
Proof. apply Rmult_lt_0_compat; assumption. Qed.
Lemma mamp_arg : 0 <= rpow (sqrt ((a - aT) * (a - aT)) / (m * aT)) n.
Proof.
  destruct (sqrt_pos ((a - aT) * (a - aT))) as [P|E].
  - rewrite rpow_pos; [apply Rlt_le, exp_pos|]. apply Rdiv_lt_0_compat; [exact P|exact maT].
  - rewrite <- E. unfold Rdiv. rewrite Rmult_0_l, rpow_0 by exact Hn. lra.
Qed.
Lemma mamp_pos : 0 < mamp.
Proof. unfold mamp. pose proof mamp_arg. rewrite rpow_pos by lra. apply exp_pos. Qed.
Lemma accNZ x : 0 < x -> acc * x <> 0.
Proof. intros Hx. apply Rmult_integral_contrapositive_currified; [exact Hf|apply Rgt_not_eq, Hx]. Qed.
Lemma msp2 : 0 < 2 * msp.
Proof. pose proof msp_pos. lra. Qed.
Lemma mpen_pos : 0 < 1 + wp * mpen.
Proof.
  assert (X : 0 < mpen) by apply exp_pos. assert (0 <= wp * mpen) by (apply Rmult_le_pos; [exact Hwp|apply Rlt_le, X]). lra.
Qed.
Lemma mQ_sign : 0 <= w0 -> 0 <= w1 -> 0 <= w2 -> 0 <= w3 -> 0 <= w4 ->
  0 <= Qmee /\
  (Qmee = 0 <-> (w0 = 0 \/ a = aT) /\ (w1 = 0 \/ f = fT) /\ (w2 = 0 \/ g = gT) /\ (w3 = 0 \/ h = hT) /\ (w4 = 0 \/ k = kT)).
Proof.
  intros W0 W1 W2 W3 W4. unfold Qmee.
  exact (five_zero (1 + wp * mpen) w0 w1 w2 w3 w4 mamp a aT f fT g gT h hT k kT (acc * L0) (acc * (2 * msp)) (acc * (2 * msp)) (acc * L3) (acc * L4)
    mpen_pos W0 W1 W2 W3 W4 mamp_pos (accNZ _ L0_pos) (accNZ _ msp2) (accNZ _ msp2) (accNZ _ L3_pos) (accNZ _ L4_pos)).
Qed.

(** ** Differentiability *)
Hypotheses (Hrp : rpmin <> 0) (Hne : a <> aT) (Hecc : 0 < f * f + g * g).
Ltac sm := cbn [smooth]; repeat match goal with |- _ /\ _ => split end; try exact I.
Lemma gap_sq : 0 < (a - aT) * (a - aT).
Proof. apply sq_pos. lra. Qed.
Lemma S_mp : smooth env SymMee.sqrt_pmu.
Proof.
  unfold SymMee.sqrt_pmu, SymMee.p. sm.
  - apply Rgt_not_eq. exact Hmu.
  - change (0 < mp / mu). apply Rdiv_lt_0_compat; [exact mp_pos|exact Hmu].
Qed.
Lemma S_soe0 : smooth env SymMee.soe0.
Proof.
  unfold SymMee.soe0. sm; try reflexivity.
  - exact gap_sq.
  - apply Rgt_not_eq, maT.
  - left. change (0 < sqrt ((a - aT) * (a - aT)) / (m * aT)). apply Rdiv_lt_0_compat; [apply sqrt_lt_R0, gap_sq|exact maT].
  - left. change (0 < 1 + rpow (sqrt ((a - aT) * (a - aT)) / (m * aT)) n). pose proof mamp_arg. lra.
Qed.
Lemma S_m0 : smooth env SymMee.oedot0.
Proof.
  unfold SymMee.oedot0. sm; try exact Hecc.
  - apply Rgt_not_eq. exact Hmu.
  - change (0 < a / mu). apply Rdiv_lt_0_compat; assumption.
  - change (1 - me <> 0). pose proof (mee_ecc f g He) as E. fold me in E. lra.
  - exact ratio_pos.
Qed.
Lemma S_m3 : smooth env SymMee.oedot3.
Proof.
  unfold SymMee.oedot3, SymMee.s_squared. destruct (mee_gap f g He) as [P G]. sm; try apply S_mp.
  - exact P.
  - apply Rgt_not_eq, G.
Qed.
Lemma S_m4 : smooth env SymMee.oedot4.
Proof.
  unfold SymMee.oedot4, SymMee.s_squared. destruct (mee_gap g f swap) as [P G]. sm; try apply S_mp.
  - exact P.
  - apply Rgt_not_eq, G.
Qed.
Lemma S_mq : smooth env SymMee.q.
Proof.
  unfold SymMee.q, SymMee.penalty_rp, SymMee.rp, SymMee.e, SymMee.doe0, SymMee.doe1, SymMee.doe2, SymMee.doe3, SymMee.doe4, SymMee.oedot1, SymMee.oedot2.
  sm; try exact Hecc; try apply S_soe0; try apply S_m0; try apply S_m3; try apply S_m4; try apply S_mp.
  - exact Hrp.
  - rewrite ev_m0. apply accNZ, L0_pos.
  - change (reval env SymMee.oedot1 <> 0). rewrite ev_m1. apply accNZ, msp2.
  - change (reval env SymMee.oedot2 <> 0). rewrite ev_m2. apply accNZ, msp2.
  - rewrite ev_m3. apply accNZ, L3_pos.
  - rewrite ev_m4. apply accNZ, L4_pos.
Qed.
End Mee.

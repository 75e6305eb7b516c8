(** Cases for C84: default bounds, the equinoctial law, and an object that meets the hypotheses. *)
From Coq Require Import Reals Lra Lia ZArith List Bool.
From Verif Require Import RMath RLib Num Base Elements Convergence Lyapunov SymMee Perturb RSpec LawSpec MaxSpec MaxProofs Qlaw Spec NanSpec NanProofs NanRun XLaw TurnSpec TurnSolve.
Import ListNotations.
Local Open Scope R_scope.

Lemma C84_bounds : exists w x, let lo := default_oe_min (N:=XNum) Keplerian in let hi := default_oe_max (N:=XNum) Keplerian in
  w_ra w = 0%Z /\ w_om w = 0%Z /\ w_ta w = 0%Z /\ elements_safety (N:=XNum) x lo hi = x /\ elements_safety (N:=XNum) (oe_turn w x) lo hi <> oe_turn w x.
Proof.
  exists (mkturns (-2) 0 0 0 0 0), (p_oe0 p_low). intros lo hi. do 3 (split; [reflexivity|]).
  split; [exact low_guarded|]. intros E. apply (f_equal v6_3) in E. revert E. unfold lo, hi, default_oe_min, default_oe_max, p_low, p_oe0.
  cbn [oe_turn elements_safety v6_3 w_axes w_ra w_om w_ta]. rewrite !xdec. change (10 ^ Z.of_nat 4)%Z with 10000%Z. cbn [npi ninf nofZ XNum].
  replace (plus (Fin 1) (-2 + 2 * PI * IZR 0)) with (Fin (-1)) by (unfold plus; cbn; f_equal; ring).
  unfold clamp1, pymin, pymax. cbn [nltb XNum xltb]. rewrite (proj2 (Rltb_false (1 / 10000) (-1))) by lra. cbn [nltb XNum xltb].
  intros E. injection E as E. lra.
Qed.
Lemma mee_axes_ok a e i ra om ta d : kep2mee_with_a (N:=RNum) (elems a e i (ra + d) om ta) = mee_axes d (kep2mee_with_a (N:=RNum) (elems a e i ra om ta)).
Proof.
  unfold kep2mee_with_a, mee_axes, elems. cbn [nadd nmul ncos nsin ntan ndiv nofZ RNum]. replace (ra + d + om) with (ra + om + d) by ring. generalize (ra + om). intros x.
  rewrite !cos_plus, !sin_plus. f_equal; ring.
Qed.
Definition law_t (T : vec5 RNum) : law_args := mklaw 1 1 T (1 / 10) 3 4 2 (1 / 100) 1 0 (@mk5 RNum 1 1 1 1 1).
Lemma C84_mee : exists d oe oeT T T' out out', mee_state oe /\ mee_state oeT /\ slow oeT = T /\ slow (mee_axes d oeT) = T' /\
  ask (lyap_mee_with_a (N:=RNum)) (law_t T) oe = Ok out /\ ask (lyap_mee_with_a (N:=RNum)) (law_t T') (mee_axes d oe) = Ok out' /\ lo_q out <> lo_q out'.
Proof.
  set (T := @mk5 RNum 1 (3/5) (3/5) 0 0). set (T' := @mk5 RNum 1 (-(3/5)) (3/5) 0 0).
  destruct (C39_shape_lem (law_t T) 1 (3/5) (3/5) 0 1 0 1 (3/5) (3/5) 0 0 1 1 1 1 1) as (A & out & E & _ & Q); try reflexivity; try (cbn; lra).
  destruct (C39_shape_lem (law_t T') 1 (-(3/5)) (3/5) (-1) 0 (0 + PI / 2) 1 (-(3/5)) (3/5) 0 0 1 1 1 1 1) as (A' & out' & E' & _ & Q'); try reflexivity; try (cbn; lra).
  exists (PI / 2), (elems 1 (3/5) (3/5) 0 1 0), (elems 1 (3/5) (3/5) 0 0 0), T, T', out, out'.
  split; [cbn; lra|]. split; [cbn; lra|]. split; [reflexivity|]. split; [unfold T', slow, mee_axes, elems; rewrite cos_PI2, sin_PI2; f_equal; ring|].
  split; [exact E|]. split.
  - rewrite <- E'. f_equal. unfold mee_axes, elems. rewrite cos_PI2, sin_PI2. f_equal; ring.
  - rewrite Q, Q'. unfold penalty, mee_div_f, mee_div_h, mee_div_k, mee_q. cbn [law_t g_wp g_k g_rpmin g_f g_mu].
    replace (- (3 / 5) * - (3 / 5)) with (3 / 5 * (3 / 5)) by field.
    set (z := sqrt (1 * (1 - 3 / 5 * (3 / 5) - 3 / 5 * (3 / 5)) / 1)).
    assert (Z : 0 < z) by (apply sqrt_lt_R0; lra).
    replace (sqrt (1 - 3 / 5 * (3 / 5))) with (4 / 5).
    2:{ replace (1 - 3 / 5 * (3 / 5)) with (4 / 5 * (4 / 5)) by field. rewrite sqrt_square; lra. }
    replace ((1 - 1) / A) with 0 by (unfold Rdiv; ring). replace ((1 - 1) / A') with 0 by (unfold Rdiv; ring).
    generalize (a_scaling (law_t T) (Rabs (1 - 1))). intros s1. generalize (a_scaling (law_t T') (Rabs (1 - 1))). intros s2.
    replace ((3 / 5 - 3 / 5) / (2 * 1 * z)) with 0 by (field; lra). replace ((- (3 / 5) - - (3 / 5)) / (2 * 1 * z)) with 0 by (field; lra).
    replace (0 - 0) with 0 by ring. replace (0 / (1 / 2 * 1 * z * (1 + 0 * 0 + 1 * 1) / (4 / 5 + 3 / 5))) with 0 by (field; lra).
    replace (0 / (1 / 2 * 1 * z * (1 + -1 * -1 + 0 * 0) / (4 / 5 + 3 / 5))) with 0 by (field; lra).
    replace ((1 - 0) / (1 / 2 * 1 * z * (1 + 0 * 0 + 1 * 1) / (4 / 5 + 3 / 5))) with (7 / 5 / z) by (field; lra).
    replace ((-1 - 0) / (1 / 2 * 1 * z * (1 + -1 * -1 + 0 * 0) / (4 / 5 + - (3 / 5)))) with (- (1 / 5 / z)) by (field; lra).
    intros X. assert (I : 0 < / z) by (apply Rinv_0_lt_compat; exact Z). unfold Rdiv in X. rewrite !Rmult_0_l in X. ring_simplify in X. nra.
Qed.
Lemma C84_case : let w := mkturns 1 (-1) 2 3 0 1 in let z := EtaFloat (N:=XNum) (Fin 0) in
  built Keplerian o_low /\ exists o' h, solve 11 (qlaw_turn w o_low) (eta_turn w z) (eta_turn w z) = Returns o' /\ q_hist o' = Some h /\ length (h_states h) = 11%nat /\ q_exitcode o' = (-3)%Z.
Proof.
  intros w z. destruct C82_case as (F & B & P & RM & Q). pose proof F as (Bo & _). split; [exact Bo|].
  destruct (C82_lem o_low p_low z z a_low F B P RM Q ltac:(discriminate) 11%nat ltac:(cbn; lia)) as (o' & h & (R1 & _ & R3) & X & _ & _ & Len & _).
  exists (qlaw_turn w o'), (hist_turn w h). rewrite (solve_turn w Keplerian o_low Bo (or_introl eq_refl) 11 z z), R1. split; [reflexivity|].
  cbn [qlaw_turn q_hist q_exitcode]. rewrite R3. split; [reflexivity|]. split; [|exact X]. cbn [hist_turn h_states]. rewrite map_length. exact Len.
Qed.

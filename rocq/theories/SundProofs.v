(** Sundman steps: the time step solve takes is a Kepler time of flight plus, when t_step <= 0, a whole period. *)
From Coq Require Import Reals Lra Lia ZArith List Bool Psatz Nsatz.
From Verif Require Import RMath RLib DLib Num Base Elements Convergence Lyapunov Symbolic Perturb Qlaw RSpec LawSpec GaussSpec EffSpec ElemProofs.
Import ListNotations.
Local Open Scope R_scope.

(** ** Inverse of an expanding function *)
Lemma d_inverse (K E : R -> R) (t L m : R) : 0 < m -> 0 < L -> (forall x y, m * Rabs (y - x) <= Rabs (K y - K x)) ->
  (forall s, K (E s) = s) -> dlim K (E t) L -> dlim E t (/ L).
Proof.
  intros Hm HL HK HE D eps He. assert (P : 0 < eps * (L * m)) by (apply Rmult_lt_0_compat; [lra|nra]).
  destruct (D _ P) as [d Hd]. assert (Q : 0 < d * m) by (apply Rmult_lt_0_compat; [apply cond_pos|exact Hm]).
  exists (mkposreal _ Q). cbn. intros h Hh Hlt. set (k := E (t + h) - E t).
  assert (Eh : K (E t + k) - K (E t) = h) by (unfold k; replace (E t + (E (t + h) - E t)) with (E (t + h)) by ring; rewrite !HE; ring).
  assert (Hk : k <> 0). { intros Z. rewrite Z, Rplus_0_r, Rminus_eq_0 in Eh. lra. }
  pose proof (HK (E t) (E t + k)) as B. rewrite Eh in B. replace (E t + k - E t) with k in B by ring.
  assert (Bk : Rabs k < d). { apply (Rmult_lt_reg_r m); [exact Hm|]. lra. }
  specialize (Hd k Hk Bk). rewrite Eh in Hd.
  assert (Pk : 0 < Rabs k) by (apply Rabs_pos_lt, Hk). assert (Ph : 0 < Rabs h) by (apply Rabs_pos_lt, Hh).
  replace (k / h - / L) with (- ((h / k - L) * (k / h) * / L)) by (field; repeat split; lra).
  rewrite Rabs_Ropp, !Rabs_mult, (Rabs_pos_eq (/ L)) by (apply Rlt_le, Rinv_0_lt_compat, HL).
  assert (M : Rabs (k / h) <= / m).
  { unfold Rdiv. rewrite Rabs_mult, Rabs_inv. apply (Rmult_le_reg_r (Rabs h)); [exact Ph|].
    rewrite Rmult_assoc, Rinv_l by lra. apply (Rmult_le_reg_l m); [exact Hm|]. replace (m * (/ m * Rabs h)) with (Rabs h) by (field; lra). lra. }
  apply Rle_lt_trans with (Rabs (h / k - L) * / m * / L).
  - apply Rmult_le_compat_r; [apply Rlt_le, Rinv_0_lt_compat, HL|]. apply Rmult_le_compat_l; [apply Rabs_pos|exact M].
  - apply (Rmult_lt_reg_r (L * m)); [nra|]. replace (Rabs (h / k - L) * / m * / L * (L * m)) with (Rabs (h / k - L)) by (field; lra). exact Hd.
Qed.
Lemma abs_inv x b : Rabs x <= b -> - b <= x <= b.
Proof. unfold Rabs. destruct (Rcase_abs x); lra. Qed.
Lemma sin_lip x y : Rabs (sin y - sin x) <= Rabs (y - x).
Proof.
  assert (W : forall a b, a < b -> Rabs (sin b - sin a) <= Rabs (b - a)).
  { intros a b H. destruct (MVT_cor2 sin cos a b H) as (c & E & _); [intros; apply derivable_pt_lim_sin|].
    rewrite E, Rabs_mult. pose proof (Rabs_pos (b - a)). assert (Rabs (cos c) <= 1) by (apply Rabs_le; pose proof (COS_bound c); lra). nra. }
  destruct (Rtotal_order x y) as [H|[->|H]]; [apply W, H|rewrite !Rminus_eq_0; lra|]. rewrite Rabs_minus_sym, (Rabs_minus_sym y). apply W, H.
Qed.

Section Kepler.
Variables mu a e : R.
Hypotheses (Hmu : 0 < mu) (Ha : 0 < a) (He : 0 <= e < 1).
Let c := sqrt (a ^ 3 / mu).
Let K := kepler_time mu a e.
Lemma c_pos : 0 < c.
Proof. apply sqrt_lt_R0, Rdiv_lt_0_compat; [apply pow_lt, Ha|exact Hmu]. Qed.
Lemma c_sq : mu * (c * c) = a ^ 3.
Proof. unfold c. rewrite sqrt_sqrt; [field; lra|]. apply Rlt_le, Rdiv_lt_0_compat; [apply pow_lt, Ha|exact Hmu]. Qed.
Lemma K_incr x y : x < y -> c * (1 - e) * (y - x) <= K y - K x.
Proof.
  intros H. unfold K, kepler_time. fold c. pose proof c_pos. pose proof (sin_lip x y) as B. rewrite (Rabs_pos_eq (y - x)) in B by lra.
  apply abs_inv in B. replace (c * (y - e * sin y) - c * (x - e * sin x)) with (c * ((y - x) - e * (sin y - sin x))) by ring.
  rewrite Rmult_assoc. apply Rmult_le_compat_l; [lra|]. nra.
Qed.
Lemma K_lt x y : x < y -> K x < K y.
Proof. intros H. pose proof (K_incr x y H). pose proof c_pos. assert (0 < c * (1 - e) * (y - x)) by (apply Rmult_lt_0_compat; [nra|lra]). lra. Qed.
Lemma K_expand x y : c * (1 - e) * Rabs (y - x) <= Rabs (K y - K x).
Proof.
  destruct (Rtotal_order x y) as [H|[->|H]].
  - pose proof (K_incr x y H). pose proof (K_lt x y H). rewrite !Rabs_pos_eq by lra. lra.
  - rewrite !Rminus_eq_0, Rabs_R0. lra.
  - pose proof (K_incr y x H). pose proof (K_lt y x H). rewrite (Rabs_minus_sym y), (Rabs_minus_sym (K y)), !Rabs_pos_eq by lra. lra.
Qed.
Lemma K_inj x y : K x = K y -> x = y.
Proof. intros H. destruct (Rtotal_order x y) as [L|[L|L]]; [apply K_lt in L; lra|exact L|apply K_lt in L; lra]. Qed.
Lemma K_der x : dlim K x (c * (1 - e * cos x)).
Proof.
  unfold K, kepler_time. fold c. eapply dval; [|apply d_scal, (d_minus (fun t => t) (fun t => e * sin t)); [apply d_id|apply d_scal, (d_sin (fun t => t)), d_id]]. cbv beta. ring.
Qed.
Lemma K_onto t : { x | K x = t }.
Proof.
  pose proof c_pos as C. assert (Kv : forall x, K x = c * x - c * e * sin x) by (intros; unfold K, kepler_time; fold c; ring).
  assert (B : forall x, - c <= c * e * sin x <= c).
  { intros x. pose proof (SIN_bound x). assert (0 <= c * e) by nra. assert (c * e <= c) by nra. split; nra. }
  destruct (IVT (fun x => K x - t) (t / c - 2) (t / c + 2)) as (z & _ & Hz).
  - intros x. apply (d_cont _ _ (c * (1 - e * cos x) - 0)). apply d_minus; [apply K_der|apply d_const].
  - lra.
  - rewrite Kv. specialize (B (t / c - 2)). replace (c * (t / c - 2)) with (t - 2 * c) by (field; lra). lra.
  - rewrite Kv. specialize (B (t / c + 2)). replace (c * (t / c + 2)) with (t + 2 * c) by (field; lra). lra.
  - exists z. lra.
Qed.
Section Motion.
Variables (E : R -> R) (t0 : R).
Hypothesis HE : forall t, K (E t) = t0 + t.
Lemma E_der t : dlim E t (/ (c * (1 - e * cos (E t)))).
Proof.
  pose proof c_pos. assert (D : 0 < 1 - e * cos (E t)) by (pose proof (COS_bound (E t)); nra).
  apply (d_inverse (fun x => K x - t0) E t (c * (1 - e * cos (E t))) (c * (1 - e))); [nra|nra| |intros s; rewrite HE; ring|].
  - intros x y. replace (K y - t0 - (K x - t0)) with (K y - K x) by ring. apply K_expand.
  - eapply dval; [|apply d_minus; [apply K_der|apply d_const]]. ring.
Qed.
Let Ed t := / (c * (1 - e * cos (E t))).
Lemma Ed_der t : dlim Ed t (- (e * sin (E t)) / (c * c * (1 - e * cos (E t)) ^ 3)).
Proof.
  pose proof c_pos. assert (D : 0 < 1 - e * cos (E t)) by (pose proof (COS_bound (E t)); nra).
  eapply dval; [|apply (d_inv (fun s => c * (1 - e * cos (E s))) t (c * (0 - e * (- sin (E t) * Ed t))))].
  - cbv beta. unfold Ed. field. split; lra.
  - apply d_scal, d_minus; [apply d_const|]. apply d_scal, (d_cos E), E_der.
  - nra.
Qed.
Let b := a * sqrt (1 - e * e).
Lemma two_body_motion : two_body mu (fun t => ellipse a e (E t)) (fun t => vec (- a * sin (E t) * Ed t) (b * cos (E t) * Ed t) 0).
Proof.
  intros t. pose proof c_pos as C. assert (D : 0 < 1 - e * cos (E t)) by (pose proof (COS_bound (E t)); nra).
  pose proof (E_der t) as DE. pose proof (Ed_der t) as DD. fold (Ed t) in DE.
  assert (Sq : sqrt (1 - e * e) * sqrt (1 - e * e) = 1 - e * e) by (apply sqrt_sqrt; nra).
  assert (N : norm (ellipse a e (E t)) = a * (1 - e * cos (E t))).
  { unfold norm, ellipse, dot, dot3, vec. cbn. apply sqrt_pos_of; [nra|]. pose proof (sincos (E t)) as SC. nsatz. }
  rewrite N. split; unfold dvec, ellipse, vec, scale, v3scal; cbn [v3_0 v3_1 v3_2]; change (@nmul RNum) with Rmult.
  - split; [|split].
    + eapply dval; [|apply d_scal, d_minus; [apply (d_cos E), DE|apply d_const]]. ring.
    + eapply dval; [|apply d_scal, (d_sin E), DE]. unfold b. ring.
    + apply d_const.
  - assert (M : mu = a ^ 3 / (c * c)) by (apply (Rmult_eq_reg_r (c * c)); [rewrite c_sq; field; lra|nra]).
    assert (EV : Ed t = / (c * (1 - e * cos (E t)))) by reflexivity.
    pose proof (sincos (E t)) as SC.
    split; [|split].
    + eapply dval; [|apply (d_mult (fun s => - a * sin (E s)) Ed); [apply d_scal, (d_sin E), DE|exact DD]]. cbv beta. rewrite EV, M.
      set (x := cos (E t)) in *. set (y := sin (E t)) in *. clearbody x y c.
      transitivity (- a * (x * (1 - e * x) - e * (y * y)) / (c * c * (1 - e * x) ^ 3)); [field; split; lra|].
      replace (y * y) with (1 - x * x) by lra. field. repeat split; lra.
    + eapply dval; [|apply (d_mult (fun s => b * cos (E s)) Ed); [apply d_scal, (d_cos E), DE|exact DD]]. cbv beta. rewrite EV, M. fold b.
      set (x := cos (E t)) in *. set (y := sin (E t)) in *. clearbody x y c b. field. repeat split; lra.
    + eapply dval; [|apply d_const]. ring.
Qed.
End Motion.
Lemma motion_from E0 : exists r v, two_body mu r v /\ forall x, r (K x - K E0) = ellipse a e x.
Proof.
  set (E := fun t => proj1_sig (K_onto (K E0 + t))).
  assert (HE : forall t, K (E t) = K E0 + t) by (intros t; unfold E; destruct (K_onto (K E0 + t)); assumption).
  do 2 eexists. split; [exact (two_body_motion E (K E0) HE)|]. intros x. cbv beta. f_equal. apply K_inj. rewrite HE. ring.
Qed.
Lemma place_ellipse ta E : ecc_anomaly e ta E -> ellipse a e E = place a e ta.
Proof.
  intros [C S]. assert (D : 0 < 1 + e * cos ta) by (pose proof (COS_bound ta); nra).
  assert (Sq : sqrt (1 - e * e) * sqrt (1 - e * e) = 1 - e * e) by (apply sqrt_sqrt; nra).
  unfold ellipse, place, scale, vec, v3scal. change (@nmul RNum) with Rmult. rewrite C, S. pose proof (sincos ta) as SC. f_equal; change (@eq (@car RNum)) with (@eq R).
  - field. lra.
  - transitivity (a * (sqrt (1 - e * e) * sqrt (1 - e * e)) * sin ta / (1 + e * cos ta)); [field; lra|]. rewrite Sq. field. lra.
  - ring.
Qed.
End Kepler.

(** ** The step solve takes *)
Lemma M_lt e x y : 0 <= e < 1 -> x < y -> x - e * sin x < y - e * sin y.
Proof. intros He H. pose proof (sin_lip x y) as B. rewrite (Rabs_pos_eq (y - x)) in B by lra. apply abs_inv in B. nra. Qed.
Lemma M_le e x y : 0 <= e < 1 -> x <= y -> x - e * sin x <= y - e * sin y.
Proof. intros He [H | ->]; [apply Rlt_le, M_lt; assumption|lra]. Qed.
Lemma sund_lem et (o : qlaw RNum) (p : problem RNum) (oe : vec6 RNum) : q_sundman o = true -> q_etype o = et ->
  0 <= ecc_of et oe < 1 -> cos (ta_of et oe / 2) <> 0 ->
  exists E0 dt, local_step (N:=RNum) o p oe = Ok dt /\ - PI < E0 < PI /\ ecc_anomaly (ecc_of et oe) (ta_of et oe) E0 /\
    let tof := kepler_time (q_mu o) (v6_0 oe) (ecc_of et oe) (E0 + p_t_step p) - kepler_time (q_mu o) (v6_0 oe) (ecc_of et oe) E0 in
    dt = if Rlt_dec 0 (p_t_step p) then tof else tof + rev_time (q_mu o) (v6_0 oe).
Proof.
  intros HS HT He Hc. destruct (C51_ta2ea _ _ He Hc) as (E0 & EQ & B & C & S0).
  assert (EA : (match et with
                  | Keplerian => bind (ta2ea (N:=RNum) (v6_5 oe) (v6_1 oe)) (fun E0 => Ok (v6_1 oe, E0))
                  | MeeWithA => bind (mee2ea (N:=RNum) oe) (fun E0 => Ok (nsqrt (Num:=RNum) (nadd (Num:=RNum) (sq (N:=RNum) (v6_1 oe)) (sq (N:=RNum) (v6_2 oe))), E0))
                  end) = Ok (ecc_of et oe, E0)).
  { destruct et; [change (ecc_of Keplerian oe) with (v6_1 oe) in *; change (ta_of Keplerian oe) with (v6_5 oe) in *; rewrite EQ; reflexivity|].
    change (mee2ea (N:=RNum) oe) with (ta2ea (N:=RNum) (ta_of MeeWithA oe) (ecc_of MeeWithA oe)). rewrite EQ. reflexivity. }
  exists E0. unfold local_step. rewrite HS, HT, EA. cbn [bind]. set (e := ecc_of et oe) in *. set (h := p_t_step p : R). set (mu := q_mu o : R). set (a := v6_0 oe : R).
  pose proof PI_RGT_0 as PP. unfold kepler_time, rev_time.
  match goal with |- context [nsqrt (ndiv ?x ?y)] => change (nsqrt (ndiv x y)) with (sqrt (a * a * a / mu)) end.
  replace (a ^ 3) with (a * a * a) by ring. set (c := sqrt (a * a * a / mu)).
  match goal with |- context [if ?b then _ else _] => change b with (Rltb (E0 - e * sin E0) (E0 + h - e * sin (E0 + h))) end.
  destruct (Rltb (E0 - e * sin E0) (E0 + h - e * sin (E0 + h))) eqn:T; (eexists; split; [reflexivity|]; split; [exact B|]; split; [split; assumption|]);
    cbv zeta; destruct (Rlt_dec 0 h) as [Hh|Hh].
  - cbn. change (@eq (@car RNum)) with (@eq R). field. lra.
  - exfalso. apply Rltb_true in T. pose proof (M_le e (E0 + h) E0 He ltac:(lra)). lra.
  - exfalso. apply Rltb_false in T. pose proof (M_lt e E0 (E0 + h) He ltac:(lra)). lra.
  - cbn. change (@eq (@car RNum)) with (@eq R). field. lra.
Qed.
Lemma C31_forward_lem et (o : qlaw RNum) (p : problem RNum) (oe : vec6 RNum) : q_sundman o = true -> q_etype o = et -> 0 < q_mu o -> 0 < v6_0 oe ->
  0 <= ecc_of et oe < 1 -> cos (ta_of et oe / 2) <> 0 -> 0 < p_t_step p ->
  exists E0 dt r v, local_step (N:=RNum) o p oe = Ok dt /\ 0 < dt /\ two_body (q_mu o) r v /\
    r 0 = place (v6_0 oe) (ecc_of et oe) (ta_of et oe) /\ r 0 = ellipse (v6_0 oe) (ecc_of et oe) E0 /\ r dt = ellipse (v6_0 oe) (ecc_of et oe) (E0 + p_t_step p).
Proof.
  intros HS HT Hmu Ha He Hc Hh. destruct (sund_lem et o p oe HS HT He Hc) as (E0 & dt & ED & B & EA & V). cbv zeta in V.
  destruct (Rlt_dec 0 (p_t_step p)) as [Hp|Hp]; [|contradiction]. destruct (motion_from (q_mu o) (v6_0 oe) (ecc_of et oe) Hmu Ha He E0) as (r & v & TB & Rx).
  exists E0, dt, r, v. split; [exact ED|]. split.
  { rewrite V. apply Rlt_Rminus, K_lt; [assumption|assumption|assumption|]. change (@car RNum) with R in *. lra. }
  split; [exact TB|]. pose proof (Rx E0) as R0. rewrite Rminus_eq_0 in R0. split; [rewrite R0; apply place_ellipse; assumption|]. split; [exact R0|]. rewrite V. apply Rx.
Qed.
Lemma C31_backward_lem et (o : qlaw RNum) (p : problem RNum) (oe : vec6 RNum) : q_sundman o = true -> q_etype o = et -> 0 < q_mu o -> 0 < v6_0 oe ->
  0 <= ecc_of et oe < 1 -> cos (ta_of et oe / 2) <> 0 -> - (2 * PI) < p_t_step p <= 0 ->
  exists E0 dt r v, local_step (N:=RNum) o p oe = Ok dt /\ 0 < dt <= rev_time (q_mu o) (v6_0 oe) /\ two_body (q_mu o) r v /\
    r 0 = place (v6_0 oe) (ecc_of et oe) (ta_of et oe) /\ r 0 = ellipse (v6_0 oe) (ecc_of et oe) E0 /\ r dt = ellipse (v6_0 oe) (ecc_of et oe) (E0 + 2 * PI + p_t_step p).
Proof.
  intros HS HT Hmu Ha He Hc Hh. destruct (sund_lem et o p oe HS HT He Hc) as (E0 & dt & ED & B & EA & V). cbv zeta in V.
  destruct (Rlt_dec 0 (p_t_step p)) as [Hp|Hp]; [lra|]. destruct (motion_from (q_mu o) (v6_0 oe) (ecc_of et oe) Hmu Ha He E0) as (r & v & TB & Rx).
  assert (V' : dt = kepler_time (q_mu o) (v6_0 oe) (ecc_of et oe) (E0 + 2 * PI + p_t_step p) - kepler_time (q_mu o) (v6_0 oe) (ecc_of et oe) E0).
  { rewrite V. unfold kepler_time, rev_time. replace (E0 + 2 * PI + p_t_step p) with (E0 + p_t_step p + 2 * PI) by ring. rewrite (sin_plus _ (2 * PI)), cos_2PI, sin_2PI.
    change (@eq (@car RNum)) with (@eq R). ring. }
  exists E0, dt, r, v. split; [exact ED|]. split.
  { split.
    - rewrite V'. apply Rlt_Rminus, K_lt; [assumption|assumption|assumption|]. lra.
    - rewrite V. assert (kepler_time (q_mu o) (v6_0 oe) (ecc_of et oe) (E0 + p_t_step p) <= kepler_time (q_mu o) (v6_0 oe) (ecc_of et oe) E0); [|lra].
      unfold kepler_time. apply Rmult_le_compat_l; [apply sqrt_pos|]. apply M_le; [exact He|lra]. }
  split; [exact TB|]. pose proof (Rx E0) as R0. rewrite Rminus_eq_0 in R0. split; [rewrite R0; apply place_ellipse; assumption|]. split; [exact R0|]. rewrite V'. apply Rx.
Qed.

(** The normalisers of Q as largest rates. *)
From Coq Require Import Reals Lra Lia ZArith List Bool Psatz.
From Verif Require Import RMath RLib DLib Num Base Lyapunov Symbolic SymKep SymMee RSpec LawSpec MaxSpec ElemProofs DiffProofs KepQ MeeQ LawProofs GaussProofs.
Import ListNotations.
Local Open Scope R_scope.

Lemma sq_le_abs x y : 0 <= y -> x * x <= y * y -> Rabs x <= y.
Proof. intros Hy H. rewrite <- (Rabs_pos_eq y) by exact Hy. apply Rsqr_le_abs_0. exact H. Qed.
Lemma cauchy al be ga x y z K f : 0 <= K -> 0 <= f -> al * al + be * be + ga * ga <= K * K -> x * x + y * y + z * z <= f * f ->
  Rabs (al * x + be * y + ga * z) <= K * f.
Proof.
  intros HK Hf HA HX. apply sq_le_abs; [apply Rmult_le_pos; assumption|].
  apply Rle_trans with ((al * al + be * be + ga * ga) * (x * x + y * y + z * z)).
  - pose proof (Rle_0_sqr (al * y - be * x)). pose proof (Rle_0_sqr (al * z - ga * x)). pose proof (Rle_0_sqr (be * z - ga * y)).
    unfold Rsqr in *. lra.
  - replace (K * f * (K * f)) with (K * K * (f * f)) by ring. apply Rmult_le_compat; try assumption; nra.
Qed.
Lemma angle_exists c s : c * c + s * s = 1 -> exists t, cos t = c /\ sin t = s.
Proof.
  intros H. exists (Ratan2 s c). destruct (polar c s) as [A B]. rewrite H, sqrt_1 in A, B. lra.
Qed.
Lemma cosmax A B C S : A * A + B * B < 1 -> C * C + S * S = 1 -> Rabs C * (sqrt (1 - B * B) - Rabs A) <= 1 + A * C + B * S.
Proof.
  intros HAB HCS. assert (P : 0 < 1 - B * B) by nra. pose proof (sqrt_lt_R0 _ P) as Q. assert (QQ : sqrt (1 - B * B) * sqrt (1 - B * B) = 1 - B * B) by (apply sqrt_sqrt; lra).
  set (q := sqrt (1 - B * B)) in *. clearbody q.
  assert (K : q * Rabs C <= 1 + B * S).
  { assert (0 <= 1 + B * S) by nra. rewrite <- (Rabs_pos_eq (1 + B * S)) by assumption. rewrite <- (Rabs_pos_eq q) by lra. rewrite <- Rabs_mult.
    apply Rsqr_le_abs_0. unfold Rsqr. replace (q * C * (q * C)) with (q * q * (C * C)) by ring. rewrite QQ.
    replace (C * C) with (1 - S * S) by lra. pose proof (Rle_0_sqr (B + S)) as Z. unfold Rsqr in Z. lra. }
  assert (L : - (Rabs A * Rabs C) <= A * C).
  { rewrite <- Rabs_mult. pose proof (Rle_abs (- (A * C))) as Z. rewrite Rabs_Ropp in Z. lra. }
  lra.
Qed.
Lemma gap_pos A B : A * A + B * B < 1 -> 0 < sqrt (1 - B * B) - Rabs A.
Proof.
  intros H. destruct (mee_gap (- Rabs A) B) as [_ G]; [|lra].
  assert (Rabs A * Rabs A = A * A) by (unfold Rabs; destruct (Rcase_abs A); ring). lra.
Qed.
Lemma cosmax_at A B : A * A + B * B < 1 -> exists C S, C * C + S * S = 1 /\ Rabs C * (sqrt (1 - B * B) - Rabs A) = 1 + A * C + B * S /\ C <> 0.
Proof.
  intros H. assert (P : 0 < 1 - B * B) by nra. pose proof (sqrt_lt_R0 _ P) as Q. assert (QQ : sqrt (1 - B * B) * sqrt (1 - B * B) = 1 - B * B) by (apply sqrt_sqrt; lra).
  set (q := sqrt (1 - B * B)) in *. clearbody q. destruct (Rle_lt_dec 0 A) as [L|L].
  - exists (- q), (- B). rewrite Rabs_Ropp, (Rabs_pos_eq q), (Rabs_pos_eq A) by lra. repeat split; nra.
  - exists q, (- B). rewrite (Rabs_pos_eq q), (Rabs_left A) by lra. repeat split; nra.
Qed.
(** the in-plane rate of the argument of periapsis *)
Lemma cubic_max e w v : 0 < w -> 0 < v -> w * w * w + e * e * w = 1 - e * e -> 0 < 1 - e * e ->
  (2 * v + 1) * (e * e - (v - 1) * (v - 1)) / (v * v) <= (2 * w + 1) * (e * e - (w - 1) * (w - 1)) / (w * w).
Proof.
  intros Hw Hv E P. set (d := (1 - e * e) / (2 * (w * w))).
  assert (WW : 0 < w * w) by nra. assert (VV : 0 < v * v) by nra.
  assert (Hd : 0 < d) by (apply Rdiv_lt_0_compat; lra).
  assert (D2 : 2 * (w * w) * d = 1 - e * e) by (unfold d; field; lra).
  assert (D1 : 2 * (w * w) - 4 * w * d = - 2 * (e * e)).
  { apply (Rmult_eq_reg_r w); [|lra]. replace ((2 * (w * w) - 4 * w * d) * w) with (2 * (w * w * w) - 2 * (2 * (w * w) * d)) by ring. rewrite D2. lra. }
  assert (M : (2 * w + 1) * (e * e - (w - 1) * (w - 1)) / (w * w) = 3 + 2 * d - 4 * w).
  { apply (Rmult_eq_reg_r (w * w)); [|lra]. unfold Rdiv. rewrite Rmult_assoc, Rinv_l, Rmult_1_r by lra.
    replace ((3 + 2 * d - 4 * w) * (w * w)) with (3 * (w * w) + 2 * (w * w) * d - 4 * (w * w * w)) by ring. rewrite D2. nra. }
  rewrite M. apply (Rmult_le_reg_r (v * v)); [exact VV|]. unfold Rdiv. rewrite Rmult_assoc, Rinv_l, Rmult_1_r by lra.
  assert (Z : (3 + 2 * d - 4 * w) * (v * v) - (2 * v + 1) * (e * e - (v - 1) * (v - 1)) = 2 * ((v - w) * (v - w)) * (v + d)).
  { transitivity (2 * (v * v * v) + (2 * d - 4 * w) * (v * v) + (- 2 * (e * e)) * v + (1 - e * e)); [ring|]. rewrite <- D1, <- D2. ring. }
  assert (0 <= 2 * ((v - w) * (v - w)) * (v + d)) by (apply Rmult_le_pos; [pose proof (Rle_0_sqr (v - w)) as Y; unfold Rsqr in Y; lra|lra]). lra.
Qed.
Lemma norm_le (u : vec3 RNum) f : 0 <= f -> norm u <= f -> v3_0 u * v3_0 u + v3_1 u * v3_1 u + v3_2 u * v3_2 u <= f * f.
Proof.
  intros Hf H. destruct u as [x y z]. unfold norm, norm3 in H. cbn in x, y, z, H. cbn [v3_0 v3_1 v3_2].
  assert (P : 0 <= x * x + y * y + z * z) by nra. pose proof (sqrt_pos (x * x + y * y + z * z)) as S.
  rewrite <- (sqrt_sqrt _ P). apply Rmult_le_compat; assumption.
Qed.
Lemma norm_eq x y z f : 0 <= f -> x * x + y * y + z * z = f * f -> norm (vec x y z) = f.
Proof. intros Hf H. unfold norm, norm3, vec. cbn. change (@nsqrt RNum) with sqrt. apply sqrt_pos_of; [exact Hf|]. exact H. Qed.

Lemma abs_scale k x N : 0 <= k -> Rabs x <= N -> Rabs (k * x) <= k * N.
Proof. intros Hk H. rewrite Rabs_mult, (Rabs_pos_eq k) by exact Hk. apply Rmult_le_compat_l; assumption. Qed.
Lemma abs_root x : sqrt (x * x) = Rabs x.
Proof. apply sqrt_Rsqr_abs. Qed.
Lemma div_bound C W G : 0 < W -> 0 < G -> Rabs C * G <= W -> Rabs (C / W) <= / G.
Proof.
  intros HW HG H. unfold Rdiv. rewrite Rabs_mult, (Rabs_pos_eq (/ W)) by (apply Rlt_le, Rinv_0_lt_compat, HW).
  apply (Rmult_le_reg_r (W * G)); [nra|]. replace (Rabs C * / W * (W * G)) with (Rabs C * G) by (field; lra).
  replace (/ G * (W * G)) with W by (field; lra). exact H.
Qed.
Lemma div_at C W G : 0 < W -> 0 < G -> Rabs C * G = W -> Rabs (C / W) = / G.
Proof.
  intros HW HG H. unfold Rdiv. rewrite Rabs_mult, (Rabs_pos_eq (/ W)) by (apply Rlt_le, Rinv_0_lt_compat, HW).
  assert (Rabs C <> 0) by nra. rewrite <- H. field. split; lra.
Qed.

Section KepMax.
Variables (p : law_args) (a e i ra om ta0 : R).
Hypotheses (Hmu : 0 < g_mu p) (Hf : 0 < g_f p) (Ha : 0 < a) (He : 0 < e < 1) (Hi : 0 < sin i).
Let oe := elems a e i ra om ta0.
Let P := a * (1 - e * e).
Let h := sqrt (a * g_mu p * (1 - e * e)).
Let f := g_f p.
Lemma kx_ee : 0 < 1 - e * e. Proof. nra. Qed.
Lemma kx_P : 0 < P. Proof. apply Rmult_lt_0_compat; [exact Ha|exact kx_ee]. Qed.
Lemma kx_h : 0 < h. Proof. apply sqrt_lt_R0. repeat apply Rmult_lt_0_compat; [exact Ha|exact Hmu|exact kx_ee]. Qed.
Lemma kx_w ta : 0 < 1 + e * cos ta. Proof. apply ecos_pos. lra. Qed.
Lemma kx_rate comp ta u x : rate_is (lyap_keplerian (N:=RNum)) p oe comp ta u x <-> comp (slow_rate (kep_psi (g_mu p) a e i ra om ta) u) = x.
Proof.
  unfold rate_is, oe, with_anomaly, elems. change (@mk6 RNum a e i ra om ta) with (elems a e i ra om ta).
  rewrite <- (evalpsi_kep p a e i ra om ta Hmu Ha He). split.
  - intros (out & H & K). unfold lyap_keplerian in H. rewrite ask_lyap in H. apply Ok_inj in H. subst out. exact K.
  - intros K. eexists. split; [unfold lyap_keplerian; apply ask_lyap|]. exact K.
Qed.
(** closed forms of the rates *)
Definition Ec ta := (cos ta + e) / (1 + e * cos ta).
Lemma Ec_le ta : Ec ta * Ec ta <= 1.
Proof.
  pose proof (kx_w ta) as W. pose proof kx_ee. pose proof (sincos ta) as S. unfold Ec.
  replace ((cos ta + e) / (1 + e * cos ta) * ((cos ta + e) / (1 + e * cos ta))) with ((cos ta + e) * (cos ta + e) / ((1 + e * cos ta) * (1 + e * cos ta))) by (field; lra).
  apply (Rmult_le_reg_r ((1 + e * cos ta) * (1 + e * cos ta))); [nra|]. unfold Rdiv. rewrite Rmult_assoc, Rinv_l by nra.
  assert (cos ta * cos ta <= 1) by nra. nra.
Qed.
Lemma r0 ta u : v5_0 (slow_rate (kep_psi (g_mu p) a e i ra om ta) u) = 2 * (a * a) / h * (e * sin ta * v3_0 u + (1 + e * cos ta) * v3_1 u + 0 * v3_2 u).
Proof.
  pose proof (kx_w ta). pose proof kx_h as H0. pose proof kx_P as P0. destruct u as [x y z]. unfold slow_rate, kep_psi, dot, dot3, vec. cbn. fold P h. fold P in P0.
  change (@eq (@car RNum)) with (@eq R). field. repeat split; lra.
Qed.
Lemma r1 ta u : v5_1 (slow_rate (kep_psi (g_mu p) a e i ra om ta) u) = P / h * (sin ta * v3_0 u + (cos ta + Ec ta) * v3_1 u + 0 * v3_2 u).
Proof.
  pose proof (kx_w ta). pose proof kx_h. destruct u as [x y z]. unfold slow_rate, kep_psi, dot, dot3, vec, Ec. cbn. fold P h.
  change (@eq (@car RNum)) with (@eq R). field. repeat split; lra.
Qed.
Lemma r2 ta u : v5_2 (slow_rate (kep_psi (g_mu p) a e i ra om ta) u) = P / h * (cos (om + ta) / (1 + e * cos ta)) * v3_2 u.
Proof.
  pose proof (kx_w ta). pose proof kx_h. destruct u as [x y z]. unfold slow_rate, kep_psi, dot, dot3, vec, Ec. cbn. fold P h.
  change (@eq (@car RNum)) with (@eq R). field. repeat split; lra.
Qed.
Lemma r3 ta u : v5_3 (slow_rate (kep_psi (g_mu p) a e i ra om ta) u) = P / (h * sin i) * (sin (om + ta) / (1 + e * cos ta)) * v3_2 u.
Proof.
  pose proof (kx_w ta). pose proof kx_h. destruct u as [x y z]. unfold slow_rate, kep_psi, dot, dot3, vec, Ec. cbn. fold P h.
  change (@eq (@car RNum)) with (@eq R). field. repeat split; lra.
Qed.
Lemma r4 ta u : v5_4 (slow_rate (kep_psi (g_mu p) a e i ra om ta) u) =
  P / (e * h) * (- cos ta * v3_0 u + (1 + / (1 + e * cos ta)) * sin ta * v3_1 u) - P / (h * sin i) * (sin (om + ta) / (1 + e * cos ta)) * cos i * v3_2 u.
Proof.
  pose proof (kx_w ta). pose proof kx_h. destruct u as [x y z]. unfold slow_rate, kep_psi, dot, dot3, vec, Ec. cbn. fold P h.
  change (@eq (@car RNum)) with (@eq R). field. repeat split; lra.
Qed.
Lemma kmax0 : max_rate (lyap_keplerian (N:=RNum)) p oe any_push v5_0 (N0 (g_mu p) f a e).
Proof.
  pose proof kx_h as H0. pose proof kx_ee as E0.
  assert (HN : N0 (g_mu p) f a e = 2 * (a * a) / h * ((1 + e) * f)).
  { unfold N0. assert (S : sqrt (a * a * a * (1 + e) / (g_mu p * (1 - e))) = a * a * (1 + e) / h).
    - apply sqrt_pos_of; [apply Rlt_le, Rdiv_lt_0_compat; [nra|exact H0]|].
      assert (HH : h * h = a * g_mu p * (1 - e * e)) by (unfold h; apply sqrt_sqrt; apply Rlt_le; repeat apply Rmult_lt_0_compat; assumption).
      replace (a * a * (1 + e) / h * (a * a * (1 + e) / h)) with (a * a * a * a * (1 + e) * (1 + e) / (h * h)) by (field; lra).
      rewrite HH. field. repeat split; nra.
    - rewrite S. field. lra. }
  rewrite HN. split.
  - intros ta u x Hu _ K. apply kx_rate in K. subst x. rewrite r0. apply abs_scale.
    + apply Rlt_le, Rdiv_lt_0_compat; nra.
    + apply cauchy; [lra|unfold f; lra| |apply norm_le; [unfold f; lra|exact Hu]].
      pose proof (sincos ta). assert (cos ta <= 1) by nra. nra.
  - exists 0, (vec 0 f 0). split; [apply norm_eq; [lra|unfold f; change (@eq (@car RNum)) with (@eq R); ring]|]. split; [exact I|]. apply kx_rate. rewrite r0.
    unfold vec. cbn [v3_0 v3_1 v3_2]. rewrite cos_0, sin_0. change (@eq (@car RNum)) with (@eq R). ring.
Qed.
Lemma kmax1 : max_rate (lyap_keplerian (N:=RNum)) p oe any_push v5_1 (N1 (g_mu p) f a e).
Proof.
  pose proof kx_h as H0. pose proof kx_P as P0.
  assert (HN : N1 (g_mu p) f a e = P / h * (2 * f)) by (unfold N1, kp, kh; fold P h; field; lra).
  rewrite HN. split.
  - intros ta u x Hu _ K. apply kx_rate in K. subst x. rewrite r1. apply abs_scale.
    + apply Rlt_le, Rdiv_lt_0_compat; assumption.
    + apply cauchy; [lra|unfold f; lra| |apply norm_le; [unfold f; lra|exact Hu]].
      pose proof (sincos ta) as S. pose proof (Ec_le ta) as E. assert (cos ta * cos ta <= 1) by nra. nra.
  - exists 0, (vec 0 f 0). split; [apply norm_eq; [lra|unfold f; change (@eq (@car RNum)) with (@eq R); ring]|]. split; [exact I|]. apply kx_rate. rewrite r1.
    unfold vec, Ec. cbn [v3_0 v3_1 v3_2]. rewrite cos_0, sin_0. change (@eq (@car RNum)) with (@eq R). field. lra.
Qed.
Lemma w_theta ta : 1 + e * cos ta = 1 + e * cos om * cos (om + ta) + e * sin om * sin (om + ta).
Proof.
  replace (e * cos om * cos (om + ta) + e * sin om * sin (om + ta)) with (e * cos (om + ta - om)) by (rewrite cos_minus; ring) || idtac.
  replace ta with (om + ta - om) at 1 by ring. rewrite cos_minus. ring.
Qed.
Lemma ell2 : e * cos om * (e * cos om) + e * sin om * (e * sin om) < 1.
Proof. pose proof (sincos om). pose proof kx_ee. replace (e * cos om * (e * cos om) + e * sin om * (e * sin om)) with (e * e * (sin om * sin om + cos om * cos om)) by ring. nra. Qed.
(** a normal push of either sign reaches the bound *)
Lemma zmax comp K (q : R -> R) G : 0 < K -> 0 < G ->
  (forall ta u, comp (slow_rate (kep_psi (g_mu p) a e i ra om ta) u) = K * q ta * v3_2 u) ->
  (forall ta, Rabs (q ta) <= / G) -> (exists ta, Rabs (q ta) = / G) ->
  max_rate (lyap_keplerian (N:=RNum)) p oe any_push comp (K * / G * f).
Proof.
  intros HK HG Hr Hb (ta & Hat). split.
  - intros t u x Hu _ R. apply kx_rate in R. subst x. rewrite Hr, !Rabs_mult, (Rabs_pos_eq K) by lra.
    apply norm_le in Hu; [|lra]. assert (Z : Rabs (v3_2 u) <= f).
    { apply sq_le_abs; [unfold f; lra|]. fold f in Hu. pose proof (Rle_0_sqr (v3_0 u)). pose proof (Rle_0_sqr (v3_1 u)). unfold Rsqr in *. lra. }
    apply Rmult_le_compat; [apply Rmult_le_pos; [lra|apply Rabs_pos]|apply Rabs_pos| |exact Z].
    apply Rmult_le_compat_l; [lra|apply Hb].
  - exists ta. destruct (Rle_lt_dec 0 (q ta)) as [L|L].
    + exists (vec 0 0 f). split; [apply norm_eq; [lra|unfold f; change (@eq (@car RNum)) with (@eq R); ring]|]. split; [exact I|]. apply kx_rate. rewrite Hr. rewrite Rabs_pos_eq in Hat by lra.
      rewrite Hat. reflexivity.
    + exists (vec 0 0 (- f)). split; [apply norm_eq; [lra|unfold f; change (@eq (@car RNum)) with (@eq R); ring]|]. split; [exact I|]. apply kx_rate. rewrite Hr. rewrite Rabs_left in Hat by lra.
      rewrite <- Hat. unfold vec. cbn [v3_2]. ring.
Qed.
Lemma theta_exists C S : C * C + S * S = 1 -> exists ta, cos (om + ta) = C /\ sin (om + ta) = S.
Proof. intros H. destruct (angle_exists C S H) as (t & A & B). exists (t - om). replace (om + (t - om)) with t by ring. auto. Qed.
Lemma kmax2 : max_rate (lyap_keplerian (N:=RNum)) p oe any_push v5_2 (N2 (g_mu p) f a e om).
Proof.
  pose proof kx_h as H0. pose proof kx_P as P0. pose proof ell2 as EL. pose proof (gap_pos _ _ EL) as G.
  assert (HG : G2 e om = sqrt (1 - e * sin om * (e * sin om)) - Rabs (e * cos om)).
  { unfold G2. rewrite abs_root, Rabs_mult, (Rabs_pos_eq e) by lra. f_equal. f_equal. ring. }
  assert (HN : N2 (g_mu p) f a e om = P / h * / G2 e om * f).
  { rewrite <- HG in G. unfold N2, kp, kh. fold P h. change (sqrt (1 - e * e * (sin om * sin om)) - e * sqrt (cos om * cos om)) with (G2 e om). field. split; lra. }
  rewrite HN, HG. apply (zmax v5_2 (P / h) (fun ta => cos (om + ta) / (1 + e * cos ta))); [apply Rdiv_lt_0_compat; assumption|exact G|apply r2| |].
  - intros ta. apply div_bound; [apply kx_w|exact G|]. rewrite w_theta. apply cosmax; [exact EL|]. pose proof (sincos (om + ta)). lra.
  - destruct (cosmax_at _ _ EL) as (C & S & CS & M & _). destruct (theta_exists C S CS) as (ta & A & B). exists ta. cbv beta.
    apply div_at; [apply kx_w|exact G|]. rewrite w_theta, A, B. exact M.
Qed.
Lemma ell2s : e * sin om * (e * sin om) + e * cos om * (e * cos om) < 1.
Proof. pose proof ell2. lra. Qed.
Lemma gapG3 : G3 e om = sqrt (1 - e * cos om * (e * cos om)) - Rabs (e * sin om).
Proof. unfold G3. rewrite abs_root, Rabs_mult, (Rabs_pos_eq e) by lra. f_equal. f_equal. ring. Qed.
Lemma sin_bound ta : Rabs (sin (om + ta) / (1 + e * cos ta)) <= / (sqrt (1 - e * cos om * (e * cos om)) - Rabs (e * sin om)).
Proof.
  apply div_bound; [apply kx_w|apply gap_pos, ell2s|].
  replace (1 + e * cos ta) with (1 + e * sin om * sin (om + ta) + e * cos om * cos (om + ta)) by (rewrite w_theta; ring).
  apply cosmax; [apply ell2s|]. apply sincos.
Qed.
Lemma sin_at : exists ta, Rabs (sin (om + ta) / (1 + e * cos ta)) = / (sqrt (1 - e * cos om * (e * cos om)) - Rabs (e * sin om)).
Proof.
  destruct (cosmax_at _ _ ell2s) as (S & C & CS & M & _). destruct (theta_exists C S) as (ta & A & B); [lra|]. exists ta.
  apply div_at; [apply kx_w|apply gap_pos, ell2s|]. rewrite w_theta, A, B, M. ring.
Qed.
Lemma kmax3 : max_rate (lyap_keplerian (N:=RNum)) p oe any_push v5_3 (N3 (g_mu p) f a e i om).
Proof.
  pose proof kx_h as H0. pose proof kx_P as P0. pose proof (gap_pos _ _ ell2s) as G.
  assert (HN : N3 (g_mu p) f a e i om = P / (h * sin i) * / G3 e om * f).
  { rewrite <- gapG3 in G. unfold N3, kp, kh. fold P h. fold (G3 e om). field. repeat split; lra. }
  rewrite HN, gapG3. apply (zmax v5_3 (P / (h * sin i)) (fun ta => sin (om + ta) / (1 + e * cos ta))).
  - apply Rdiv_lt_0_compat; [assumption|apply Rmult_lt_0_compat; assumption].
  - exact G.
  - apply r3.
  - apply sin_bound.
  - apply sin_at.
Qed.
(** argument of periapsis: normal pushes *)
Lemma kmax4o : max_rate (lyap_keplerian (N:=RNum)) p oe normal_push v5_4 (N4o (g_mu p) f a e i om).
Proof.
  pose proof kx_h as H0. pose proof kx_P as P0. pose proof (gap_pos _ _ ell2s) as G.
  assert (K0 : 0 < P / (h * sin i)) by (apply Rdiv_lt_0_compat; [assumption|apply Rmult_lt_0_compat; assumption]).
  assert (HN : N4o (g_mu p) f a e i om = P / (h * sin i) * / G3 e om * f * Rabs (cos i)).
  { rewrite <- gapG3 in G. unfold N4o, N3, kp, kh. rewrite (abs_root (cos i)). fold P h. change (sqrt (1 - e * e * (cos om * cos om)) - e * sqrt (sin om * sin om)) with (G3 e om). field. repeat split; lra. }
  rewrite HN, gapG3. split.
  - intros ta u x Hu [U0 U1] R. apply kx_rate in R. subst x. rewrite r4, U0, U1. apply norm_le in Hu; [|lra].
    assert (Z : Rabs (v3_2 u) <= f).
    { apply sq_le_abs; [unfold f; lra|]. fold f in Hu. pose proof (Rle_0_sqr (v3_0 u)). pose proof (Rle_0_sqr (v3_1 u)). unfold Rsqr in *. lra. }
    replace (P / (e * h) * (- cos ta * 0 + (1 + / (1 + e * cos ta)) * sin ta * 0) - P / (h * sin i) * (sin (om + ta) / (1 + e * cos ta)) * cos i * v3_2 u)
      with (- (P / (h * sin i) * ((sin (om + ta) / (1 + e * cos ta)) * v3_2 u) * cos i)) by ring.
    rewrite Rabs_Ropp, Rabs_mult. apply Rmult_le_compat_r; [apply Rabs_pos|].
    rewrite Rmult_assoc. apply abs_scale; [lra|]. rewrite Rabs_mult. apply Rmult_le_compat; [apply Rabs_pos|apply Rabs_pos|apply sin_bound|exact Z].
  - destruct sin_at as (ta & Hat). exists ta. set (Q := sin (om + ta) / (1 + e * cos ta)) in *.
    assert (V : forall z, v5_4 (slow_rate (kep_psi (g_mu p) a e i ra om ta) (vec 0 0 z)) = - (P / (h * sin i)) * (Q * cos i) * z).
    { intros z. rewrite r4. unfold vec. cbn [v3_0 v3_1 v3_2]. fold Q. change (@eq (@car RNum)) with (@eq R). ring. }
    destruct (Rle_lt_dec 0 (Q * cos i)) as [L|L].
    + exists (vec 0 0 (- f)). split; [apply norm_eq; [lra|unfold f; change (@eq (@car RNum)) with (@eq R); ring]|]. split; [split; reflexivity|]. apply kx_rate. rewrite V, <- Hat.
      rewrite <- (Rabs_pos_eq (Q * cos i)) by exact L. rewrite Rabs_mult. ring.
    + exists (vec 0 0 f). split; [apply norm_eq; [lra|unfold f; change (@eq (@car RNum)) with (@eq R); ring]|]. split; [split; reflexivity|]. apply kx_rate. rewrite V, <- Hat.
      replace (Q * cos i) with (- Rabs (Q * cos i)) by (rewrite Rabs_left by exact L; ring). rewrite Rabs_mult. ring.
Qed.
Lemma in_plane_sq ta : let w := 1 + e * cos ta in
  e * e * (cos ta * cos ta + ((1 + / w) * sin ta) * ((1 + / w) * sin ta)) = e * e + (2 * w + 1) * (e * e - (w - 1) * (w - 1)) / (w * w).
Proof.
  intros w. pose proof (kx_w ta) as W. fold w in W. pose proof (sincos ta) as S.
  assert (EC : e * cos ta = w - 1) by (unfold w; ring).
  assert (SS : e * e * (sin ta * sin ta) = e * e - (w - 1) * (w - 1)) by (rewrite <- EC; replace (sin ta * sin ta) with (1 - cos ta * cos ta) by lra; ring).
  transitivity (e * cos ta * (e * cos ta) + (1 + / w) * (1 + / w) * (e * e * (sin ta * sin ta))); [ring|]. rewrite SS, EC. field. lra.
Qed.
Lemma kmax4i : max_rate (lyap_keplerian (N:=RNum)) p oe in_plane_push v5_4 (N4i (g_mu p) f a e).
Proof.
  pose proof kx_h as H0. pose proof kx_P as P0. pose proof kx_ee as E0.
  destruct (cos_opt_spec e He) as (Q & W & C). set (co := cos_opt e) in *. set (w := 1 + e * co) in *.
  assert (SN : sin (acos co) = sqrt (1 - co * co)) by (rewrite sin_acos by lra; reflexivity).
  assert (CN : cos (acos co) = co) by (apply cos_acos; lra).
  set (D := sqrt (co * co + (1 + / w) * (1 + / w) * (1 - co * co))).
  assert (DI : 0 < co * co + (1 + / w) * (1 + / w) * (1 - co * co)).
  { assert (0 < / w) by (apply Rinv_0_lt_compat, W). assert (0 < 1 - co * co) by nra. assert (0 < (1 + / w) * (1 + / w)) by nra. nra. }
  assert (DD : D * D = co * co + (1 + / w) * (1 + / w) * (1 - co * co)) by (apply sqrt_sqrt; lra).
  assert (DP : 0 < D) by (apply sqrt_lt_R0, DI).
  assert (HN : N4i (g_mu p) f a e = P / (e * h) * (D * f)).
  { unfold N4i, kp, kh. fold P h. fold co. cbv zeta. fold w.
    replace (P * P * (co * co) + (P + P / w) * (P + P / w) * (1 - co * co)) with (P * P * (co * co + (1 + / w) * (1 + / w) * (1 - co * co))) by (field; lra).
    rewrite sqrt_mult by nra. rewrite (sqrt_square P) by lra. fold D. field. split; lra. }
  rewrite HN. split.
  - intros ta u x Hu Hz R. apply kx_rate in R. subst x. unfold in_plane_push in Hz. rewrite r4.
    replace (P / (e * h) * (- cos ta * v3_0 u + (1 + / (1 + e * cos ta)) * sin ta * v3_1 u) - P / (h * sin i) * (sin (om + ta) / (1 + e * cos ta)) * cos i * v3_2 u)
      with (P / (e * h) * (- cos ta * v3_0 u + (1 + / (1 + e * cos ta)) * sin ta * v3_1 u + 0 * v3_2 u)) by (rewrite Hz; change (@eq (@car RNum)) with (@eq R); ring).
    apply abs_scale; [apply Rlt_le, Rdiv_lt_0_compat; [assumption|apply Rmult_lt_0_compat; lra]|].
    apply cauchy; [lra|unfold f; lra| |apply norm_le; [unfold f; lra|exact Hu]].
    rewrite DD. apply (Rmult_le_reg_l (e * e)); [nra|].
    replace (e * e * (- cos ta * - cos ta + (1 + / (1 + e * cos ta)) * sin ta * ((1 + / (1 + e * cos ta)) * sin ta) + 0 * 0))
      with (e * e * (cos ta * cos ta + ((1 + / (1 + e * cos ta)) * sin ta) * ((1 + / (1 + e * cos ta)) * sin ta))) by ring.
    pose proof (in_plane_sq ta) as I1. cbv zeta in I1. rewrite I1.
    pose proof (in_plane_sq (acos co)) as I2. cbv zeta in I2. rewrite CN, SN in I2. fold w in I2.
    replace (e * e * (co * co + (1 + / w) * (1 + / w) * (1 - co * co))) with (e * e * (co * co + (1 + / w) * sqrt (1 - co * co) * ((1 + / w) * sqrt (1 - co * co)))).
    + rewrite I2. apply Rplus_le_compat_l. apply cubic_max; [exact W|apply kx_w|exact Q|exact E0].
    + replace ((1 + / w) * sqrt (1 - co * co) * ((1 + / w) * sqrt (1 - co * co))) with ((1 + / w) * (1 + / w) * (sqrt (1 - co * co) * sqrt (1 - co * co))) by ring.
      rewrite sqrt_sqrt by nra. reflexivity.
  - exists (acos co), (vec (- co * f / D) ((1 + / w) * sqrt (1 - co * co) * f / D) 0).
    assert (SS : sqrt (1 - co * co) * sqrt (1 - co * co) = 1 - co * co) by (apply sqrt_sqrt; nra).
    split; [apply norm_eq; [lra|fold f]|].
    { transitivity (f * f * (co * co + (1 + / w) * (1 + / w) * (sqrt (1 - co * co) * sqrt (1 - co * co))) / (D * D)); [field; lra|].
      rewrite SS, <- DD. field. lra. }
    split; [reflexivity|]. apply kx_rate. rewrite r4, CN, SN. unfold vec. cbn [v3_0 v3_1 v3_2]. fold w.
    transitivity (P / (e * h) * (f * (co * co + (1 + / w) * (1 + / w) * (sqrt (1 - co * co) * sqrt (1 - co * co))) / D)); [field; repeat split; lra|].
    rewrite SS, <- DD. field. repeat split; lra.
Qed.
End KepMax.
Lemma C38_lem p a e i ra om ta aT eT iT raT omT w0 w1 w2 w3 w4 :
  g_T p = @mk5 RNum aT eT iT raT omT -> g_w p = @mk5 RNum w0 w1 w2 w3 w4 -> 0 < g_mu p -> 0 < g_f p ->
  let oe := elems a e i ra om ta in kep_state oe ->
  exists A E I O Wi Wo out, ask (lyap_keplerian (N:=RNum)) p oe = Ok out /\
    max_rate (lyap_keplerian (N:=RNum)) p oe any_push v5_0 A /\ max_rate (lyap_keplerian (N:=RNum)) p oe any_push v5_1 E /\
    max_rate (lyap_keplerian (N:=RNum)) p oe any_push v5_2 I /\ max_rate (lyap_keplerian (N:=RNum)) p oe any_push v5_3 O /\
    max_rate (lyap_keplerian (N:=RNum)) p oe in_plane_push v5_4 Wi /\ max_rate (lyap_keplerian (N:=RNum)) p oe normal_push v5_4 Wo /\
    lo_q out = penalty p a e * (w0 * a_scaling p (a - aT) * ((a - aT) / A) ^ 2 + w1 * ((e - eT) / E) ^ 2 + w2 * ((i - iT) / I) ^ 2
      + w3 * (acos (cos (ra - raT)) / O) ^ 2 + w4 * (acos (cos (om - omT)) / ((Wi + g_b p * Wo) / (1 + g_b p))) ^ 2).
Proof.
  intros ET EW Hmu Hf oe (Ha & He & Hi).
  exists (N0 (g_mu p) (g_f p) a e), (N1 (g_mu p) (g_f p) a e), (N2 (g_mu p) (g_f p) a e om), (N3 (g_mu p) (g_f p) a e i om),
    (N4i (g_mu p) (g_f p) a e), (N4o (g_mu p) (g_f p) a e i om).
  eexists. split; [unfold lyap_keplerian; apply ask_lyap|].
  split; [apply kmax0; assumption|]. split; [apply kmax1; assumption|]. split; [apply kmax2; assumption|]. split; [apply kmax3; assumption|].
  split; [apply kmax4i; assumption|]. split; [apply kmax4o; assumption|].
  cbn [lo_q]. unfold oe, penalty, a_scaling. destruct p as [mu acc T rpmin m n r b kk wp W]. cbn [g_T g_w g_mu g_f] in *. subst T W.
  unfold env_of. cbn [g_T g_mu g_f g_rpmin g_m g_n g_r g_b g_k g_wp g_w v5_0]. rewrite ev_q by assumption.
  unfold Qkep, amp, pen, N4. change (npow (Num:=RNum)) with rpow. change (@eq (@car RNum)) with (@eq R). ring.
Qed.

(** ** Equinoctial law *)
Lemma d_exceeds phi x d : derivable_pt_lim phi x d -> d <> 0 -> exists y, phi x < phi y.
Proof.
  intros D Hd. assert (P : 0 < Rabs d / 2) by (pose proof (Rabs_pos_lt d Hd); lra).
  destruct (D _ P) as [del Hdel]. destruct del as [del dp]. cbn in Hdel.
  destruct (Rlt_le_dec 0 d) as [L|L].
  - exists (x + del / 2). assert (K := Hdel (del / 2) ltac:(lra) ltac:(rewrite Rabs_pos_eq; lra)).
    rewrite (Rabs_pos_eq d) in K by lra. apply Rabs_def2 in K as [_ K].
    assert (0 < (phi (x + del / 2) - phi x) / (del / 2)) by lra.
    assert (0 < (phi (x + del / 2) - phi x) / (del / 2) * (del / 2)) by (apply Rmult_lt_0_compat; lra).
    replace ((phi (x + del / 2) - phi x) / (del / 2) * (del / 2)) with (phi (x + del / 2) - phi x) in * by (field; lra). lra.
  - exists (x + - (del / 2)). assert (K := Hdel (- (del / 2)) ltac:(lra) ltac:(rewrite Rabs_left; lra)).
    rewrite (Rabs_left d) in K by lra. apply Rabs_def2 in K as [K _].
    assert ((phi (x + - (del / 2)) - phi x) / - (del / 2) < 0) by lra.
    assert (0 < (phi (x + - (del / 2)) - phi x) / - (del / 2) * - (del / 2)) by nra.
    replace ((phi (x + - (del / 2)) - phi x) / - (del / 2) * - (del / 2)) with (phi (x + - (del / 2)) - phi x) in * by (field; lra). lra.
Qed.
Lemma side_sq f : side f * side f = 1.
Proof. unfold side. destruct (Rlt_dec 0 f); ring. Qed.

Lemma div_compare c G x : 0 < c -> 0 < G - Rabs x -> 0 < G + x -> (c / (G - Rabs x) <= c / (G + x) <-> x <= 0) /\ (x <= 0 -> c / (G - Rabs x) = c / (G + x)).
Proof.
  intros Hc P1 P2. assert (E : x <= 0 -> c / (G - Rabs x) = c / (G + x)).
  { intros L. rewrite Rabs_left1 by exact L. f_equal. ring. }
  split; [|exact E]. split; [|intros L; rewrite (E L); lra]. intros L. destruct (Rle_lt_dec x 0) as [|X]; [assumption|exfalso].
  rewrite Rabs_pos_eq in * by lra. assert (/ (G + x) < / (G - x)) by (apply Rinv_lt_contravar; nra). unfold Rdiv in L. nra.
Qed.

Section MeeMax.
Variables (p : law_args) (a f g h k l0 : R).
Hypotheses (Hmu : 0 < g_mu p) (Hacc : 0 < g_f p) (Ha : 0 < a) (He : f * f + g * g < 1) (Hf : f <> 0).
Let oe := elems a f g h k l0.
Let fn := lyap_mee_with_a (N:=RNum).
Let q := mee_q p a f g.
Let acc := g_f p.
Let s2 := 1 + h * h + k * k.
Let W l := 1 + f * cos l + g * sin l.
Lemma mx_q : 0 < q. Proof. apply sqrt_lt_R0, Rdiv_lt_0_compat; [apply Rmult_lt_0_compat; lra|exact Hmu]. Qed.
Lemma mx_s2 : 0 < s2. Proof. apply one_sq_pos. Qed.
Lemma mx_W l : 0 < W l. Proof. pose proof (w_bound f g l He). unfold W. lra. Qed.
Lemma mx_qq : q * q = a * (1 - f * f - g * g) / g_mu p.
Proof. apply sqrt_sqrt. apply Rlt_le, Rdiv_lt_0_compat; [apply Rmult_lt_0_compat; lra|exact Hmu]. Qed.
Lemma mx_rate comp l u x : rate_is fn p oe comp l u x <-> comp (slow_rate (mee_psi (g_mu p) a f g h k l) u) = x.
Proof.
  unfold rate_is, oe, with_anomaly, elems. change (@mk6 RNum a f g h k l) with (elems a f g h k l).
  rewrite <- (evalpsi_mee p a f g h k l Hmu Ha He Hf). split.
  - intros (out & H & K). unfold fn, lyap_mee_with_a in H. rewrite ask_lyap in H. apply Ok_inj in H. subst out. exact K.
  - intros K. eexists. split; [unfold fn, lyap_mee_with_a; apply ask_lyap|]. exact K.
Qed.
Let A0 := 2 * (a * a) / (g_mu p * q).
Lemma s0 l u : v5_0 (slow_rate (mee_psi (g_mu p) a f g h k l) u) =
  A0 * (side f * (f * sin l - g * cos l) * v3_0 u + (1 + side f * (W l - 1)) * v3_1 u + 0 * v3_2 u).
Proof.
  destruct u as [x y z]. unfold slow_rate, mee_psi, dot, dot3, vec. cbn. fold (mee_q p a f g). fold q. fold A0. fold (W l).
  change (@eq (@car RNum)) with (@eq R). ring.
Qed.
Lemma s1 l u : v5_1 (slow_rate (mee_psi (g_mu p) a f g h k l) u) =
  q * (sin l * v3_0 u + (cos l + (cos l + f) / W l) * v3_1 u + - g * (h * sin l - k * cos l) / W l * v3_2 u).
Proof.
  pose proof (mx_W l). destruct u as [x y z]. unfold slow_rate, mee_psi, dot, dot3, vec. cbn. fold (mee_q p a f g). fold q. fold (W l).
  change (@eq (@car RNum)) with (@eq R). field. lra.
Qed.
Lemma s2_ l u : v5_2 (slow_rate (mee_psi (g_mu p) a f g h k l) u) =
  q * (- cos l * v3_0 u + (sin l + (sin l + g) / W l) * v3_1 u + f * (h * sin l - k * cos l) / W l * v3_2 u).
Proof.
  pose proof (mx_W l). destruct u as [x y z]. unfold slow_rate, mee_psi, dot, dot3, vec. cbn. fold (mee_q p a f g). fold q. fold (W l).
  change (@eq (@car RNum)) with (@eq R). field. lra.
Qed.
Lemma s3 l u : v5_3 (slow_rate (mee_psi (g_mu p) a f g h k l) u) = 1 / 2 * q * s2 * (cos l / W l) * v3_2 u.
Proof.
  pose proof (mx_W l). destruct u as [x y z]. unfold slow_rate, mee_psi, dot, dot3, vec. cbn. fold (mee_q p a f g). fold q. fold (W l). fold s2.
  change (@eq (@car RNum)) with (@eq R). field. lra.
Qed.
Lemma s4 l u : v5_4 (slow_rate (mee_psi (g_mu p) a f g h k l) u) = 1 / 2 * q * s2 * (sin l / W l) * v3_2 u.
Proof.
  pose proof (mx_W l). destruct u as [x y z]. unfold slow_rate, mee_psi, dot, dot3, vec. cbn. fold (mee_q p a f g). fold q. fold (W l). fold s2.
  change (@eq (@car RNum)) with (@eq R). field. lra.
Qed.
Let ec := sqrt (f * f + g * g).
Lemma ec_sq : ec * ec = f * f + g * g. Proof. apply sqrt_sqrt. nra. Qed.
Lemma ec_rng : 0 < ec < 1.
Proof. pose proof (mee_ecc f g He) as E. fold ec in E. split; [|lra]. apply sqrt_lt_R0. nra. Qed.
Lemma A0_pos : 0 < A0. Proof. apply Rdiv_lt_0_compat; [nra|]. apply Rmult_lt_0_compat; [exact Hmu|exact mx_q]. Qed.
Lemma mmax0 : max_rate fn p oe any_push v5_0 (acc * L0 (g_mu p) a f g).
Proof.
  pose proof mx_q as Q. pose proof ec_rng as E. pose proof A0_pos as AP. pose proof ec_sq as EE.
  assert (HN : acc * L0 (g_mu p) a f g = A0 * ((1 + ec) * acc)).
  { unfold L0, me. fold ec.
    assert (S1 : sqrt (a / g_mu p) * sqrt ((1 + ec) / (1 - ec)) = a * (1 + ec) / (g_mu p * q)).
    - rewrite <- sqrt_mult by (apply Rlt_le, Rdiv_lt_0_compat; lra). apply sqrt_pos_of.
      + apply Rlt_le, Rdiv_lt_0_compat; apply Rmult_lt_0_compat; lra.
      + replace (a * (1 + ec) / (g_mu p * q) * (a * (1 + ec) / (g_mu p * q))) with (a * a * (1 + ec) * (1 + ec) / (g_mu p * g_mu p * (q * q))) by (field; lra).
        rewrite mx_qq. replace (1 - f * f - g * g) with ((1 - ec) * (1 + ec)) by nra. field. repeat split; lra.
    - replace (2 * a * sqrt (a / g_mu p) * sqrt ((1 + ec) / (1 - ec))) with (2 * a * (sqrt (a / g_mu p) * sqrt ((1 + ec) / (1 - ec)))) by ring.
      rewrite S1. unfold A0. field. lra. }
  rewrite HN. pose proof (side_sq f) as SS. split.
  - intros l u x Hu _ R. apply mx_rate in R. subst x. rewrite s0. apply abs_scale; [lra|].
    apply cauchy; [lra|unfold acc; lra| |apply norm_le; [unfold acc; lra|exact Hu]].
    set (A := f * sin l - g * cos l). assert (HB : W l - 1 = f * cos l + g * sin l) by (unfold W; ring). rewrite HB. set (B := f * cos l + g * sin l).
    assert (AB : A * A + B * B = ec * ec).
    { rewrite EE. pose proof (sincos l) as Z. unfold A, B. replace (f * f + g * g) with ((f * f + g * g) * (sin l * sin l + cos l * cos l)) by (rewrite Z; ring). ring. }
    assert (LB : side f * B <= ec).
    { apply Rle_trans with (Rabs (side f * B)); [apply Rle_abs|]. apply sq_le_abs; [lra|].
      replace (side f * B * (side f * B)) with (side f * side f * (B * B)) by ring. rewrite SS. pose proof (Rle_0_sqr A) as Z. unfold Rsqr in Z. lra. }
    apply Rle_trans with (side f * side f * (A * A + B * B) + 2 * (side f * B) + 1); [apply Req_le; ring|]. rewrite SS, AB.
    replace ((1 + ec) * (1 + ec)) with (1 * (ec * ec) + 2 * ec + 1) by ring. lra.
  - destruct (angle_exists (side f * f / ec) (side f * g / ec)) as (l & C & S).
    { replace (side f * f / ec * (side f * f / ec) + side f * g / ec * (side f * g / ec)) with (side f * side f * (f * f + g * g) / (ec * ec)) by (field; lra).
      rewrite SS, <- EE. field. lra. }
    exists l, (vec 0 acc 0). split; [apply norm_eq; [lra|unfold acc; change (@eq (@car RNum)) with (@eq R); ring]|]. split; [exact I|].
    apply mx_rate. rewrite s0. unfold vec, W. cbn [v3_0 v3_1 v3_2]. rewrite C, S. change (@eq (@car RNum)) with (@eq R).
    transitivity (A0 * ((1 + side f * side f * ((f * f + g * g) / ec)) * acc)); [field; lra|]. rewrite SS, <- EE. field. lra.
Qed.
Lemma mzmax comp (c : R -> R) G : 0 < G -> (forall l u, comp (slow_rate (mee_psi (g_mu p) a f g h k l) u) = 1 / 2 * q * s2 * c l * v3_2 u) ->
  (forall l, Rabs (c l) <= / G) -> (exists l, Rabs (c l) = / G) -> max_rate fn p oe any_push comp (1 / 2 * acc * q * s2 / G).
Proof.
  intros HG Hr Hb (l & Hat). pose proof mx_q as Q. pose proof mx_s2 as S2. assert (K : 0 < 1 / 2 * q * s2) by (repeat apply Rmult_lt_0_compat; lra).
  replace (1 / 2 * acc * q * s2 / G) with (1 / 2 * q * s2 * / G * acc) by (field; lra). split.
  - intros t u x Hu _ R. apply mx_rate in R. subst x. rewrite Hr.
    apply norm_le in Hu; [|lra]. assert (Z : Rabs (v3_2 u) <= acc).
    { apply sq_le_abs; [unfold acc; lra|]. fold acc in Hu. pose proof (Rle_0_sqr (v3_0 u)). pose proof (Rle_0_sqr (v3_1 u)). unfold Rsqr in *. lra. }
    rewrite Rmult_assoc, (Rmult_assoc _ (/ G)). apply abs_scale; [lra|]. rewrite Rabs_mult.
    apply Rmult_le_compat; [apply Rabs_pos|apply Rabs_pos|apply Hb|exact Z].
  - exists l. destruct (Rle_lt_dec 0 (c l)) as [L|L].
    + exists (vec 0 0 acc). split; [apply norm_eq; [lra|unfold acc; change (@eq (@car RNum)) with (@eq R); ring]|]. split; [exact I|]. apply mx_rate. rewrite Hr.
      rewrite Rabs_pos_eq in Hat by lra. rewrite Hat. reflexivity.
    + exists (vec 0 0 (- acc)). split; [apply norm_eq; [lra|unfold acc; change (@eq (@car RNum)) with (@eq R); ring]|]. split; [exact I|]. apply mx_rate. rewrite Hr.
      rewrite Rabs_left in Hat by lra. rewrite <- Hat. unfold vec. cbn [v3_2]. change (@eq (@car RNum)) with (@eq R). ring.
Qed.
Lemma mmax3 : max_rate fn p oe any_push v5_3 (mee_max_h p a f g h k).
Proof.
  pose proof (gap_pos f g He) as G. unfold mee_max_h. fold q s2 acc. apply (mzmax v5_3 (fun l => cos l / W l)); [exact G|exact s3| |].
  - intros l. apply div_bound; [apply mx_W|exact G|]. apply cosmax; [exact He|]. pose proof (sincos l). lra.
  - destruct (cosmax_at f g He) as (C & S & CS & M & _). destruct (angle_exists C S CS) as (l & E1 & E2). exists l. cbv beta.
    apply div_at; [apply mx_W|exact G|]. unfold W. rewrite E1, E2. exact M.
Qed.
Lemma mmax4 : max_rate fn p oe any_push v5_4 (mee_max_k p a f g h k).
Proof.
  assert (He' : g * g + f * f < 1) by lra. pose proof (gap_pos g f He') as G. unfold mee_max_k. fold q s2 acc. apply (mzmax v5_4 (fun l => sin l / W l)); [exact G|exact s4| |].
  - intros l. apply div_bound; [apply mx_W|exact G|]. replace (W l) with (1 + g * sin l + f * cos l) by (unfold W; ring). apply cosmax; [exact He'|]. apply sincos.
  - destruct (cosmax_at g f He') as (S & C & CS & M & _). destruct (angle_exists C S) as (l & E1 & E2); [lra|]. exists l. cbv beta.
    apply div_at; [apply mx_W|exact G|]. unfold W. rewrite E1, E2, M. ring.
Qed.
Lemma bounds_le comp N M : max_rate fn p oe any_push comp N -> 0 <= N -> (bounds_rate fn p oe any_push comp M <-> N <= M).
Proof.
  intros [B (l & u & Hu & K & R)] HN. split.
  - intros H. rewrite <- (Rabs_pos_eq N HN). apply (H l u); [lra|exact K|exact R].
  - intros L t v x Hv Kv Rv. apply Rle_trans with N; [|exact L]. exact (B t v x Hv Kv Rv).
Qed.
Lemma kpos : 0 < 1 / 2 * g_f p * mee_q p a f g * (1 + h * h + k * k).
Proof. pose proof mx_q. pose proof mx_s2. repeat apply Rmult_lt_0_compat; try lra; assumption. Qed.
Lemma h_lem : (bounds_rate fn p oe any_push v5_3 (mee_div_h p a f g h k) <-> f <= 0) /\ (max_rate fn p oe any_push v5_3 (mee_div_h p a f g h k) <-> f <= 0).
Proof.
  pose proof (gap_pos f g He) as G. pose proof (proj2 (mee_gap f g He)) as G'.
  destruct (div_compare _ (sqrt (1 - g * g)) f kpos G G') as [C E]. fold (mee_max_h p a f g h k) in C, E. fold (mee_div_h p a f g h k) in C, E.
  assert (B : bounds_rate fn p oe any_push v5_3 (mee_div_h p a f g h k) <-> f <= 0).
  { rewrite (bounds_le v5_3 (mee_max_h p a f g h k)); [exact C|exact mmax3|]. apply Rlt_le, Rdiv_lt_0_compat; [exact kpos|exact G]. }
  split; [exact B|]. split; [intros [H _]; apply B, H|]. intros L. rewrite <- (E L). exact mmax3.
Qed.
Lemma k_lem : (bounds_rate fn p oe any_push v5_4 (mee_div_k p a f g h k) <-> g <= 0) /\ (max_rate fn p oe any_push v5_4 (mee_div_k p a f g h k) <-> g <= 0).
Proof.
  assert (He' : g * g + f * f < 1) by lra. pose proof (gap_pos g f He') as G. pose proof (proj2 (mee_gap g f He')) as G'.
  destruct (div_compare _ (sqrt (1 - f * f)) g kpos G G') as [C E]. fold (mee_max_k p a f g h k) in C, E. fold (mee_div_k p a f g h k) in C, E.
  assert (B : bounds_rate fn p oe any_push v5_4 (mee_div_k p a f g h k) <-> g <= 0).
  { rewrite (bounds_le v5_4 (mee_max_k p a f g h k)); [exact C|exact mmax4|]. apply Rlt_le, Rdiv_lt_0_compat; [exact kpos|exact G]. }
  split; [exact B|]. split; [intros [H _]; apply B, H|]. intros L. rewrite <- (E L). exact mmax4.
Qed.
Lemma exceed comp (c : R -> R) : (forall l, comp (slow_rate (mee_psi (g_mu p) a f g h k l) (vec 0 acc 0)) = q * c l * acc) ->
  (exists l, 2 < c l) -> ~ bounds_rate fn p oe any_push comp (mee_div_f p a f g).
Proof.
  intros Hc (l & L) B. pose proof mx_q as Q.
  assert (K : Rabs (q * c l * acc) <= mee_div_f p a f g).
  { apply (B l (vec 0 acc 0)); [|exact I|apply mx_rate, Hc]. apply Req_le. apply norm_eq; [lra|unfold acc; change (@eq (@car RNum)) with (@eq R); ring]. }
  apply (Rle_trans _ _ _ (Rle_abs _)) in K. unfold mee_div_f in K. fold q in K. fold acc in K.
  assert (0 < acc) by exact Hacc. assert (0 < q * acc * (c l - 2)) by (repeat apply Rmult_lt_0_compat; lra). lra.
Qed.
Lemma f_lem : (bounds_rate fn p oe any_push v5_1 (mee_div_f p a f g) <-> g = 0) /\ (max_rate fn p oe any_push v5_1 (mee_div_f p a f g) <-> g = 0).
Proof.
  pose proof mx_q as Q.
  assert (N : bounds_rate fn p oe any_push v5_1 (mee_div_f p a f g) -> g = 0).
  { intros B. destruct (Req_dec g 0) as [|X]; [assumption|exfalso]. revert B. apply (exceed v5_1 (fun l => cos l + (cos l + f) / W l)).
    - intros l. rewrite s1. unfold vec. cbn [v3_0 v3_1 v3_2]. change (@eq (@car RNum)) with (@eq R). ring.
    - pose proof (mx_W 0) as W0. unfold W in W0. rewrite cos_0, sin_0 in W0.
      assert (V0 : cos 0 + (cos 0 + f) / W 0 = 2) by (unfold W; rewrite cos_0, sin_0; field; lra).
      destruct (d_exceeds (fun l => cos l + (cos l + f) / W l) 0 (- g / (1 + f))) as (y & Y).
      + eapply dval; [|eapply d_plus; [apply derivable_pt_lim_cos|eapply d_div; [eapply d_plus; [apply derivable_pt_lim_cos|apply d_const]| |]]].
        2:{ unfold W. eapply d_plus; [eapply d_plus; [apply d_const|apply d_scal, derivable_pt_lim_cos]|apply d_scal, derivable_pt_lim_sin]. }
        2:{ apply Rgt_not_eq, mx_W. }
        unfold W. rewrite cos_0, sin_0. field. lra.
      + intros E. apply X. apply (Rmult_eq_compat_r (1 + f)) in E. unfold Rdiv in E. rewrite Rmult_assoc, Rinv_l in E by lra. lra.
      + exists y. cbv beta in Y. rewrite V0 in Y. exact Y. }
  assert (M : g = 0 -> max_rate fn p oe any_push v5_1 (mee_div_f p a f g)).
  { intros G0. replace (mee_div_f p a f g) with (q * (2 * acc)) by (unfold mee_div_f; fold q acc; ring). split.
    - intros l u x Hu _ R. apply mx_rate in R. subst x. rewrite s1. apply abs_scale; [lra|].
      apply cauchy; [lra|unfold acc; lra| |apply norm_le; [unfold acc; lra|exact Hu]].
      pose proof (mx_W l) as Wl. pose proof (sincos l) as S. set (Z := (cos l + f) / W l).
      assert (ZZ : Z * Z <= 1).
      { assert (WE : W l = 1 + f * cos l) by (unfold W; rewrite G0; ring). unfold Z. rewrite WE in *.
        replace ((cos l + f) / (1 + f * cos l) * ((cos l + f) / (1 + f * cos l))) with ((cos l + f) * (cos l + f) / ((1 + f * cos l) * (1 + f * cos l))) by (field; lra).
        apply (Rmult_le_reg_r ((1 + f * cos l) * (1 + f * cos l))); [nra|]. unfold Rdiv. rewrite Rmult_assoc, Rinv_l by nra.
        assert (cos l * cos l <= 1) by nra. assert (f * f < 1) by nra. nra. }
      rewrite G0. replace (- 0 * (h * sin l - k * cos l) / W l) with 0 by (field; lra).
      assert (cos l * cos l <= 1) by nra. nra.
    - exists 0, (vec 0 acc 0). split; [apply norm_eq; [lra|unfold acc; change (@eq (@car RNum)) with (@eq R); ring]|]. split; [exact I|]. apply mx_rate. rewrite s1.
      pose proof (mx_W 0) as W0. unfold W in *. rewrite cos_0, sin_0 in *. unfold vec. cbn [v3_0 v3_1 v3_2]. change (@eq (@car RNum)) with (@eq R). field. lra. }
  split; split; [exact N|intros G0; apply M, G0|intros [B _]; exact (N B)|exact M].
Qed.
Lemma g_lem : ~ bounds_rate fn p oe any_push v5_2 (mee_div_f p a f g).
Proof.
  apply (exceed v5_2 (fun l => sin l + (sin l + g) / W l)).
  - intros l. rewrite s2_. unfold vec. cbn [v3_0 v3_1 v3_2]. change (@eq (@car RNum)) with (@eq R). ring.
  - pose proof (mx_W (PI / 2)) as W0. unfold W in W0. rewrite cos_PI2, sin_PI2 in W0.
    assert (V0 : sin (PI / 2) + (sin (PI / 2) + g) / W (PI / 2) = 2) by (unfold W; rewrite cos_PI2, sin_PI2; field; lra).
    destruct (d_exceeds (fun l => sin l + (sin l + g) / W l) (PI / 2) (f / (1 + g))) as (y & Y).
    + eapply dval; [|eapply d_plus; [apply derivable_pt_lim_sin|eapply d_div; [eapply d_plus; [apply derivable_pt_lim_sin|apply d_const]| |]]].
      2:{ unfold W. eapply d_plus; [eapply d_plus; [apply d_const|apply d_scal, derivable_pt_lim_cos]|apply d_scal, derivable_pt_lim_sin]. }
      2:{ apply Rgt_not_eq, mx_W. }
      unfold W. rewrite cos_PI2, sin_PI2. field. lra.
    + intros E. apply Hf. apply (Rmult_eq_compat_r (1 + g)) in E. unfold Rdiv in E. rewrite Rmult_assoc, Rinv_l in E by lra. lra.
    + exists y. cbv beta in Y. rewrite V0 in Y. exact Y.
Qed.
End MeeMax.

Lemma C39_shape_lem p a f g h k l aT fT gT hT kT w0 w1 w2 w3 w4 :
  g_T p = @mk5 RNum aT fT gT hT kT -> g_w p = @mk5 RNum w0 w1 w2 w3 w4 -> 0 < g_mu p -> 0 < g_f p ->
  let oe := elems a f g h k l in mee_state oe -> f <> 0 ->
  exists A out, ask (lyap_mee_with_a (N:=RNum)) p oe = Ok out /\ max_rate (lyap_mee_with_a (N:=RNum)) p oe any_push v5_0 A /\
    lo_q out = penalty p a (sqrt (f * f + g * g)) * (w0 * a_scaling p (Rabs (a - aT)) * ((a - aT) / A) ^ 2
      + w1 * ((f - fT) / mee_div_f p a f g) ^ 2 + w2 * ((g - gT) / mee_div_f p a f g) ^ 2
      + w3 * ((h - hT) / mee_div_h p a f g h k) ^ 2 + w4 * ((k - kT) / mee_div_k p a f g h k) ^ 2).
Proof.
  intros ET EW Hmu Hacc oe (Ha & He) Hf. exists (g_f p * L0 (g_mu p) a f g). eexists. split; [unfold lyap_mee_with_a; apply ask_lyap|].
  split; [apply mmax0; assumption|].
  cbn [lo_q]. unfold oe, penalty, a_scaling, mee_div_f, mee_div_h, mee_div_k, mee_q. destruct p as [mu acc T rpmin m n r b kk wp W]. cbn [g_T g_w g_mu g_f] in *. subst T W.
  unfold env_of. cbn [g_T g_mu g_f g_rpmin g_m g_n g_r g_b g_k g_wp g_w v5_0]. rewrite ev_mq by assumption.
  unfold Qmee, mamp, mpen, me. rewrite (abs_root (a - aT)). change (sqrt (a * (1 - f * f - g * g) / mu)) with (msp mu a f g).
  replace (2 * acc * msp mu a f g) with (acc * (2 * msp mu a f g)) by ring.
  replace (1 / 2 * acc * msp mu a f g * (1 + h * h + k * k) / (sqrt (1 - g * g) + f)) with (acc * L3 mu a f g h k) by (unfold L3, Rdiv; ring).
  replace (1 / 2 * acc * msp mu a f g * (1 + h * h + k * k) / (sqrt (1 - f * f) + g)) with (acc * L4 mu a f g h k) by (unfold L4, Rdiv; ring).
  change (npow (Num:=RNum)) with rpow. change (@eq (@car RNum)) with (@eq R). ring.
Qed.

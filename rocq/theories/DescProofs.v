(** One step of the closed loop changes Q by the recorded rate, to first order in the step (C94). *)
From Coq Require Import Reals Lra Lia ZArith List Bool.
From Verif Require Import RMath RLib DLib Num Base Integrate Eom Lyapunov Symbolic SymKep SymMee RSpec LawSpec DiffProofs CtlProofs KepQ MeeQ LawProofs IntegProofs GaussProofs.
Import ListNotations.
Local Open Scope R_scope.

Lemma slow_add6 (y k : vec6 RNum) s v : slow k = v -> slow (v6add (N:=RNum) y (v6scal (N:=RNum) s k)) = euler5 s y v.
Proof. intros <-. destruct y, k. reflexivity. Qed.

(** a step whose stages stay where the right-hand side is defined succeeds *)
Lemma rk4_ok (rhs : R -> vec6 RNum -> ode_params RNum -> Res (vec6 RNum)) pr (dom : vec5 RNum -> Prop) v t h y :
  (forall t z, dom (slow z) -> exists k, rhs t z pr = Ok k /\ slow k = v) ->
  dom (slow y) -> dom (euler5 (h * (5 / 10)) y v) -> dom (euler5 h y v) -> exists y', rk4 (N:=RNum) rhs t h y pr = Ok y'.
Proof.
  intros H D0 D1 D2. unfold rk4. change (dec (N:=RNum) 5 1) with (5 / 10). change (nmul (Num:=RNum)) with Rmult. change (nadd (Num:=RNum)) with Rplus.
  destruct (H t y D0) as (k1 & -> & S1). cbn [bind].
  edestruct (H (t + 5 / 10 * h) (v6add (N:=RNum) y (v6scal (N:=RNum) (h * (5 / 10)) k1))) as (k2 & E2 & S2); [rewrite (slow_add6 _ _ _ v S1); exact D1|].
  rewrite E2. cbn [bind].
  edestruct (H (t + 5 / 10 * h) (v6add (N:=RNum) y (v6scal (N:=RNum) (h * (5 / 10)) k2))) as (k3 & E3 & S3); [rewrite (slow_add6 _ _ _ v S2); exact D1|].
  rewrite E3. cbn [bind].
  edestruct (H (t + h) (v6add (N:=RNum) y (v6scal (N:=RNum) h k3))) as (k4 & E4 & S4); [rewrite (slow_add6 _ _ _ v S3); exact D2|].
  rewrite E4. cbn [bind]. eexists. reflexivity.
Qed.

Lemma abs_between x b : Rabs x <= b -> - b <= x <= b.
Proof. intros H. unfold Rabs in H. destruct (Rcase_abs x); lra. Qed.
Lemma norm_pos (D : vec3 RNum) : v3_0 D <> 0 \/ v3_1 D <> 0 -> 0 < norm D.
Proof.
  destruct D as [x y z]. cbn [v3_0 v3_1]. intros H. unfold norm. apply sqrt_lt_R0. cbn. change (0 < x * x + y * y + z * z).
  pose proof (Rle_0_sqr x). pose proof (Rle_0_sqr y). pose proof (Rle_0_sqr z). unfold Rsqr in *.
  destruct H as [H|H]; apply Rsqr_pos_lt in H; unfold Rsqr in H; lra.
Qed.
(** small moves keep strict inequalities *)
Lemma small_pos x v : 0 < x -> exists d, 0 < d /\ forall s, Rabs s < d -> 0 < x + s * v.
Proof.
  intros Hx. exists (x / (1 + Rabs v)). assert (P : 0 < 1 + Rabs v) by (pose proof (Rabs_pos v); lra). split; [apply Rdiv_lt_0_compat; assumption|].
  intros s Hs. assert (Rabs (s * v) < x).
  { rewrite Rabs_mult. apply Rle_lt_trans with (Rabs s * (1 + Rabs v)).
    - apply Rmult_le_compat_l; [apply Rabs_pos|lra].
    - apply (Rmult_lt_reg_r (/ (1 + Rabs v))); [apply Rinv_0_lt_compat; exact P|]. rewrite Rmult_assoc, Rinv_r by lra. rewrite Rmult_1_r. exact Hs. }
  apply Rabs_def2 in H. lra.
Qed.
Lemma small_disc f g vf vg : f * f + g * g < 1 -> exists d, 0 < d /\ forall s, Rabs s < d -> (f + s * vf) * (f + s * vf) + (g + s * vg) * (g + s * vg) < 1.
Proof.
  intros H. set (B := 1 + Rabs (2 * (f * vf + g * vg)) + (vf * vf + vg * vg)). assert (HB : 0 < B).
  { unfold B. pose proof (Rabs_pos (2 * (f * vf + g * vg))). pose proof (Rle_0_sqr vf). pose proof (Rle_0_sqr vg). unfold Rsqr in *. lra. }
  exists (Rmin 1 ((1 - (f * f + g * g)) / B)). split; [apply Rmin_pos; [lra|apply Rdiv_lt_0_compat; lra]|].
  intros s Hs. assert (H1 : Rabs s < 1) by (eapply Rlt_le_trans; [exact Hs|apply Rmin_l]).
  assert (H2 : Rabs s < (1 - (f * f + g * g)) / B) by (eapply Rlt_le_trans; [exact Hs|apply Rmin_r]).
  replace ((f + s * vf) * (f + s * vf) + (g + s * vg) * (g + s * vg)) with (f * f + g * g + (s * (2 * (f * vf + g * vg)) + s * s * (vf * vf + vg * vg))) by ring.
  assert (s * (2 * (f * vf + g * vg)) + s * s * (vf * vf + vg * vg) <= Rabs s * B).
  { replace (Rabs s * B) with (Rabs s + Rabs s * Rabs (2 * (f * vf + g * vg)) + Rabs s * (vf * vf + vg * vg)) by (unfold B; ring). pose proof (Rle_abs (s * (2 * (f * vf + g * vg)))) as A. rewrite Rabs_mult in A.
    assert (s * s <= Rabs s). { rewrite <- (Rabs_right (s * s)) by (apply Rle_ge, Rle_0_sqr). rewrite Rabs_mult. pose proof (Rabs_pos s). rewrite <- (Rmult_1_r (Rabs s)) at 3. apply Rmult_le_compat_l; lra. }
    pose proof (Rabs_pos s). assert (0 <= vf * vf + vg * vg) by (pose proof (Rle_0_sqr vf); pose proof (Rle_0_sqr vg); unfold Rsqr in *; lra).
    assert (s * s * (vf * vf + vg * vg) <= Rabs s * (vf * vf + vg * vg)) by (apply Rmult_le_compat_r; assumption). lra. }
  assert (Rabs s * B < 1 - (f * f + g * g)).
  { apply (Rmult_lt_compat_r B) in H2; [|exact HB]. unfold Rdiv in H2. rewrite Rmult_assoc, Rinv_l, Rmult_1_r in H2 by lra. exact H2. }
  lra.
Qed.

Definition kep_dom (v : vec5 RNum) : Prop := let 'mk5 a e _ _ _ := v in 0 < a /\ 0 < e < 1.
Definition mee_dom (v : vec5 RNum) : Prop := let 'mk5 a f g _ _ := v in 0 < a /\ f * f + g * g < 1 /\ f <> 0.
Lemma kep_rhs (pr : ode_params RNum) : 0 < op_mu pr -> forall t (z : vec6 RNum), kep_dom (slow z) ->
  exists k, eom_kep_gauss (N:=RNum) t z pr = Ok k /\ slow k = slow_rate (op_psi pr) (add (op_u pr) (op_ptrb pr)).
Proof.
  intros Hm t z D. destruct z as [a e i ra om ta], pr as [mu u P w]. cbn [slow kep_dom op_mu] in *.
  pose proof (eom_kep_val t mu a e i ra om ta u P w Hm (proj1 D) (proj2 D)) as E. cbv zeta in E. eexists. split; [exact E|].
  exact (kep_slow _ _ _ _ E).
Qed.
Lemma mee_rhs (pr : ode_params RNum) : 0 < op_mu pr -> forall t (z : vec6 RNum), mee_dom (slow z) ->
  exists k, eom_mee_with_a_gauss (N:=RNum) t z pr = Ok k /\ slow k = slow_rate (op_psi pr) (add (op_u pr) (op_ptrb pr)).
Proof.
  intros Hm t z D. destruct z as [a f g h k l], pr as [mu u P w]. cbn [slow mee_dom op_mu] in *. destruct D as (D1 & D2 & D3).
  pose proof (eom_mee_val t mu a f g h k l u P w Hm D1 D2 D3) as E. cbv zeta in E. eexists. split; [exact E|].
  exact (mee_slow _ _ _ _ E).
Qed.
Lemma kep_open y v : kep_dom (slow y) -> exists d, 0 < d /\ forall s, Rabs s < d -> kep_dom (euler5 s y v).
Proof.
  destruct y as [a e i ra om ta], v as [v0 v1 v2 v3 v4]. intros (H0 & H1 & H2).
  destruct (small_pos a v0 H0) as (d0 & P0 & D0). destruct (small_pos e v1 H1) as (d1 & P1 & D1).
  destruct (small_pos (1 - e) (- v1)) as (d2 & P2 & D2); [lra|].
  exists (Rmin d0 (Rmin d1 d2)). split; [repeat apply Rmin_pos; assumption|]. intros s Hs.
  assert (Rabs s < d0) by (eapply Rlt_le_trans; [exact Hs|apply Rmin_l]).
  assert (Hs' : Rabs s < Rmin d1 d2) by (eapply Rlt_le_trans; [exact Hs|apply Rmin_r]).
  assert (Rabs s < d1) by (eapply Rlt_le_trans; [exact Hs'|apply Rmin_l]). assert (Rabs s < d2) by (eapply Rlt_le_trans; [exact Hs'|apply Rmin_r]).
  specialize (D0 s ltac:(assumption)). specialize (D1 s ltac:(assumption)). specialize (D2 s ltac:(assumption)). cbn. repeat split; lra.
Qed.
Lemma mee_open y v : mee_dom (slow y) -> exists d, 0 < d /\ forall s, Rabs s < d -> mee_dom (euler5 s y v).
Proof.
  destruct y as [a f g h k l], v as [v0 v1 v2 v3 v4]. intros (H0 & H1 & H2).
  destruct (small_pos a v0 H0) as (d0 & P0 & D0). destruct (small_disc f g v1 v2 H1) as (d1 & P1 & D1).
  assert (X : exists d, 0 < d /\ forall s, Rabs s < d -> f + s * v1 <> 0).
  { destruct (Rdichotomy _ _ H2) as [N|N].
    - destruct (small_pos (- f) (- v1)) as (d & P & D); [lra|]. exists d. split; [exact P|]. intros s Hs. specialize (D s Hs). lra.
    - destruct (small_pos f v1 N) as (d & P & D). exists d. split; [exact P|]. intros s Hs. specialize (D s Hs). lra. }
  destruct X as (d2 & P2 & D2).
  exists (Rmin d0 (Rmin d1 d2)). split; [repeat apply Rmin_pos; assumption|]. intros s Hs.
  assert (Rabs s < d0) by (eapply Rlt_le_trans; [exact Hs|apply Rmin_l]).
  assert (Hs' : Rabs s < Rmin d1 d2) by (eapply Rlt_le_trans; [exact Hs|apply Rmin_r]).
  assert (Rabs s < d1) by (eapply Rlt_le_trans; [exact Hs'|apply Rmin_l]). assert (Rabs s < d2) by (eapply Rlt_le_trans; [exact Hs'|apply Rmin_r]).
  cbn. split; [apply D0; assumption|]. split; [apply D1; assumption|apply D2; assumption].
Qed.

(** the slow elements after a step of length [h], whatever the fast one *)
Definition after (y : vec6 RNum) (v : vec5 RNum) (fast : R -> R) (h : R) : vec6 RNum :=
  let 'mk5 a b c d e := euler5 h y v in elems a b c d e (fast h).
Lemma after_0 y v fast : fast 0 = v6_5 y -> after y v fast 0 = y.
Proof. intros E. destruct y, v. unfold after. cbn in *. unfold elems. rewrite E. f_equal; ring. Qed.
Lemma after_velocity y v fast : slow_velocity (after y v fast) 0 v.
Proof.
  destruct y as [a b c d e l], v as [v0 v1 v2 v3 v4]. unfold after. cbn [euler5 elems slow_velocity v6_0 v6_1 v6_2 v6_3 v6_4].
  assert (L : forall x w, derivable_pt_lim (fun t => x + t * w) 0 w).
  { intros x w. change (dlim (fun t => x + t * w) 0 w). eapply dval; [|apply (d_plus (fun _ => x) (fun t => t * w) 0 0 w); [apply d_const|]]; [ring|].
    eapply dval; [|apply (d_mult (fun t => t) (fun _ => w) 0 1 0); [apply d_id|apply d_const]]. ring. }
  repeat split; apply L.
Qed.

Lemma euler5_0 (y : vec6 RNum) w : euler5 0 y w = slow y.
Proof. destruct y, w. cbn. rewrite !Rmult_0_l, !Rplus_0_r. reflexivity. Qed.

Section Gen.
Variables (lyap : lyap_fn RNum) (rhs : R -> vec6 RNum -> ode_params RNum -> Res (vec6 RNum)) (dom : vec5 RNum -> Prop) (p : law_args).
Variables (oe : vec6 RNum) (u : vec3 RNum) (P : psi_t RNum) (qd : R).
Notation pr := (mkparams (N:=RNum) (g_mu p) u P null).
Notation v := (slow_rate P u).
Hypothesis Hrhs : rhs = eom_kep_gauss (N:=RNum) \/ rhs = eom_mee_with_a_gauss (N:=RNum).
Hypothesis Hok : forall t z, dom (slow z) -> exists k, rhs t z pr = Ok k /\ slow k = slow_rate P (add u null).
Hypothesis Hopen : exists d, 0 < d /\ forall s, Rabs s < d -> dom (euler5 s oe v).
Hypothesis Hfast : forall y y', slow y = slow y' -> Qof lyap p y = Qof lyap p y'.
Hypothesis Hd : forall path t0, path t0 = oe -> slow_velocity path t0 v -> derivable_pt_lim (fun t => Qof lyap p (path t)) t0 (- qd).

Lemma add_null (x : vec3 RNum) : add x null = x.
Proof. destruct x as [a b c]. unfold add, null, vec. cbn. f_equal; ring. Qed.

Lemma descent eps : 0 < eps -> exists h0, 0 < h0 /\ forall t h, Rabs h < h0 -> exists y, rk4 (N:=RNum) rhs t h oe pr = Ok y /\
  Rabs (Qof lyap p y - (Qof lyap p oe - h * qd)) <= eps * Rabs h.
Proof.
  intros He. destruct Hopen as (d0 & P0 & D0).
  assert (O0 : dom (slow oe)).
  { specialize (D0 0). rewrite Rabs_R0 in D0. specialize (D0 P0). rewrite euler5_0 in D0. exact D0. }
  assert (St : forall t h, Rabs h < d0 -> exists y, rk4 (N:=RNum) rhs t h oe pr = Ok y /\ slow y = euler5 h oe v).
  { intros t h Hh. rewrite add_null in Hok.
    destruct (rk4_ok rhs pr dom v t h oe Hok O0) as [y E].
    - apply D0. rewrite Rabs_mult, (Rabs_right (5 / 10)) by lra. pose proof (Rabs_pos h). lra.
    - apply D0. exact Hh.
    - exists y. split; [exact E|]. pose proof (C45_euler_lem rhs t h oe pr y Hrhs E) as X. cbn [op_psi op_u op_ptrb] in X. rewrite add_null in X. exact X. }
  (* the fast element does not matter *)
  set (path := after oe v (fun _ => v6_5 oe)).
  assert (PA : path 0 = oe) by (apply after_0; reflexivity).
  assert (Qs : forall y h, slow y = euler5 h oe v -> Qof lyap p y = Qof lyap p (path h)).
  { intros y h S. apply Hfast. rewrite S. unfold path, after. destruct (euler5 h oe v). reflexivity. }
  pose proof (Hd path 0 PA (after_velocity _ _ _)) as D. destruct (D eps He) as [[d1 P1] D1]. cbn [pos] in D1.
  exists (Rmin d0 d1). split; [apply Rmin_pos; assumption|]. intros t h Hh.
  assert (Hh0 : Rabs h < d0) by (eapply Rlt_le_trans; [exact Hh|apply Rmin_l]).
  assert (Hh1 : Rabs h < d1) by (eapply Rlt_le_trans; [exact Hh|apply Rmin_r]).
  destruct (St t h Hh0) as (y & E & S). exists y. split; [exact E|]. rewrite (Qs y h S).
  destruct (Req_EM_T h 0) as [->|Hn].
  - rewrite PA, Rmult_0_l, Rminus_0_r, Rminus_diag_eq, Rabs_R0, Rmult_0_r by reflexivity. lra.
  - specialize (D1 h Hn Hh1). cbv beta in D1. rewrite Rplus_0_l, PA in D1.
    replace (Qof lyap p (path h) - (Qof lyap p oe - h * qd)) with (((Qof lyap p (path h) - Qof lyap p oe) / h - - qd) * h) by (field; exact Hn).
    rewrite Rabs_mult. apply Rmult_le_compat_r; [apply Rabs_pos|lra].
Qed.

(** hence a short step in the direction of the thrust lowers Q *)
Lemma lowers : 0 < Rabs qd -> exists h0, 0 < h0 /\ forall t h, Rabs h < h0 -> 0 < h * qd -> exists y, rk4 (N:=RNum) rhs t h oe pr = Ok y /\ Qof lyap p y < Qof lyap p oe.
Proof.
  intros Hq. destruct (descent (Rabs qd / 2)) as (h0 & P0 & H); [lra|]. exists h0. split; [exact P0|]. intros t h Hh Hs.
  destruct (H t h Hh) as (y & E & B). exists y. split; [exact E|]. apply abs_between in B.
  assert (Rabs qd * Rabs h = h * qd) by (rewrite <- Rabs_mult, Rabs_right; lra). nra.
Qed.
End Gen.

Lemma Qof_fast psi q p y y' : occurs Voe5 q = false -> slow y = slow y' -> Qof (lyap_of (N:=RNum) psi q) p y = Qof (lyap_of (N:=RNum) psi q) p y'.
Proof.
  intros O S. rewrite !Qof_lyap. apply (eval_absent _ _ Voe5); [exact O|]. intros w Hw. destruct y, y'. cbn in S. injection S as -> -> -> -> ->.
  destruct w; try reflexivity. congruence.
Qed.

Lemma kep_descent_lem p oe out : sound p -> kep_state oe -> power_ok p oe -> kep_smooth p oe ->
  ask (lyap_keplerian (N:=RNum)) p oe = Ok out -> v3_0 (lo_u out) <> 0 \/ v3_1 (lo_u out) <> 0 ->
  exists alpha beta u P qv qdot,
    ask (lyapunov_control_angles (N:=RNum) lyap_keplerian) p oe = Ok (alpha, beta, u, P, qv, qdot) /\ qdot = g_f p * norm (lo_u out) /\
    (forall eps, 0 < eps -> exists h0, 0 < h0 /\ forall t h, Rabs h < h0 -> exists y,
      rk4 (N:=RNum) (eom_kep_gauss (N:=RNum)) t h oe (mkparams (N:=RNum) (g_mu p) (scale (g_f p) (direction alpha beta)) P null) = Ok y /\
      Rabs (Qof (lyap_keplerian (N:=RNum)) p y - (Qof (lyap_keplerian (N:=RNum)) p oe - h * qdot)) <= eps * Rabs h) /\
    (exists h0, 0 < h0 /\ forall t h, Rabs h < h0 -> 0 < h * g_f p -> exists y,
      rk4 (N:=RNum) (eom_kep_gauss (N:=RNum)) t h oe (mkparams (N:=RNum) (g_mu p) (scale (g_f p) (direction alpha beta)) P null) = Ok y /\
      Qof (lyap_keplerian (N:=RNum)) p y < Qof (lyap_keplerian (N:=RNum)) p oe).
Proof.
  intros Hs Hk Hp Hm HO HD. destruct (C37_kep_lem p oe out Hs Hk Hp Hm HO HD) as (al & be & u & P & qv & qd & EA & _ & EQ & D).
  exists al, be, u, P, qv, qd. split; [exact EA|]. split; [exact EQ|].
  assert (Hmu : 0 < g_mu p) by (unfold sound in Hs; destruct (g_w p); apply Hs).
  assert (Hf : g_f p <> 0) by (unfold sound in Hs; destruct (g_w p); apply Hs).
  assert (X1 : forall t (z : vec6 RNum), kep_dom (slow z) -> exists k, eom_kep_gauss (N:=RNum) t z (mkparams (N:=RNum) (g_mu p) (scale (g_f p) (direction al be)) P null) = Ok k /\
    slow k = slow_rate P (add (scale (g_f p) (direction al be)) null)) by (intros t z Z; apply (kep_rhs (mkparams (N:=RNum) (g_mu p) (scale (g_f p) (direction al be)) P null) Hmu t z Z)).
  assert (X2 : exists d, 0 < d /\ forall s, Rabs s < d -> kep_dom (euler5 s oe (slow_rate P (scale (g_f p) (direction al be))))).
  { apply kep_open. destruct oe. cbn in *. tauto. }
  assert (X3 : forall y y', slow y = slow y' -> Qof (lyap_keplerian (N:=RNum)) p y = Qof (lyap_keplerian (N:=RNum)) p y').
  { intros y y' S. apply Qof_fast; [reflexivity|exact S]. }
  pose proof (norm_pos (lo_u out) HD) as NP.
  split.
  - intros eps He. exact (descent _ _ kep_dom p oe _ P qd (or_introl eq_refl) X1 X2 X3 D eps He).
  - destruct (lowers _ _ kep_dom p oe _ P qd (or_introl eq_refl) X1 X2 X3 D) as (h0 & P0 & H).
    { rewrite EQ. apply Rabs_pos_lt. apply Rmult_integral_contrapositive_currified; [exact Hf|lra]. }
    exists h0. split; [exact P0|]. intros t h Hh Hg. apply H; [exact Hh|]. rewrite EQ, <- Rmult_assoc. apply Rmult_lt_0_compat; assumption.
Qed.

Lemma mee_descent_lem p oe out : sound p -> mee_state oe -> mee_smooth p oe -> v6_1 oe <> 0 ->
  ask (lyap_mee_with_a (N:=RNum)) p oe = Ok out -> v3_0 (lo_u out) <> 0 \/ v3_1 (lo_u out) <> 0 ->
  exists alpha beta u P qv qdot,
    ask (lyapunov_control_angles (N:=RNum) lyap_mee_with_a) p oe = Ok (alpha, beta, u, P, qv, qdot) /\ qdot = g_f p * norm (lo_u out) /\
    (forall eps, 0 < eps -> exists h0, 0 < h0 /\ forall t h, Rabs h < h0 -> exists y,
      rk4 (N:=RNum) (eom_mee_with_a_gauss (N:=RNum)) t h oe (mkparams (N:=RNum) (g_mu p) (scale (g_f p) (direction alpha beta)) P null) = Ok y /\
      Rabs (Qof (lyap_mee_with_a (N:=RNum)) p y - (Qof (lyap_mee_with_a (N:=RNum)) p oe - h * qdot)) <= eps * Rabs h) /\
    (exists h0, 0 < h0 /\ forall t h, Rabs h < h0 -> 0 < h * g_f p -> exists y,
      rk4 (N:=RNum) (eom_mee_with_a_gauss (N:=RNum)) t h oe (mkparams (N:=RNum) (g_mu p) (scale (g_f p) (direction alpha beta)) P null) = Ok y /\
      Qof (lyap_mee_with_a (N:=RNum)) p y < Qof (lyap_mee_with_a (N:=RNum)) p oe).
Proof.
  intros Hs Hk Hm H1 HO HD. destruct (C37_mee_lem p oe out Hs Hk Hm HO HD) as (al & be & u & P & qv & qd & EA & _ & EQ & D).
  exists al, be, u, P, qv, qd. split; [exact EA|]. split; [exact EQ|].
  assert (Hmu : 0 < g_mu p) by (unfold sound in Hs; destruct (g_w p); apply Hs).
  assert (Hf : g_f p <> 0) by (unfold sound in Hs; destruct (g_w p); apply Hs).
  assert (X1 : forall t (z : vec6 RNum), mee_dom (slow z) -> exists k, eom_mee_with_a_gauss (N:=RNum) t z (mkparams (N:=RNum) (g_mu p) (scale (g_f p) (direction al be)) P null) = Ok k /\
    slow k = slow_rate P (add (scale (g_f p) (direction al be)) null)) by (intros t z Z; apply (mee_rhs (mkparams (N:=RNum) (g_mu p) (scale (g_f p) (direction al be)) P null) Hmu t z Z)).
  assert (X2 : exists d, 0 < d /\ forall s, Rabs s < d -> mee_dom (euler5 s oe (slow_rate P (scale (g_f p) (direction al be))))).
  { apply mee_open. destruct oe. cbn in *. tauto. }
  assert (X3 : forall y y', slow y = slow y' -> Qof (lyap_mee_with_a (N:=RNum)) p y = Qof (lyap_mee_with_a (N:=RNum)) p y').
  { intros y y' S. apply Qof_fast; [reflexivity|exact S]. }
  pose proof (norm_pos (lo_u out) HD) as NP.
  split.
  - intros eps He. exact (descent _ _ mee_dom p oe _ P qd (or_intror eq_refl) X1 X2 X3 D eps He).
  - destruct (lowers _ _ mee_dom p oe _ P qd (or_intror eq_refl) X1 X2 X3 D) as (h0 & P0 & H).
    { rewrite EQ. apply Rabs_pos_lt. apply Rmult_integral_contrapositive_currified; [exact Hf|lra]. }
    exists h0. split; [exact P0|]. intros t h Hh Hg. apply H; [exact Hh|]. rewrite EQ, <- Rmult_assoc. apply Rmult_lt_0_compat; assumption.
Qed.

(** Equations of motion in (p,f,g,h,k,L), and concrete motions used by the examples. *)
From Coq Require Import Reals Lra Lia ZArith List Bool Nsatz.
From Verif Require Import RMath RLib DLib Num Base Elements Integrate Eom Lyapunov Symbolic SymKep SymMee RSpec GaussSpec LawSpec ElemProofs IntegProofs DiffProofs KepQ MeeQ LawProofs GaussProofs.
Import ListNotations.
Local Open Scope R_scope.

Lemma meep_motion_lem mu (oe : vec6 RNum) t u P ptrb : 0 < mu -> 0 < v6_0 oe -> v6_1 oe * v6_1 oe + v6_2 oe * v6_2 oe < 1 ->
  exists d, eom_mee_gauss (N:=RNum) t oe (mkparams (N:=RNum) mu u P ptrb) = Ok d /\
    forall path t0, path t0 = oe -> velocity6 path t0 d -> newton (mee_p_cart mu) mu (add u ptrb) path t0.
Proof.
  intros Hmu HP He. destruct oe as [p f g h k l]. cbn in p, f, g, h, k, l. cbn [v6_0 v6_1 v6_2] in HP, He.
  change (@mk6 RNum p f g h k l) with (elems p f g h k l) in *.
  rewrite eom_meep_val by assumption. eexists. split; [reflexivity|].
  intros path t0 Ep (D0 & D1 & D2 & D3 & D4 & D5). set (FF := add u ptrb) in *. clearbody FF. destruct FF as [Fr Ft Fn]. cbn in Fr, Ft, Fn.
  change (@mk3 RNum Fr Ft Fn) with (vec Fr Ft Fn). unfold elems in D0, D1, D2, D3, D4, D5. cbn [v6_0 v6_1 v6_2 v6_3 v6_4 v6_5 v3_0 v3_1 v3_2] in *.
  set (A := fun s => v6_0 (path s) : R). set (F := fun s => v6_1 (path s) : R). set (G := fun s => v6_2 (path s) : R).
  set (H := fun s => v6_3 (path s) : R). set (K := fun s => v6_4 (path s) : R). set (L := fun s => v6_5 (path s) : R).
  assert (EA : A t0 = p) by (unfold A; rewrite Ep; reflexivity). assert (EF : F t0 = f) by (unfold F; rewrite Ep; reflexivity).
  assert (EG : G t0 = g) by (unfold G; rewrite Ep; reflexivity). assert (EH : H t0 = h) by (unfold H; rewrite Ep; reflexivity).
  assert (EK : K t0 = k) by (unfold K; rewrite Ep; reflexivity). assert (EL : L t0 = l) by (unfold L; rewrite Ep; reflexivity).
  pose proof (mee_newton_lem mu A F G H K L t0 Fr Ft Fn 0) as M. rewrite EA, EF, EG, EH, EK, EL, Rplus_0_r in M.
  destruct (M Hmu HP He D0 D1 D2 D3 D4 D5 eq_refl) as [M1 M2].
  exists (fun s => rad (A s) (F s) (G s) (H s) (K s) (L s)), (fun s => vel mu (A s) (F s) (G s) (H s) (K s) (L s)).
  split; [|cbv beta; rewrite EA, EF, EG, EH, EK, EL; split; assumption].
  refine (near_imp _ _ _ _ (near_lt (fun s => F s * F s + G s * G s) t0 _ 1 (d_plus _ _ t0 _ _ (d_mult F F t0 _ _ D1 D1) (d_mult G G t0 _ _ D2 D2)) _)); [|cbv beta; rewrite EF, EG; exact He].
  intros s Hs. cbv beta in Hs.
  assert (X : A s = A s / (1 - F s * F s - G s * G s) * (1 - F s * F s - G s * G s)) by (field; lra).
  rewrite X. rewrite rad_mee by exact Hs. rewrite vel_mee. unfold mee_p_cart, mee_cart, A, F, G, H, K, L. destruct (path s). reflexivity.
Qed.

(** ** A body kept on a circle by a constant radial push *)
Definition p_circle : law_args := mklaw 1 1 (@mk5 RNum 2 0 0 0 0) 1 3 4 2 (1 / 100) 1 0 (@mk5 RNum 0 1 0 0 0).
Definition push : vec3 RNum := vec (- (9 / 8)) 0 0.
Definition circle (t : R) : vec6 RNum := elems (4 / 3) (1 / 2 * cos (9 / 4 * t)) (1 / 2 * sin (9 / 4 * t)) 0 0 (9 / 4 * t).
Lemma small_cos x : Rabs x <= 1 -> 0 < cos x.
Proof.
  intros H. assert (-1 <= x <= 1). { unfold Rabs in H. destruct (Rcase_abs x); lra. } pose proof PI2_1. apply cos_gt_0; lra.
Qed.
Lemma circle_one t : 4 / 3 * (1 - 1 / 2 * cos (9 / 4 * t) * (1 / 2 * cos (9 / 4 * t)) - 1 / 2 * sin (9 / 4 * t) * (1 / 2 * sin (9 / 4 * t))) = 1.
Proof. pose proof (sincos (9 / 4 * t)) as C. set (x := cos _) in *. set (y := sin _) in *. clearbody x y. nra. Qed.
Lemma circle_w t : 1 + 1 / 2 * cos (9 / 4 * t) * cos (9 / 4 * t) + 1 / 2 * sin (9 / 4 * t) * sin (9 / 4 * t) = 3 / 2.
Proof. pose proof (sincos (9 / 4 * t)) as C. set (x := cos _) in *. set (y := sin _) in *. clearbody x y. nra. Qed.
Lemma d_lin c t : dlim (fun s => c * s) t c.
Proof. eapply dval; [|exact (d_mult _ _ t _ _ (d_const c t) (d_id t))]. cbv beta. ring. Qed.
Lemma sqrt_one x : x = 1 -> sqrt x = 1.
Proof. intros ->. apply sqrt_1. Qed.
Lemma circle_solution t : Rabs t <= 2 / 5 ->
  exists out d, ask (lyap_mee_with_a (N:=RNum)) p_circle (circle t) = Ok out /\
    eom_mee_with_a_gauss (N:=RNum) t (circle t) (mkparams (N:=RNum) (g_mu p_circle) push (lo_psi out) null) = Ok d /\ velocity6 circle t d.
Proof.
  intros Ht. set (L := 9 / 4 * t). assert (HL : 0 < cos L).
  { apply small_cos. unfold L. rewrite Rabs_mult, Rabs_pos_eq by lra. lra. }
  pose proof (circle_one t) as P1. pose proof (circle_w t) as W1. fold L in P1, W1.
  assert (He : 1 / 2 * cos L * (1 / 2 * cos L) + 1 / 2 * sin L * (1 / 2 * sin L) < 1) by lra.
  assert (Nf : 1 / 2 * cos L <> 0) by lra.
  eexists. eexists. split; [unfold lyap_mee_with_a; apply ask_lyap|]. cbn [lo_psi]. unfold circle at 1 2. fold L.
  rewrite evalpsi_mee; [|cbn; lra|lra|exact He|exact Nf]. rewrite eom_mee_val; [|cbn; lra|lra|exact He|exact Nf].
  split; [reflexivity|]. rewrite W1.
  assert (Q : sqrt (4 / 3 * (1 - 1 / 2 * cos L * (1 / 2 * cos L) - 1 / 2 * sin L * (1 / 2 * sin L)) / g_mu p_circle) = 1)
    by (apply sqrt_one; rewrite P1; cbn; field).
  unfold mee_psi. cbv zeta. rewrite W1, Q, P1. replace (g_mu p_circle) with 1 by reflexivity. rewrite !Rmult_1_l, !sqrt_1.
  pose proof (d_lin (9 / 4) t) as DL.
  unfold add_rate, psi_dot, dot3, circle, velocity6, elems. cbn.
  split; [|split; [|split; [|split; [|split]]]].
  - eapply dval; [|exact (d_const (4 / 3) t)]. change (@eq (@car RNum)) with (@eq R). field.
  - eapply dval; [|exact (d_mult _ _ t _ _ (d_const (1 / 2) t) (d_cos _ t _ DL))]. cbv beta. fold L. change (@eq (@car RNum)) with (@eq R). field.
  - eapply dval; [|exact (d_mult _ _ t _ _ (d_const (1 / 2) t) (d_sin _ t _ DL))]. cbv beta. fold L. change (@eq (@car RNum)) with (@eq R). field.
  - eapply dval; [|exact (d_const 0 t)]. change (@eq (@car RNum)) with (@eq R). field.
  - eapply dval; [|exact (d_const 0 t)]. change (@eq (@car RNum)) with (@eq R). field.
  - eapply dval; [|exact DL]. change (@eq (@car RNum)) with (@eq R). field.
Qed.

(** One rk4 step with psi frozen at the start, as solve does it. *)
Lemma circle_rate t y out k : ask (lyap_mee_with_a (N:=RNum)) p_circle (circle 0) = Ok out ->
  eom_mee_with_a_gauss (N:=RNum) t y (mkparams (N:=RNum) (g_mu p_circle) push (lo_psi out) null) = Ok k ->
  slow k = @mk5 RNum 0 0 (9 / 8) 0 0.
Proof.
  intros HO HK. rewrite (mee_slow t y _ k HK). cbn [op_psi op_u op_ptrb]. unfold lyap_mee_with_a in HO. rewrite ask_lyap in HO. apply Ok_inj in HO. subst out. cbn [lo_psi].
  pose proof (circle_one 0) as P1. pose proof (circle_w 0) as W1. unfold circle.
  rewrite Rmult_0_r, cos_0, sin_0, ?Rmult_1_r, ?Rmult_0_r in *.
  rewrite evalpsi_mee; try lra; [|cbn; lra].
  unfold mee_psi. cbv zeta. rewrite cos_0, sin_0.
  replace (4 / 3 * (1 - 1 / 2 * (1 / 2) - 0 * 0)) with 1 by lra. replace (g_mu p_circle) with 1 by reflexivity.
  replace (1 / 1) with 1 by field. rewrite sqrt_1. unfold slow_rate, dot3, add, push, null, vec. cbn. f_equal; field.
Qed.
Lemma circle_stage t g l P : Rabs g <= 4 / 5 -> exists k,
  eom_mee_with_a_gauss (N:=RNum) t (elems (4 / 3) (1 / 2) g 0 0 l) (mkparams (N:=RNum) (g_mu p_circle) push P null) = Ok k.
Proof.
  intros Hg. assert (G : -(4 / 5) <= g <= 4 / 5) by (unfold Rabs in Hg; destruct (Rcase_abs g); lra).
  eexists. apply eom_mee_val; [cbn; lra|lra|nra|lra].
Qed.
Lemma stage_state h k t0 g0 l0 : slow k = @mk5 RNum 0 0 (9 / 8) 0 0 -> t0 = 0 ->
  exists l, v6add (N:=RNum) (elems (4 / 3) (1 / 2) g0 0 0 l0) (v6scal (N:=RNum) h k) = elems (4 / 3) (1 / 2) (g0 + h * (9 / 8)) 0 0 l.
Proof.
  intros H _. destruct k as [k0 k1 k2 k3 k4 k5]. cbn in H. injection H as -> -> -> -> ->. exists (l0 + h * k5).
  unfold v6add, v6scal, elems. cbn. f_equal; ring.
Qed.
Lemma circle_step out dt : ask (lyap_mee_with_a (N:=RNum)) p_circle (circle 0) = Ok out -> Rabs dt <= 2 / 5 ->
  exists y, rk4 (N:=RNum) (eom_mee_with_a_gauss (N:=RNum)) 0 dt (circle 0) (mkparams (N:=RNum) (g_mu p_circle) push (lo_psi out) null) = Ok y /\ v6_1 y = 1 / 2.
Proof.
  intros HO Hd. set (pr := mkparams _ _ _ _).
  assert (C0 : circle 0 = elems (4 / 3) (1 / 2) 0 0 0 0). { unfold circle. rewrite Rmult_0_r, cos_0, sin_0. unfold elems. f_equal; ring. }
  assert (G : forall c, Rabs c <= 1 -> Rabs (0 + dt * c * (9 / 8)) <= 4 / 5).
  { intros c Hc. rewrite Rplus_0_l, !Rabs_mult, (Rabs_pos_eq (9 / 8)) by lra. pose proof (Rabs_pos dt). pose proof (Rabs_pos c). nra. }
  assert (C5 : dec (N:=RNum) 5 1 = 5 / 10) by reflexivity.
  assert (H5 : Rabs (5 / 10) <= 1) by (rewrite Rabs_pos_eq; lra). assert (H1 : Rabs 1 <= 1) by (rewrite Rabs_pos_eq; lra).
  assert (K : exists y, rk4 (N:=RNum) (eom_mee_with_a_gauss (N:=RNum)) 0 dt (circle 0) pr = Ok y).
  { rewrite C0. unfold rk4. rewrite C5.
    destruct (circle_stage 0 0 0 (lo_psi out)) as [k1 E1]; [rewrite Rabs_R0; lra|]. fold pr in E1. rewrite E1. cbn [bind].
    destruct (stage_state (dt * (5 / 10)) k1 0 0 0 (circle_rate _ _ _ _ HO E1) eq_refl) as [l1 S1].
    change (nmul (Num:=RNum) dt (5 / 10)) with (dt * (5 / 10)). rewrite S1.
    match goal with |- context [eom_mee_with_a_gauss ?t _ _] => destruct (circle_stage t (0 + dt * (5 / 10) * (9 / 8)) l1 (lo_psi out)) as [k2 E2] end; [apply G, H5|].
    fold pr in E2. rewrite E2. cbn [bind].
    destruct (stage_state (dt * (5 / 10)) k2 0 0 0 (circle_rate _ _ _ _ HO E2) eq_refl) as [l2 S2]. rewrite S2.
    match goal with |- context [eom_mee_with_a_gauss ?t _ _] => destruct (circle_stage t (0 + dt * (5 / 10) * (9 / 8)) l2 (lo_psi out)) as [k3 E3] end; [apply G, H5|].
    fold pr in E3. rewrite E3. cbn [bind].
    destruct (stage_state (dt * 1) k3 0 0 0 (circle_rate _ _ _ _ HO E3) eq_refl) as [l3 S3]. rewrite Rmult_1_r in S3. rewrite S3.
    match goal with |- context [eom_mee_with_a_gauss ?t _ _] => destruct (circle_stage t (0 + dt * (9 / 8)) l3 (lo_psi out)) as [k4 E4] end.
    { rewrite <- (Rmult_1_r dt). apply G, H1. }
    fold pr in E4. rewrite E4. cbn [bind]. eexists. reflexivity. }
  destruct K as [y HY]. exists y. split; [exact HY|].
  pose proof (C45_euler_lem _ _ _ _ _ _ (or_intror eq_refl) HY) as S. cbn [op_psi op_u op_ptrb] in S.
  destruct (circle_stage 0 0 0 (lo_psi out)) as [k1 E1]; [rewrite Rabs_R0; lra|].
  pose proof (circle_rate _ _ _ _ HO E1) as R1. rewrite (mee_slow _ _ _ _ E1) in R1. cbn [op_psi op_u op_ptrb] in R1.
  unfold pr in S. cbn [op_psi op_u op_ptrb] in S. rewrite R1, C0 in S. destruct y as [y0 y1 y2 y3 y4 y5]. cbn in S. injection S as _ S _ _ _. cbn.
  change (@eq (@car RNum)) with (@eq R) in *. rewrite S. field.
Qed.
Lemma cos_gap x : Rabs x <= 1 -> 11 / 24 * (x * x) <= 1 - cos x.
Proof.
  intros H. assert (B : -1 <= x <= 1). { unfold Rabs in H. destruct (Rcase_abs x); lra. } pose proof PI2_1 as P.
  destruct (pre_cos_bound x 0) as [_ C]; [lra|lra|]. cbn in C. unfold cos_term, cos_approx in C. cbn in C.
  assert (x * x <= 1) by nra. nra.
Qed.
Lemma C45_refuted_lem : exists p u path,
  (forall t, Rabs t <= 2 / 5 -> exists out d, ask (lyap_mee_with_a (N:=RNum)) p (path t) = Ok out /\ eom_mee_with_a_gauss (N:=RNum) t (path t) (mkparams (N:=RNum) (g_mu p) u (lo_psi out) null) = Ok d /\ velocity6 path t d) /\ forall out dt, ask (lyap_mee_with_a (N:=RNum)) p (path 0) = Ok out -> Rabs dt <= 2 / 5 ->
    exists y, rk4 (N:=RNum) (eom_mee_with_a_gauss (N:=RNum)) 0 dt (path 0) (mkparams (N:=RNum) (g_mu p) u (lo_psi out) null) = Ok y /\ dt ^ 2 <= Rabs (v6_1 y - v6_1 (path dt)).
Proof.
  exists p_circle, push, circle. split; [exact circle_solution|]. intros out dt HO Hd.
  destruct (circle_step out dt HO Hd) as (y & HY & E). exists y. split; [exact HY|]. rewrite E.
  assert (B : Rabs (9 / 4 * dt) <= 1) by (rewrite Rabs_mult, Rabs_pos_eq by lra; lra).
  pose proof (cos_gap _ B) as C. unfold circle, elems. cbn [v6_1].
  change (nsub (Num:=RNum)) with Rminus. apply Rle_trans with (1 / 2 - 1 / 2 * cos (9 / 4 * dt)); [|apply Rle_abs]. nra.
Qed.

Lemma straight_0 oe d : straight oe d 0 = oe.
Proof. destruct oe, d. unfold straight, v6add, v6scal. cbn. f_equal; ring. Qed.
Lemma straight_velocity oe d t : velocity6 (straight oe d) t d.
Proof.
  destruct oe as [a b c e f g], d as [a' b' c' e' f' g']. cbn in *.
  assert (K : forall x y : R, dlim (fun s => x + s * y) t y).
  { intros x y. eapply dval; [|exact (d_plus _ _ t _ _ (d_const x t) (d_mult _ _ t _ _ (d_id t) (d_const y t)))]. cbv beta. ring. }
  unfold velocity6, straight, v6add, v6scal. cbn.
  split; [|split; [|split; [|split; [|split]]]]; apply K.
Qed.
Lemma mee_answers p oe : exists out, ask (lyap_mee_with_a (N:=RNum)) p oe = Ok out.
Proof. eexists. unfold lyap_mee_with_a. apply ask_lyap. Qed.
Lemma kep_answers p oe : exists out, ask (lyap_keplerian (N:=RNum)) p oe = Ok out.
Proof. eexists. unfold lyap_keplerian. apply ask_lyap. Qed.
(** f = -1/2, pushed towards the centre at L = pi/2 *)
Definition oe_left : vec6 RNum := elems 1 (- (1 / 2)) 0 0 0 (PI / 2).
Definition pull : vec3 RNum := vec 1 0 0.
Lemma left_lem : exists out d, ask (lyap_mee_with_a (N:=RNum)) p_circle oe_left = Ok out /\
  eom_mee_with_a_gauss (N:=RNum) 0 oe_left (mkparams (N:=RNum) (g_mu p_circle) pull (lo_psi out) null) = Ok d /\
  velocity6 (straight oe_left d) 0 d /\ ~ newton (mee_cart (g_mu p_circle)) (g_mu p_circle) (add pull null) (straight oe_left d) 0.
Proof.
  destruct (mee_answers p_circle oe_left) as [out HO]. exists out.
  destruct (mee_wrong_motion_lem p_circle out oe_left 0 pull null) as (d & E & K); [cbn; lra|cbn; lra|cbn; lra|exact HO| |].
  - rewrite sin_PI2, cos_PI2. unfold add, pull, null, vec. cbn. lra.
  - exists d. split; [exact HO|]. split; [exact E|]. split; [apply straight_velocity|].
    apply K; [apply straight_0|apply straight_velocity].
Qed.
Lemma C41_refuted_lem : exists p oe u out d path,
  sound p /\ mee_state oe /\ ask (lyap_mee_with_a (N:=RNum)) p oe = Ok out /\
  eom_mee_with_a_gauss (N:=RNum) 0 oe (mkparams (N:=RNum) (g_mu p) u (lo_psi out) null) = Ok d /\
  path 0 = oe /\ velocity6 path 0 d /\ ~ newton (mee_cart (g_mu p)) (g_mu p) (add u null) path 0.
Proof.
  destruct left_lem as (out & d & A & B & C & D). exists p_circle, oe_left, pull, out, d, (straight oe_left d).
  repeat match goal with |- _ /\ _ => split end; try assumption; [cbn; repeat split; lra..|apply straight_0].
Qed.
Lemma add_null : add null null = null.
Proof. unfold add, null, vec. cbn. f_equal; ring. Qed.
Lemma kep_free_lem p out oe t :
  0 < g_mu p -> kep_state oe -> ask (lyap_keplerian (N:=RNum)) p oe = Ok out ->
  exists d, eom_kep_gauss (N:=RNum) t oe (mkparams (N:=RNum) (g_mu p) null (lo_psi out) null) = Ok d /\
    forall path t0, path t0 = oe -> velocity6 path t0 d ->
      newton (fun x => kep2sv (N:=RNum) x (g_mu p)) (g_mu p) null path t0.
Proof. intros H1 H2 H3. pose proof (kep_motion_lem p out oe t null null H1 H2 H3) as K. rewrite add_null in K. exact K. Qed.
Lemma C42_refuted_lem : exists oe, mee_state oe /\
  forall t mu P, eom_mee_with_a_gauss (N:=RNum) t oe (mkparams (N:=RNum) mu null P null) = Err ZeroDivisionError.
Proof. exists (elems 1 0 (1 / 2) 0 0 0). split; [cbn; lra|]. intros. apply eom_mee_f0. Qed.

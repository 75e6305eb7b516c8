(** Coasting with the real equations: a coast from a proper ellipse always succeeds, and a run whose
    law is nan throughout coasts until it gives up (C22, C82). *)
From Coq Require Import Reals Lra Lia ZArith List Bool.
From Verif Require Import RMath RLib Num Base Elements Integrate Eom Convergence Lyapunov Symbolic SymKep SymMee Perturb Qlaw
  Spec XSpec ElemProofs NanProofs EllSpec NanSpec Trace GateProofs CoastProofs XLaw.
Import ListNotations.
Local Open Scope R_scope.

Lemma xjdiv x y : y <> 0 -> jdiv (N:=XNum) (Fin x) (Fin y) = Ok (Fin (x / y)).
Proof. intros H. unfold jdiv. cbn. rewrite (proj2 (Reqb_false y 0) H). reflexivity. Qed.
Lemma xsqrt_fin x : 0 <= x -> xsqrt (Fin x) = Fin (sqrt x).
Proof. intros H. cbn. rewrite (proj2 (Rltb_false x 0)) by lra. reflexivity. Qed.

Lemma xle_no x y : y < x -> nleb (Num:=XNum) (Fin x) (Fin y) = false.
Proof. intros H. cbn. unfold xleb. cbn. rewrite (proj2 (Rltb_false _ _)) by lra. apply Reqb_false. lra. Qed.
Lemma xlt_no x y : y <= x -> nltb (Num:=XNum) (Fin x) (Fin y) = false.
Proof. intros H. cbn. apply Rltb_false. lra. Qed.

(** the derivative while coasting: only the anomaly moves *)
Definition drift (x : R) : vec6 XNum := @mk6 XNum (Fin 0) (Fin 0) (Fin 0) (Fin 0) (Fin 0) (Fin x).
Lemma coast_rate psi a b c rate : finite_psi psi ->
  add_rate (psi_dot (N:=XNum) psi (mk3 (N:=XNum) (Fin a) (Fin b) (Fin c)) (v3add v3zero v3zero)) (Fin rate) = drift rate.
Proof.
  intros (a0&a1&a2&a3&a4&b0&b1&b2&b3&b4&c0&c1&c2&c3&c4&->). unfold add_rate, psi_dot. rewrite !dot0. cbn. unfold drift.
  rewrite Rplus_0_r, Rplus_0_l. reflexivity.
Qed.
Lemma eom_coast et mu psi t z : 0 < mu -> finite_psi psi -> proper_ellipse et z ->
  exists rate, eom_of (N:=XNum) et t z (mkparams (N:=XNum) (Fin mu) v3zero psi v3zero) = Ok (drift rate).
Proof.
  intros Hmu Hp (a & b & c & d & e & l & -> & Ha & H). destruct et; destruct H as [H1 H2]; cbn [eom_of].
  - assert (A : 0 < a * mu * (1 - b * b)) by (apply kv_arg; assumption).
    pose proof (sqrt_lt_R0 _ A) as Hh. pose proof (kv_w mu b l Hmu H1) as Hw.
    unfold eom_kep_gauss. cbn [op_mu op_u op_psi op_ptrb]. unfold sq. xnum. cbn [xmul xsub xadd xlift].
    rewrite xsqrt_fin by lra. cbn [xmul xsub xadd xlift xopp]. set (h := sqrt _) in *.
    rewrite xjdiv by lra. cbn [bind xmul xadd xopp].
    assert (B : b * h <> 0) by (apply Rmult_integral_contrapositive_currified; lra).
    rewrite !xjdiv by exact B. cbn [bind]. rewrite xjdiv.
    + cbn [bind]. eexists. f_equal. apply coast_rate. exact Hp.
    + apply Rmult_integral_contrapositive_currified; apply Rmult_integral_contrapositive_currified;
        first [apply Rmult_integral_contrapositive_currified; lra|apply Rinv_neq_0_compat; lra].
  - pose proof (mv_am_arg mu a b c Hmu Ha H1) as A. pose proof (mv_e b c H1) as He. pose proof (mv_e2 b c) as He2.
    pose proof (sqrt_lt_R0 _ A) as Hh.
    assert (W : 1 + b * cos l + c * sin l <> 0) by (exact (mv_w mu a b c d e l H1)).
    unfold eom_mee_with_a_gauss. cbn [op_mu op_u op_psi op_ptrb]. unfold sq. xnum. cbn [xmul xsub xadd xlift].
    rewrite xsqrt_fin by nra. cbn [xmul xsub xadd xlift]. rewrite xsqrt_fin by lra. rewrite xjdiv by exact H2. cbn [bind xatan xmul xsub xadd xlift].
    assert (P : 0 < a * (1 - sqrt (b * b + c * c) * sqrt (b * b + c * c))) by (apply Rmult_lt_0_compat; [exact Ha|rewrite He2; lra]).
    rewrite xjdiv by (apply Rgt_not_eq, Rmult_lt_0_compat; [exact Hmu|apply ecos_pos; exact He]). cbn [bind].
    rewrite xjdiv by lra. cbn [bind]. rewrite xsqrt_fin by (apply Rlt_le, Rdiv_lt_0_compat; assumption).
    rewrite xjdiv by exact W. cbn [bind]. rewrite xjdiv by lra. cbn [bind].
    rewrite xsqrt_fin by (apply Rlt_le, Rmult_lt_0_compat; assumption). cbn [xmul xsub].
    eexists. f_equal. apply coast_rate. exact Hp.
Qed.

Lemma drift_scal c x : v6scal (N:=XNum) (Fin c) (drift x) = drift (c * x).
Proof. unfold drift. cbn. rewrite Rmult_0_r. reflexivity. Qed.
Lemma drift_add x y : v6add (drift x) (drift y) = drift (x + y).
Proof. unfold drift. cbn. rewrite Rplus_0_r. reflexivity. Qed.
Lemma proper_drift et z x : proper_ellipse et z -> proper_ellipse et (v6add z (drift x)) /\ slow (v6add z (drift x)) = slow z.
Proof.
  intros (a & b & c & d & e & l & -> & Ha & H). unfold drift. cbn. rewrite !Rplus_0_r. split; [|reflexivity].
  exists a, b, c, d, e, (l + x). auto.
Qed.
Lemma rk4_coast et mu psi t h z : 0 < mu -> finite_psi psi -> proper_ellipse et z ->
  exists z', rk4 (N:=XNum) (eom_of (N:=XNum) et) t (Fin h) z (mkparams (N:=XNum) (Fin mu) v3zero psi v3zero) = Ok z' /\
    proper_ellipse et z' /\ slow z' = slow z.
Proof.
  intros Hmu Hp E. unfold rk4. rewrite !xdec. xnum. cbn [xmul xadd].
  destruct (eom_coast et mu psi t z Hmu Hp E) as (r1 & ->). cbn [bind]. rewrite drift_scal.
  match goal with |- context [eom_of et ?s (v6add z (drift ?x))] =>
    destruct (eom_coast et mu psi s _ Hmu Hp (proj1 (proper_drift et z x E))) as (r2 & ->) end. cbn [bind]. rewrite drift_scal.
  match goal with |- context [eom_of et ?s (v6add z (drift ?x))] =>
    destruct (eom_coast et mu psi s _ Hmu Hp (proj1 (proper_drift et z x E))) as (r3 & ->) end. cbn [bind]. rewrite drift_scal.
  match goal with |- context [eom_of et ?s (v6add z (drift ?x))] =>
    destruct (eom_coast et mu psi s _ Hmu Hp (proj1 (proper_drift et z x E))) as (r4 & ->) end. cbn [bind].
  change (xdiv (Fin h) (Fin 6)) with (if Reqb 6 0 then xinf (xsgn (Fin h)) else Fin (h / 6)).
  rewrite (proj2 (Reqb_false 6 0)) by lra. rewrite !drift_scal, !drift_add, drift_scal.
  eexists. split; [reflexivity|]. apply proper_drift. exact E.
Qed.

(** ** A non-integer n_petro below the target: the gradient is nan *)
Lemma kep_soe_nan env (a aT m n : R) :
  env Voe0 = Fin a -> env VT0 = Fin aT -> env Vm = Fin m -> env Vn = Fin n ->
  0 < aT -> 0 < m -> a < aT -> (forall k, n <> IZR k) -> eval (N:=XNum) env SymKep.soe0 = NaN.
Proof.
  intros E1 E2 E3 E4 HT Hm Ha Hn.
  unfold SymKep.soe0. cbn [eval]. unfold SymKep.a, SymKep.aT, Em, En, EInt. cbn [eval]. rewrite E1, E2, E3, E4. xnum.
  cbn [xsub xmul]. assert (M : 0 < m * aT) by (apply Rmult_lt_0_compat; assumption).
  assert (D : xdiv (Fin (a - aT)) (Fin (m * aT)) = Fin ((a - aT) / (m * aT))).
  { cbn. destruct (Reqb_spec (m * aT) 0); [lra|reflexivity]. }
  rewrite D, xpow_neg by (try exact Hn; unfold Rdiv; assert (0 < / (m * aT)) by (apply Rinv_0_lt_compat, M); nra).
  nans. reflexivity.
Qed.
(** a nan factor of a product is a nan in the derivative of the product (used only for the derivative
    with respect to the semimajor axis, on which both factors of Q depend, so that sympy keeps both terms) *)
Lemma diff_mul_nan env x f s : eval (N:=XNum) env s = NaN -> eval (N:=XNum) env (diff x (EMul f s)) = NaN.
Proof. intros S. cbn [diff eval]. rewrite S. xnum. nans. reflexivity. Qed.
Lemma kep_dq_nan env : eval (N:=XNum) env SymKep.soe0 = NaN -> eval (N:=XNum) env (diff Voe0 SymKep.q) = NaN.
Proof. intros S. apply diff_mul_nan. cbn [eval]. rewrite S. xnum. nans. reflexivity. Qed.
Lemma kep_u_nan env : eval (N:=XNum) env SymKep.soe0 = NaN -> v3_0 (eval3 (N:=XNum) env (usym SymKep.psi SymKep.q)) = NaN.
Proof.
  intros S. cbn [usym map SymKep.psi eval3 v3_0]. pose proof (kep_dq_nan env S) as D.
  unfold dqdoe, oe_vars. cbn [map]. revert D.
  generalize (diff Voe0 SymKep.q) (diff Voe1 SymKep.q) (diff Voe2 SymKep.q) (diff Voe3 SymKep.q) (diff Voe4 SymKep.q). intros d0 d1 d2 d3 d4 D.
  cbn [edot5 eval]. rewrite D. xnum. nans. reflexivity.
Qed.
Lemma kep_call_nan (o : qlaw XNum) (p : problem XNum) acc (oe : vec6 XNum) a aT m n T1 T2 T3 T4 : q_lyap o = lyap_of_etype (N:=XNum) Keplerian ->
  v6_0 oe = Fin a -> p_oeT p = [Fin aT; T1; T2; T3; T4] -> q_m o = Fin m -> q_n o = Fin n ->
  0 < aT -> 0 < m -> a < aT -> (forall k, n <> IZR k) ->
  exists out, q_lyap o (q_mu o) acc oe (p_oeT p) (q_rpmin o) (q_m o) (q_n o) (q_r o) (q_b o) (q_k o) (q_wp o) (p_woe p) = Ok out /\ singular_in_plane (lo_u out).
Proof.
  intros L Ea HT Em En H1 H2 H3 H4. rewrite L, HT. cbn [lyap_of_etype]. unfold lyap_keplerian, lyap_of. cbn [list_to_vec5].
  set (env := mkenv _ _ _ _ _ _ _ _ _ _ _ _). eexists. split; [reflexivity|]. cbn [lo_u].
  assert (S : eval (N:=XNum) env SymKep.soe0 = NaN) by (apply (kep_soe_nan env a aT m n); auto).
  pose proof (kep_u_nan env S) as U. destruct (eval3 (N:=XNum) env (usym SymKep.psi SymKep.q)) as [x y z]. cbn in U |- *. subst. auto.
Qed.

(** ** The whole run *)
Section NanRun.
Variables (et : etype) (o : qlaw XNum) (p : problem XNum) (ea er : eta_arg XNum) (a : params) (mu : R).
Hypothesis Fp : finite_problem p a.
Hypothesis Sm : q_sundman o = false.
Hypothesis B : built et o.
Hypothesis Ig : q_integ o = RK4.
Hypothesis Pt : q_ptrb o = None.
Hypothesis Mu : q_mu o = Fin mu.
Hypothesis Mupos : 0 < mu.
Hypothesis E0 : proper_ellipse et (p_oe0 p).
Hypothesis G0 : guarded o (p_oe0 p) = p_oe0 p.
Hypothesis Nan : nan_along o p (p_oe0 p).
Hypothesis Unmet : unmet_along o p (p_oe0 p).
Let N := Z.to_nat (q_nan_thr o).
Hypothesis Thr : (0 <= q_nan_thr o)%Z.
Hypothesis Ts : 0 < a_ts a.
Hypothesis Tf : INR N * a_ts a < Rabs (a_tf a).
Hypothesis On : INR N * a_ts a <= a_on a.
Hypothesis Dis : 0 <= a_dis a.
Hypothesis Bat : a_lo a + 1 / 10 ^ 12 < a_b0 a - a_dis a * a_ts a * INR (S N).
Hypothesis Hi : a_b0 a <= a_hi a.
Hypothesis Ma : a_mmin a < a_mass0 a.

Definition nan_times (j : nat) : list ereal := map (fun k => Fin (INR k * a_ts a)) (seq 0 (S j)).
Definition nan_batt (j : nat) : list ereal := map (fun k => Fin (a_b0 a - a_dis a * a_ts a * INR k)) (seq 0 (S j)).
Record at_step (j : nat) (s : lstate XNum) : Prop := {
  as_t : l_t s = Fin (INR j * a_ts a);
  as_oe : proper_ellipse et (l_oe s) /\ slow (l_oe s) = slow (p_oe0 p);
  as_mass : l_mass s = Fin (a_mass0 a);
  as_batt : l_batt s = Fin (a_b0 a - a_dis a * a_ts a * INR j);
  as_nrel : l_nrel s = 0%Z;
  as_nnan : l_nnan s = Z.of_nat j;
  as_duty : l_duty s = true;
  as_ton : l_ton s = Fin 0;
  as_toff : l_toff s = Fin 0;
  as_chg : l_chg s = false;
  as_times : h_times (l_hist s) = nan_times j;
  as_masses : h_masses (l_hist s) = repeat (Fin (a_mass0 a)) (S j);
  as_battery : h_battery (l_hist s) = nan_batt j;
  as_controls : h_controls (l_hist s) = repeat (Fin 0, Fin 0, 0%Z) j;
  as_states : length (h_states (l_hist s)) = S j /\ Forall (fun z => slow z = slow (p_oe0 p) /\ proper_ellipse et z) (h_states (l_hist s)) }.

Lemma safe_slow z : slow z = slow (p_oe0 p) -> guarded o z = z.
Proof.
  intros S. clear - G0 S. unfold guarded in *. destruct (q_etype o); [|reflexivity].
  destruct (p_oe0 p) as [x0 x1 x2 x3 x4 x5], z as [y0 y1 y2 y3 y4 y5], (q_oe_min o) as [l0 l1 l2 l3 l4], (q_oe_max o) as [h0 h1 h2 h3 h4].
  cbn in S. injection S as -> -> -> -> ->. cbn [elements_safety] in G0 |- *. injection G0 as -> -> -> -> ->. reflexivity.
Qed.
Lemma safe_at j s : at_step j s -> at_step j (safety o s) /\ l_oe (safety o s) = l_oe s.
Proof.
  intros [H1 [H2 H2'] H3 H4 H5 H6 H7 H8 H9 H10 H11 H12 H13 H14 [H15 H16]].
  pose proof (safe_slow _ H2') as G. unfold guarded in G. clear - G H1 H2 H2' H3 H4 H5 H6 H7 H8 H9 H10 H11 H12 H13 H14 H15 H16.
  unfold safety. destruct (q_etype o); [|split; [constructor; auto|reflexivity]]. rewrite G. split; [|reflexivity].
  constructor; cbn [l_t l_oe l_mass l_batt l_nrel l_nnan l_duty l_ton l_toff l_chg l_hist h_times h_masses h_battery h_controls h_states]; auto.
  unfold replace_last. split.
  - destruct (h_states (l_hist s)) as [|x l] eqn:E; [discriminate|]. rewrite <- E in *.
    assert (X : h_states (l_hist s) <> []) by (rewrite E; discriminate). rewrite (app_removelast_last (l_oe s) X), app_length in H15.
    rewrite app_length. exact H15.
  - apply Forall_app. split; [|constructor; [exact (conj H2' H2)|constructor]].
    rewrite Forall_forall in *. intros x I. apply H16. clear - I. induction (h_states (l_hist s)) as [|y l IH]; [exact I|].
    destruct l as [|y' l']; [destruct I|]. cbn [removelast] in I. destruct I as [->|I]; [left; reflexivity|right; exact (IH I)].
Qed.
Lemma guard_at j s : (j <= N)%nat -> at_step j s -> guard p s = true.
Proof.
  intros J [H1 _ _ _ _ _ _ _ _ _ H11 _ _ _ _]. unfold guard. rewrite H11. unfold nan_times. rewrite seq_S, map_app. cbn [map].
  rewrite last_last. destruct Fp as (_ & _ & -> & _). cbn. apply Rltb_true.
  rewrite Rabs_pos_eq; [|apply Rmult_le_pos; [apply pos_INR|lra]].
  apply le_INR in J. apply Rle_lt_trans with (INR N * a_ts a); [apply Rmult_le_compat_r; lra|exact Tf].
Qed.
Lemma plan_at j s : (j <= N)%nat -> at_step j s -> plan o p s = Ok (mkplan (N:=XNum) (Fin (a_ts a)) true (Fin 0) (Fin 0) false).
Proof.
  intros J [H1 _ _ H4 _ _ H7 H8 H9 H10 _ _ _ _ _]. destruct Fp as (_ & _ & _ & F4 & _ & F6 & F7 & F8 & F9 & F10 & F11 & F12 & F13).
  apply le_INR in J. assert (S2 : INR (S N) = INR N + 1) by apply S_INR.
  assert (K : a_dis a * a_ts a * INR j <= a_dis a * a_ts a * INR N) by (apply Rmult_le_compat_l; [apply Rmult_le_pos; lra|exact J]).
  assert (D0 : 0 <= a_dis a * a_ts a) by (apply Rmult_le_pos; lra).
  rewrite S2, Rmult_plus_distr_l, Rmult_1_r in Bat.
  unfold plan, local_step. rewrite Sm, F4. cbn [bind]. rewrite H1, H4, H7, H8, H9, H10. unfold duty_phase. rewrite F6.
  change (nsub (Num:=XNum) (Fin (INR j * a_ts a)) (Fin 0)) with (Fin (INR j * a_ts a - 0)). rewrite Rminus_0_r.
  change (nltb (Num:=XNum) (Fin (a_on a)) (Fin (INR j * a_ts a))) with (Rltb (a_on a) (INR j * a_ts a)).
  assert (J' : INR j * a_ts a <= INR N * a_ts a) by (apply Rmult_le_compat_r; lra).
  rewrite (proj2 (Rltb_false _ _)) by lra. cbn [andb negb]. rewrite andb_false_r.
  unfold battery_phase. rewrite F9, F12, xdec. change (10 ^ Z.of_nat 12)%Z with 1000000000000%Z.
  assert (P12 : 1 / 10 ^ 12 = 1 / 1000000000000) by (cbn [pow]; lra). rewrite P12 in Bat.
  xnum. cbn [xadd xsub xmul]. rewrite xle_no by lra. rewrite xlt_no by lra. cbn [andb]. unfold recharge_phase. rewrite andb_false_r. reflexivity.
Qed.
Lemma control_at j s pl acc : at_step j s -> pl_duty pl = true ->
  if Z.ltb (q_nan_thr o) (Z.of_nat j + 1) then control o p ea er s pl acc = Ok NanBreak
  else exists c, control o p ea er s pl acc = Ok (Ctl c) /\ c_ab c = Some (Fin 0, Fin 0) /\ c_thr c = 0%Z /\ c_u c = v3zero /\
    c_nnan c = (Z.of_nat j + 1)%Z /\ finite_psi (c_psi c).
Proof.
  intros [H1 [H2 H2'] H3 H4 H5 H6 H7 H8 H9 H10 H11 H12 H13 H14 _] D.
  destruct (Nan acc (l_oe s) H2') as (al & be & u & psi & q & qd & F & An). change (lyap_call o p acc (l_oe s) = Ok (al, be, u, psi, q, qd)) in F.
  unfold control. rewrite D, F. cbn [bind].
  assert (X : (nisnan (Num:=XNum) al || nisnan (Num:=XNum) be)%bool = true) by (destruct An as [-> | ->]; [reflexivity|apply orb_true_r]). rewrite X, H6.
  destruct (Z.ltb (q_nan_thr o) (Z.of_nat j + 1)); [reflexivity|].
  eexists. split; [reflexivity|]. cbn [c_ab c_thr c_u c_nnan c_psi]. repeat (split; [reflexivity|]).
  exact (ellipse_psi et o p mu acc (l_oe s) _ _ _ _ _ _ B Mu Mupos H2 F).
Qed.
Lemma step_at j s : (j <= N)%nat -> at_step j s ->
  if Z.ltb (q_nan_thr o) (Z.of_nat j + 1) then exists s', step o p ea er s = Stop (-3) false s' /\ at_step j s'
  else exists s', step o p ea er s = Next s' /\ at_step (S j) s'.
Proof.
  intros J S. destruct (safe_at j s S) as [S' Eoe]. unfold step. rewrite (plan_at j _ J S').
  set (sf := safety o s) in *. cbn [pl_dt].
  pose proof (control_at j sf (mkplan (N:=XNum) (Fin (a_ts a)) true (Fin 0) (Fin 0) false) (accel_thrust p (Fin (a_ts a)) (l_mass sf)) S' eq_refl) as C.
  destruct (Z.ltb (q_nan_thr o) (Z.of_nat j + 1)); [rewrite C; eauto|].
  destruct C as (c & -> & Cab & Cth & Cu & Cn & Cpsi). unfold perturbation. rewrite Pt.
  destruct S' as [H1 [H2 H2'] H3 H4 H5 H6 H7 H8 H9 H10 H11 H12 H13 H14 [H15 H16]].
  unfold propagate. rewrite Ig, Cu, Mu. assert (Eo : q_eom o = eom_of (N:=XNum) et) by (destruct et; apply B). rewrite Eo.
  destruct (rk4_coast et mu (c_psi c) (l_t sf) (a_ts a) (l_oe sf) Mupos Cpsi H2) as (z' & R & Z1 & Z2).
  cbn [pl_dt pl_duty pl_chg]. rewrite R. cbn [bind]. rewrite Cth. cbn [Z.eqb].
  destruct Fp as (F1 & F2 & F3 & F4 & F5 & F6 & F7 & F8 & F9 & F10 & F11 & F12 & F13).
  apply le_INR in J. assert (S2 : INR (Datatypes.S N) = INR N + 1) by apply S_INR. pose proof (S_INR j) as S3.
  assert (K : a_dis a * a_ts a * INR j <= a_dis a * a_ts a * INR N) by (apply Rmult_le_compat_l; [apply Rmult_le_pos; lra|exact J]).
  assert (D0 : 0 <= a_dis a * a_ts a) by (apply Rmult_le_pos; lra).
  assert (D1 : 0 <= a_dis a * a_ts a * INR j) by (apply Rmult_le_pos; [exact D0|apply pos_INR]).
  assert (P12 : 0 < 1 / 10 ^ 12) by (cbn [pow]; lra).
  rewrite S2, Rmult_plus_distr_l, Rmult_1_r in Bat.
  assert (BU : battery_update p (l_batt sf) (Fin (a_ts a)) true false = (Fin (a_b0 a - a_dis a * a_ts a * INR (Datatypes.S j)), false)).
  { unfold battery_update. rewrite H4, F9, F10, F12. f_equal. unfold npclip.
    xnum. cbn [xsub xmul].
    replace (a_b0 a - a_dis a * a_ts a * INR j - a_dis a * a_ts a) with (a_b0 a - a_dis a * a_ts a * INR (Datatypes.S j)) by (rewrite S3; ring).
    assert (X : a_lo a <= a_b0 a - a_dis a * a_ts a * INR (Datatypes.S j)) by (rewrite S3, Rmult_plus_distr_l, Rmult_1_r; lra).
    assert (Y : a_b0 a - a_dis a * a_ts a * INR (Datatypes.S j) <= a_hi a) by (rewrite S3, Rmult_plus_distr_l, Rmult_1_r; lra).
    rewrite xlt_no by exact X. rewrite xlt_no by exact Y. reflexivity. }
  rewrite BU, Cab.
  set (s1 := mkls _ _ _ _ _ _ _ _ _ _ _ _).
  assert (T : nadd (Num:=XNum) (l_t sf) (Fin (a_ts a)) = Fin (INR (Datatypes.S j) * a_ts a)) by (rewrite H1, S3; cbn; f_equal; ring).
  unfold exit_check. change (l_oe s1) with z'. change (l_nrel s1) with (l_nrel sf). change (l_mass s1) with (l_mass sf).
  destruct (Unmet z' ltac:(congruence)) as [U1 U2]. rewrite U1, U2.
  cbn [andb]. unfold with_nrel at 1. cbn [l_mass].
  change (l_mass s1) with (l_mass sf). rewrite H3, F5. rewrite xle_no by exact Ma.
  eexists. split; [reflexivity|].
  constructor; unfold with_nrel, s1; cbn [l_t l_oe l_mass l_batt l_nrel l_nnan l_duty l_ton l_toff l_chg l_hist push6 push3 h_times h_masses h_battery h_controls h_states pl_duty pl_ton pl_toff].
  - exact T.
  - split; [exact Z1|congruence].
  - exact H3.
  - reflexivity.
  - exact H5.
  - rewrite Cn. lia.
  - reflexivity.
  - reflexivity.
  - reflexivity.
  - reflexivity.
  - rewrite H11, T. unfold nan_times. rewrite (seq_S (Datatypes.S j)), map_app. reflexivity.
  - rewrite H12, H3. rewrite <- repeat_cons. reflexivity.
  - rewrite H13. unfold nan_batt. rewrite (seq_S (Datatypes.S j)), map_app. reflexivity.
  - rewrite H14, Cth. rewrite <- repeat_cons. reflexivity.
  - split; [rewrite app_length, H15; cbn; lia|]. apply Forall_app. split; [exact H16|]. constructor; [split; [congruence|exact Z1]|constructor].
Qed.

Lemma start_at : at_step 0 (init_state p).
Proof.
  destruct Fp as (F1 & F2 & F3 & F4 & F5 & F6 & F7 & F8 & F9 & F10 & F11 & F12 & F13).
  constructor; unfold init_state; cbn [l_t l_oe l_mass l_batt l_nrel l_nnan l_duty l_ton l_toff l_chg l_hist h_times h_masses h_battery h_controls h_states]; auto.
  - cbn. rewrite Rmult_0_l. reflexivity.
  - rewrite F8. cbn. rewrite Rmult_0_r, Rminus_0_r. reflexivity.
  - unfold nan_times. cbn. rewrite Rmult_0_l. reflexivity.
  - rewrite F1. reflexivity.
  - rewrite F8. unfold nan_batt. cbn. rewrite Rmult_0_r, Rminus_0_r. reflexivity.
Qed.
Lemma loop_at i : forall j s fuel, (i + j = N)%nat -> at_step j s -> (i < fuel)%nat ->
  exists s', loop fuel o p ea er s = LStop (-3) false s' /\ at_step N s'.
Proof.
  induction i as [|i IH]; intros j s fuel E S L; (destruct fuel as [|fuel]; [lia|]); cbn [loop]; rewrite (guard_at j s) by (lia || exact S);
    pose proof (step_at j s ltac:(lia) S) as K.
  - cbn in E. subst j. unfold N in K at 1. rewrite Z2Nat.id in K by exact Thr. rewrite (proj2 (Z.ltb_lt _ _)) in K by lia.
    destruct K as (s' & -> & S'). eauto.
  - rewrite (proj2 (Z.ltb_ge _ _)) in K.
    + destruct K as (s' & -> & S'). apply (IH (Datatypes.S j)); [lia|exact S'|lia].
    + unfold N in E. lia.
Qed.
Lemma nan_run fuel : q_problem o = Some p -> ea <> EtaOther -> (N < fuel)%nat ->
  exists o' h, ran fuel o ea er p o' h /\ q_exitcode o' = (-3)%Z /\ q_converge o' = q_converge o /\
    h_times h = nan_times N /\ h_masses h = repeat (Fin (a_mass0 a)) (S N) /\ h_battery h = nan_batt N /\
    h_controls h = repeat (Fin 0, Fin 0, 0%Z) N /\
    length (h_states h) = S N /\ Forall (fun z => slow z = slow (p_oe0 p) /\ proper_ellipse et z) (h_states h).
Proof.
  intros P Ea L. destruct (loop_at N 0 (init_state p) fuel ltac:(lia) start_at L) as (s' & R & S).
  destruct S as [H1 [H2 H2'] H3 H4 H5 H6 H7 H8 H9 H10 H11 H12 H13 H14 [H15 H16]].
  unfold ran, solve. rewrite P.
  destruct ea as [v|f|]; try congruence; rewrite R; (eexists _, (l_hist s'); split; [split; [reflexivity|split; [reflexivity|reflexivity]]|]);
    (split; [cbn; rewrite andb_false_r; reflexivity|]); (split; [reflexivity|]); repeat (split; [assumption|]); assumption.
Qed.
End NanRun.

(** An object with the default bounds and a law exponent of 5/2, starting below the target. *)
Definition p_low : problem XNum :=
  @mkproblem XNum (@mk6 XNum (Fin 1) (Fin (1 / 2)) (Fin 1) (Fin 1) (Fin 1) (Fin 0)) [Fin 2; Fin (1 / 2); Fin 1; Fin 1; Fin 1] (Fin 1) (Fin 1) (Fin 1) (Fin 100) (Fin (1 / 10)) (Fin (1 / 10))
    (@mk5 XNum (Fin 1) (Fin 1) (Fin 1) (Fin 1) (Fin 1)) (Fin 100) (Fin 0) (Fin 1) (Fin 0) (Fin 1) (Fin 0) (Fin 0) false.
Definition o_low : qlaw XNum :=
  @mkqlaw XNum (Fin 1) (Fin 1) (Fin 1) (Fin 3) (Fin (5 / 2)) (Fin 2) (Fin (1 / 100)) (Fin 1) Keplerian RK4 100
    (@mk5 XNum (Fin (1 / 1000)) (Fin (1 / 1000)) (Fin (1 / 1000)) (Fin (1 / 1000)) (Fin (1 / 1000))) (@mk5 XNum (Fin (1 / 100)) (Fin (1 / 100)) (Fin (1 / 100)) (Fin (1 / 100)) (Fin (1 / 100))) 200%Z
    (default_oe_min (N:=XNum) Keplerian) (default_oe_max (N:=XNum) Keplerian) 10%Z
    (eom_of (N:=XNum) Keplerian) (lyap_of_etype (N:=XNum) Keplerian) (dqdt_of_etype (N:=XNum) Keplerian) (check_of (N:=XNum) Keplerian)
    (dec (N:=XNum) 1 4) (Fin 2) (dec (N:=XNum) 1 5) false None (Some p_low) None false 0%Z.
Definition a_low : params := mkpar 1 1 100 (1 / 10) (1 / 10) 100 0 1 0 1 0 0 false.

Lemma C82_nan_lem et (o : qlaw XNum) p ea er a : let n := Z.to_nat (q_nan_thr o) in
  plain et o -> proper_ellipse et (p_oe0 p) -> guarded o (p_oe0 p) = p_oe0 p -> nan_along o p (p_oe0 p) -> unmet_along o p (p_oe0 p) ->
  finite_problem p a -> room_for n a -> q_problem o = Some p -> ea <> EtaOther ->
  forall fuel, (n < fuel)%nat -> exists o' h, ran fuel o ea er p o' h /\ gives_up et n a p o o' h.
Proof.
  intros n (B & Ig & Pt & Sm & Th & mu & M1 & M2) E G Na Un F (R1 & R2 & R3 & R4 & R5 & R6 & R7) P Ea fuel L.
  destruct (nan_run et o p ea er a mu F Sm B Ig Pt M1 M2 E G Na Un Th R1 R2 R3 R4 R5 R6 R7 fuel P Ea L) as (o' & h & H1 & H2 & H3 & H4 & H5 & H6 & H7 & H8 & H9).
  exists o', h. split; [exact H1|]. split; [exact H2|]. split; [exact H3|]. fold n in H4, H5, H6, H7, H8. split; [exact H7|]. split; [exact H8|]. intros k K. rewrite H4, H5, H6.
  assert (Sq : nth_error (seq 0 (S n)) k = Some k).
  { rewrite (nth_error_nth' _ 0%nat) by (rewrite seq_length; lia). rewrite seq_nth by lia. reflexivity. }
  split; [exact (map_nth_error _ k _ Sq)|]. split.
  { apply nth_error_repeat. lia. }
  split; [exact (map_nth_error _ k _ Sq)|].
  destruct (nth_error (h_states h) k) as [z|] eqn:Z; [|apply nth_error_None in Z; lia].
  exists z. split; [reflexivity|]. rewrite Forall_forall in H9. apply H9. eapply nth_error_In. exact Z.
Qed.
(** the first test that fails decides *)
Lemma check_off w d t : (exists w' d' t', w = Fin w' /\ w' <> 0 /\ d = Fin d' /\ t = Fin t' /\ t' < d') -> check_entry (N:=XNum) w d t = 0%nat.
Proof.
  intros (w' & d' & t' & -> & W & -> & -> & L). unfold check_entry.
  change (neqb (Num:=XNum) (Fin w') (nofZ (Num:=XNum) 0)) with (Reqb w' 0). rewrite (proj2 (Reqb_false w' 0)) by exact W. rewrite xle_no by exact L. reflexivity.
Qed.
Lemma check_le w d t : (check_entry (N:=XNum) w d t <= 1)%nat.
Proof. unfold check_entry. destruct (neqb _ _); [lia|]. destruct (nleb _ _); lia. Qed.
Lemma nan_lyap (o : qlaw XNum) p acc z out :
  q_lyap o (q_mu o) acc z (p_oeT p) (q_rpmin o) (q_m o) (q_n o) (q_r o) (q_b o) (q_k o) (q_wp o) (p_woe p) = Ok out -> singular_in_plane (lo_u out) ->
  exists al be v psi q qd, lyapunov_control_angles (N:=XNum) (q_lyap o) (q_mu o) acc z (p_oeT p) (q_rpmin o) (q_m o) (q_n o) (q_r o) (q_b o) (q_k o) (q_wp o) (p_woe p)
      = Ok (al, be, v, psi, q, qd) /\ (al = NaN \/ be = NaN).
Proof.
  intros C S. destruct (sing_angles _ S) as (u & b & E & ->). unfold lyapunov_control_angles. rewrite C. cbn [bind]. rewrite E. cbn [bind]. destruct (lo_psi out).
  do 6 eexists. split; [reflexivity|left; reflexivity].
Qed.
Lemma below_nan (o : qlaw XNum) p : fractional_law o -> below_target o p -> plain Keplerian o /\ nan_along o p (p_oe0 p) /\ unmet_along o p (p_oe0 p).
Proof.
  intros (B & Ig & Pt & Sm & Th & mu & m & x & M1 & M2 & M3 & M4 & M5 & M6)
    (E & G & a0 & aT & w & t1 & t2 & T1 & T2 & T3 & T4 & w1 & w2 & w3 & w4 & L1 & L2 & L3 & L4 & L5 & L6 & L7 & L8 & L9 & L10).
  assert (A0 : forall z, slow z = slow (p_oe0 p) -> v6_0 z = Fin a0).
  { intros z S. destruct z, (p_oe0 p). cbn in *. injection S as -> _ _ _ _. exact L1. }
  assert (Ck : forall z (tol : vec5 XNum) t, slow z = slow (p_oe0 p) -> v5_0 tol = Fin t -> t < aT - a0 -> q_check o z (p_oeT p) (p_woe p) tol = Ok false).
  { intros z tol t S Ht Lt. pose proof (A0 z S) as Z0. destruct B as (_ & _ & _ & _ & ->). unfold check_convergence_keplerian. rewrite L2, L3.
    destruct z as [y0 y1 y2 y3 y4 y5], tol as [u0 u1 u2 u3 u4]. cbn in Z0, Ht. subst y0 u0. f_equal. cbn [check_all].
    change (nabs (Num:=XNum) (nsub (Num:=XNum) (Fin aT) (Fin a0))) with (Fin (Rabs (aT - a0))). rewrite Rabs_pos_eq by lra.
    rewrite (check_off (Fin w) (Fin (aT - a0)) (Fin t)) by (do 3 eexists; repeat split; try exact L4; lra).
    apply Nat.eqb_neq.
    match goal with |- (0 + ?c1 + ?c2 + ?c3 + ?c4 <> 5)%nat => pose proof (check_le _ _ _ : c1 <= 1)%nat; pose proof (check_le _ _ _ : c2 <= 1)%nat;
      pose proof (check_le _ _ _ : c3 <= 1)%nat; pose proof (check_le _ _ _ : c4 <= 1)%nat end. lia. }
  split; [|split].
  - unfold plain. repeat (split; [assumption|]). exists mu. auto.
  - intros acc z S. destruct (kep_call_nan o p acc z a0 aT m x T1 T2 T3 T4) as (out & C & Sg); auto; [apply B|]. exact (nan_lyap o p acc z out C Sg).
  - intros z S. split; [exact (Ck z _ t1 S L7 L9)|exact (Ck z _ t2 S L8 L10)].
Qed.
Lemma C82_lem (o : qlaw XNum) p ea er a : let n := Z.to_nat (q_nan_thr o) in
  fractional_law o -> below_target o p -> finite_problem p a -> room_for n a -> q_problem o = Some p -> ea <> EtaOther ->
  forall fuel, (n < fuel)%nat -> exists o' h, ran fuel o ea er p o' h /\ q_exitcode o' = (-3)%Z /\ q_converge o' = q_converge o /\
    h_controls h = repeat (Fin 0, Fin 0, 0%Z) n /\ length (h_states h) = S n /\
    forall k, (k <= n)%nat -> entry (h_times h) k (INR k * a_ts a) /\ entry (h_masses h) k (a_mass0 a) /\
      entry (h_battery h) k (a_b0 a - a_dis a * a_ts a * INR k) /\
      exists z, nth_error (h_states h) k = Some z /\ slow z = slow (p_oe0 p) /\ proper_ellipse Keplerian z.
Proof.
  intros n H1 H2 F R P Ea fuel L. destruct (below_nan o p H1 H2) as (A1 & A2 & A3). destruct H2 as (B1 & B2 & _).
  exact (C82_nan_lem Keplerian o p ea er a A1 B1 B2 A2 A3 F R P Ea fuel L).
Qed.

Lemma C22_rk4_lem et (o : qlaw XNum) p ea er a mu : regular o p a -> built et o -> q_ptrb o = None -> q_integ o = RK4 -> q_mu o = Fin mu -> 0 < mu ->
  forall fuel o' h k z, ran fuel o ea er p o' h -> throttle h k 0 ->
  nth_error (h_states h) k = Some z -> proper_ellipse et z ->
  exists z', nth_error (h_states h) (S k) = Some z' /\ slow z' = slow z /\ proper_ellipse et z'.
Proof.
  intros Hreg B Hpt Ig M Hmu fuel o' h k z R T Hz E.
  destruct (C22_ellipse_lem et o p ea er a mu Hreg B Hpt M Hmu fuel o' h k z R T Hz E) as (z' & Z1 & Z2).
  exists z'. split; [exact Z1|]. split; [exact Z2|].
  destruct (coast_row o p ea er a Hreg fuel o' h k z R T Hz) as (s & g & dt & z2 & Hit & Hs & Tg & D & Z3 & Z4).
  rewrite Z3 in Z1. injection Z1 as ->.
  assert (A : exists l, v6_5 (g_oe g) = Fin l).
  { destruct Hit as [_ _ Hc Hpt' Hpr _ _]. destruct (ctl_coast _ _ _ _ _ _ _ _ Hc Tg) as (U & al & be & u & q & qd & L).
    unfold perturbation in Hpt'. rewrite Hpt in Hpt'. injection Hpt' as Hpt'.
    rewrite Hs in L. pose proof (ellipse_psi et o p mu _ z _ _ _ _ _ _ B M Hmu E L) as Fp.
    unfold propagate in Hpr. rewrite U, <- Hpt', D, Ig, M, Hs in Hpr. destruct B as (_ & B2 & _). change (q_eom o = eom_of et) in B2. rewrite B2 in Hpr.
    destruct (rk4_coast et mu (c_psi (g_c g)) (l_t (g_s g)) dt z Hmu Fp E) as (y & Ry & (y0 & y1 & y2 & y3 & y4 & y5 & -> & _) & _).
    rewrite Ry in Hpr. cbn [bind] in Hpr. injection Hpr as Ho _ _ _. exists y5. rewrite <- Ho. reflexivity. }
  destruct A as (l & A). assert (A' : v6_5 z' = Fin l).
  { destruct Z4 as [->| ->]; [exact A|]. unfold guarded. destruct (q_etype o); [|exact A].
    destruct (g_oe g), (q_oe_min o), (q_oe_max o). exact A. }
  clear - E Z2 A'. destruct E as (b & c & d & e & f & y & -> & H). destruct z' as [x0 x1 x2 x3 x4 x5]. cbn in Z2, A'. injection Z2 as -> -> -> -> ->. subst x5.
  exists b, c, d, e, f, l. auto.
Qed.

(** ** The example meets every hypothesis *)
Lemma low_guarded : guarded o_low (p_oe0 p_low) = p_oe0 p_low.
Proof.
  unfold guarded. cbn [o_low q_etype q_oe_min q_oe_max]. cbn [p_low p_oe0]. unfold default_oe_min, default_oe_max, elements_safety. rewrite !xdec.
  pose proof PI2_1 as P. cbn [npi ninf nofZ XNum].
  change (10 ^ Z.of_nat 2)%Z with 100%Z. change (10 ^ Z.of_nat 4)%Z with 10000%Z.
  assert (K : forall lo x hi, lo < x -> x <= hi -> clamp1 (N:=XNum) (Fin lo) (Fin x) (Fin hi) = Fin x).
  { intros lo x hi H1 H2. unfold clamp1, pymin, pymax. cbn [nltb XNum xltb]. rewrite (proj2 (Rltb_true lo x) H1).
    cbn [nltb XNum xltb]. rewrite (proj2 (Rltb_false hi x)) by lra. reflexivity. }
  assert (K' : forall lo x, lo < x -> clamp1 (N:=XNum) (Fin lo) (Fin x) PInf = Fin x).
  { intros lo x H1. unfold clamp1, pymin, pymax. cbn [nltb XNum xltb]. rewrite (proj2 (Rltb_true lo x) H1). reflexivity. }
  rewrite !K by lra. rewrite !K' by lra. reflexivity.
Qed.
Lemma not_half k : 5 / 2 <> IZR k.
Proof. intros H. assert (E : IZR (2 * k) = IZR 5) by (rewrite mult_IZR; lra). apply eq_IZR in E. lia. Qed.
Lemma low_ellipse : proper_ellipse Keplerian (p_oe0 p_low).
Proof.
  exists 1, (1 / 2), 1, 1, 1, 0. split; [reflexivity|]. pose proof PI2_1 as P. split; [lra|]. split; [lra|].
  apply Rgt_not_eq. apply sin_gt_0; lra.
Qed.
Lemma C82_case : fractional_law o_low /\ below_target o_low p_low /\ finite_problem p_low a_low /\ room_for (Z.to_nat (q_nan_thr o_low)) a_low /\
  q_problem o_low = Some p_low.
Proof.
  split.
  { split; [repeat split|]. repeat (split; [reflexivity|]). split; [discriminate|].
    exists 1, 3, (5 / 2). repeat (split; [first [reflexivity|lra]|]). exact not_half. }
  split.
  { split; [exact low_ellipse|]. split; [exact low_guarded|].
    exists 1, 2, 1, (1 / 1000), (1 / 100). do 8 eexists. repeat (split; [first [reflexivity|lra]|]). lra. }
  split; [repeat split|]. split; [|reflexivity].
  unfold room_for. change (Z.to_nat (q_nan_thr o_low)) with 10%nat. replace (INR 11) with 11 by (cbn; ring). replace (INR 10) with 10 by (cbn; ring).
  cbn [a_low a_ts a_tf a_on a_dis a_lo a_b0 a_hi a_mmin a_mass0]. rewrite Rabs_pos_eq by lra. cbn [pow]. repeat split; lra.
Qed.
Lemma low_regular : regular o_low p_low a_low.
Proof.
  split; [apply C82_case|]. split; [reflexivity|]. exists (1 / 10000), 2. cbn [o_low q_step_min q_step_max].
  split; [apply xdec|]. split; [reflexivity|]. lra.
Qed.
Lemma C22_case : exists o' h z, regular o_low p_low a_low /\ built Keplerian o_low /\ q_ptrb o_low = None /\ q_mu o_low = Fin 1 /\
  ran 11 o_low (EtaFloat (N:=XNum) (Fin 0)) (EtaFloat (N:=XNum) (Fin 0)) p_low o' h /\ throttle h 0 0 /\
  nth_error (h_states h) 0 = Some z /\ proper_ellipse Keplerian z.
Proof.
  destruct C82_case as (C1 & C2 & C3 & C4 & C5).
  assert (Ea : EtaFloat (N:=XNum) (Fin 0) <> EtaOther) by discriminate.
  destruct (C82_lem o_low p_low (EtaFloat (N:=XNum) (Fin 0)) (EtaFloat (N:=XNum) (Fin 0)) a_low C1 C2 C3 C4 C5 Ea 11)
    as (o' & h & H1 & _ & _ & H4 & H5 & H6); [cbn; lia|].
  destruct (H6 0%nat) as (_ & _ & _ & z & Z1 & _ & Z2); [lia|].
  exists o', h, z. split; [exact low_regular|]. split; [repeat split|]. split; [reflexivity|]. split; [reflexivity|].
  split; [exact H1|]. split; [unfold throttle; rewrite H4; reflexivity|]. auto.
Qed.
Lemma C82_nan_case : plain Keplerian o_low /\ proper_ellipse Keplerian (p_oe0 p_low) /\ guarded o_low (p_oe0 p_low) = p_oe0 p_low /\
  nan_along o_low p_low (p_oe0 p_low) /\ unmet_along o_low p_low (p_oe0 p_low).
Proof.
  destruct C82_case as (F & B & _). destruct (below_nan _ _ F B) as (A1 & A2 & A3). pose proof B as (B1 & B2 & _). auto.
Qed.

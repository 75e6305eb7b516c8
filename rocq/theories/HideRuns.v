(** C100, the run behind the refutation: the node starts on its target and on its lower bound, and the user's perturbation
    answers nan. *)
From Coq Require Import Reals Lra Lia ZArith List Bool.
From Verif Require Import RMath RLib Num Base Elements Integrate Eom Convergence Lyapunov Symbolic SymKep SymMee Perturb Qlaw Spec XSpec LawSpec EffSpec FinSpec RunSpec ElemProofs NanProofs EllSpec NanSpec
  SingProofs Trace GateProofs CoastProofs XLaw NanRun ZeroRuns CutProofs EffProofs EffRuns FinProofs FinRuns PlaneSpec HideProofs.
Import ListNotations.
Local Open Scope R_scope.

Definition T_hide : list ereal := [Fin 1; Fin 0; Fin 1; Fin (1 / 10000); Fin 1].
Definition z_hide : vec6 XNum := @mk6 XNum (Fin 1) (Fin (1 / 2)) (Fin 1) (Fin (1 / 10000)) (Fin 1) (Fin 0).
Definition p_hide : problem XNum :=
  @mkproblem XNum z_hide T_hide (Fin 1) (Fin 1) (Fin 1) (Fin 100) (Fin (1 / 10)) (Fin (1 / 10))
    (@mk5 XNum (Fin 0) (Fin 1) (Fin 0) (Fin 0) (Fin 0)) (Fin 100) (Fin 0) (Fin 1) (Fin 0) (Fin 1) (Fin 0) (Fin 0) false.
Definition nan_pull : ptrb_fn (N:=XNum) := fun _ _ _ => Ok (@mk3 XNum NaN NaN NaN).
Definition o_hide : qlaw XNum :=
  @mkqlaw XNum (Fin 1) (Fin 1) (Fin 1) (Fin 3) (Fin 4) (Fin 2) (Fin (1 / 100)) (Fin 0) Keplerian RK4 100
    (@mk5 XNum (Fin (1 / 1000)) (Fin (1 / 1000)) (Fin (1 / 1000)) (Fin (1 / 1000)) (Fin (1 / 1000))) (@mk5 XNum (Fin (1 / 100)) (Fin (1 / 100)) (Fin (1 / 100)) (Fin (1 / 100)) (Fin (1 / 100))) 200%Z
    (default_oe_min (N:=XNum) Keplerian) (default_oe_max (N:=XNum) Keplerian) 1%Z
    (eom_of (N:=XNum) Keplerian) (lyap_of_etype (N:=XNum) Keplerian) (dqdt_of_etype (N:=XNum) Keplerian) (check_of (N:=XNum) Keplerian)
    (dec (N:=XNum) 1 4) (Fin 2) (dec (N:=XNum) 1 5) false (Some nan_pull) (Some p_hide) None false 0%Z.

Lemma pull_rate psi r5 u rate : add_rate (psi_dot (N:=XNum) psi r5 (v3add u (@mk3 XNum NaN NaN NaN))) rate = all_nan.
Proof.
  destruct psi as [[a0 a1 a2 a3 a4] [b0 b1 b2 b3 b4] [c0 c1 c2 c3 c4]], r5 as [x y z], u as [p q r].
  unfold add_rate, psi_dot, v3add, dot3, v6add, all_nan. xnum. nans. reflexivity.
Qed.
Lemma nan_jdiv_r x : jdiv (N:=XNum) x NaN = Ok NaN.
Proof. unfold jdiv. cbn. rewrite nan_div_r. reflexivity. Qed.
Lemma nan_eom mu psi u t : eom_of (N:=XNum) Keplerian t all_nan (mkparams (N:=XNum) (Fin mu) u psi (@mk3 XNum NaN NaN NaN)) = Ok all_nan.
Proof.
  cbn [eom_of]. unfold eom_kep_gauss, all_nan. cbn [op_mu op_u op_psi op_ptrb]. unfold sq. xnum. cbn [xlift xsqrt]. nans. cbn [xsqrt xlift]. nans.
  rewrite !nan_jdiv_r. cbn [bind]. nans. rewrite !nan_jdiv_r. cbn [bind]. f_equal. apply pull_rate.
Qed.
Lemma hit_eom mu psi u t z : 0 < mu -> proper_ellipse Keplerian z -> eom_of (N:=XNum) Keplerian t z (mkparams (N:=XNum) (Fin mu) u psi (@mk3 XNum NaN NaN NaN)) = Ok all_nan.
Proof.
  intros Hmu (a & b & c & d & e & l & -> & Ha & H1 & H2). cbn [eom_of].
  assert (A : 0 < a * mu * (1 - b * b)) by (apply kv_arg; assumption).
  pose proof (sqrt_lt_R0 _ A) as Hh. pose proof (kv_w mu b l Hmu H1) as Hw.
  unfold eom_kep_gauss. cbn [op_mu op_u op_psi op_ptrb]. unfold sq. xnum. cbn [xmul xsub xadd xlift].
  rewrite xsqrt_fin by lra. cbn [xmul xsub xadd xlift xopp]. set (h := sqrt _) in *.
  rewrite xjdiv by lra. cbn [bind xmul xadd xopp].
  assert (B : b * h <> 0) by (apply Rmult_integral_contrapositive_currified; lra).
  rewrite !xjdiv by exact B. cbn [bind]. rewrite xjdiv.
  - cbn [bind]. f_equal. apply pull_rate.
  - apply Rmult_integral_contrapositive_currified; apply Rmult_integral_contrapositive_currified;
      first [apply Rmult_integral_contrapositive_currified; lra|apply Rinv_neq_0_compat; lra].
Qed.
Lemma nan_v6 (y : vec6 XNum) : v6add y all_nan = all_nan.
Proof. destruct y. unfold v6add, all_nan. xnum. nans. reflexivity. Qed.
Lemma nan_v6s x : v6scal (N:=XNum) x all_nan = all_nan.
Proof. unfold v6scal, all_nan. xnum. nans. reflexivity. Qed.
Lemma hit_rk4 mu psi u t h z : 0 < mu -> proper_ellipse Keplerian z ->
  rk4 (N:=XNum) (eom_of (N:=XNum) Keplerian) t h z (mkparams (N:=XNum) (Fin mu) u psi (@mk3 XNum NaN NaN NaN)) = Ok all_nan.
Proof.
  intros Hmu E. unfold rk4. rewrite (hit_eom mu psi u t z Hmu E). cbn [bind]. rewrite nan_v6s, nan_v6, nan_eom. cbn [bind].
  rewrite nan_v6s, nan_v6, nan_eom. cbn [bind]. rewrite nan_v6s, nan_v6, nan_eom. cbn [bind]. rewrite !nan_v6, nan_v6s, nan_v6. reflexivity.
Qed.

Lemma hide_call acc (z : vec6 XNum) : v6_3 z = Fin (1 / 10000) -> exists al be u psi q qd, lyap_call o_hide p_hide acc z = Ok (al, be, u, psi, q, qd) /\ (al = NaN \/ be = NaN).
Proof.
  intros H. destruct (kink_call o_hide p_hide acc z (1 / 10000) (Fin 1) (Fin 0) (Fin 1) (Fin (1 / 10000)) (Fin 1)) as (out & C & Sg); auto.
  exact (nan_lyap o_hide p_hide acc z out C Sg).
Qed.
Lemma hide_control ea er (s : lstate XNum) pl acc : v6_3 (l_oe s) = Fin (1 / 10000) -> pl_duty pl = true ->
  if Z.ltb 1 (l_nnan s + 1) then control o_hide p_hide ea er s pl acc = Ok NanBreak
  else exists c, control o_hide p_hide ea er s pl acc = Ok (Ctl c) /\ c_ab c = Some (Fin 0, Fin 0) /\ c_thr c = 0%Z /\ c_u c = v3zero /\ c_nnan c = (l_nnan s + 1)%Z.
Proof.
  intros H D. destruct (hide_call acc (l_oe s) H) as (al & be & u & psi & q & qd & F & An).
  unfold control. rewrite D, F. cbn [bind].
  assert (X : (nisnan (Num:=XNum) al || nisnan (Num:=XNum) be)%bool = true) by (destruct An as [-> | ->]; [reflexivity|apply orb_true_r]). rewrite X.
  change (q_nan_thr o_hide) with 1%Z.
  destruct (Z.ltb 1 (l_nnan s + 1)); [reflexivity|]. eexists. split; [reflexivity|]. repeat split.
Qed.

Lemma hide_plan (s : lstate XNum) (t : R) : l_t s = Fin t -> 0 <= t <= 1 -> l_batt s = Fin 1 -> l_duty s = true -> l_ton s = Fin 0 -> l_toff s = Fin 0 -> l_chg s = false ->
  plan o_hide p_hide s = Ok (mkplan (N:=XNum) (Fin (1 / 10)) true (Fin 0) (Fin 0) false).
Proof.
  intros H1 H2 H4 H7 H8 H9 H10. unfold plan, local_step. change (q_sundman o_hide) with false. cbn [bind]. rewrite H1, H4, H7, H8, H9, H10.
  unfold duty_phase. change (p_duty_on p_hide) with (Fin 100). change (nsub (Num:=XNum) (Fin t) (Fin 0)) with (Fin (t - 0)).
  rewrite xlt_no by lra. cbn [andb negb]. rewrite andb_false_r. unfold battery_phase.
  change (p_cap_lo p_hide) with (Fin 0). change (p_discharge p_hide) with (Fin 0). change (p_t_step p_hide) with (Fin (1 / 10)). rewrite xdec. change (10 ^ Z.of_nat 12)%Z with 1000000000000%Z.
  xnum. cbn [xadd xsub xmul]. rewrite xle_no by lra. rewrite xlt_no by lra. reflexivity.
Qed.

Lemma clamp_lo lo : clamp1 (N:=XNum) (Fin lo) (Fin lo) PInf = Fin lo.
Proof. unfold clamp1, pymin, pymax. cbn [nltb XNum xltb]. rewrite (proj2 (Rltb_false lo lo)) by lra. reflexivity. Qed.
Lemma clamp_in lo x hi : lo < x -> x <= hi -> clamp1 (N:=XNum) (Fin lo) (Fin x) (Fin hi) = Fin x.
Proof.
  intros H1 H2. unfold clamp1, pymin, pymax. cbn [nltb XNum xltb]. rewrite (proj2 (Rltb_true lo x) H1).
  cbn [nltb XNum xltb]. rewrite (proj2 (Rltb_false hi x)) by lra. reflexivity.
Qed.
Lemma clamp_up lo x : lo < x -> clamp1 (N:=XNum) (Fin lo) (Fin x) PInf = Fin x.
Proof. intros H1. unfold clamp1, pymin, pymax. cbn [nltb XNum xltb]. rewrite (proj2 (Rltb_true lo x) H1). reflexivity. Qed.
Lemma clamp_gone lo hi : lo <= hi -> clamp1 (N:=XNum) (Fin lo) NaN (Fin hi) = Fin lo.
Proof. intros H. rewrite clamp_nan. unfold pymin. cbn [nltb XNum xltb]. rewrite (proj2 (Rltb_false hi lo)) by lra. reflexivity. Qed.
Lemma clamp_gone_up lo : clamp1 (N:=XNum) (Fin lo) NaN PInf = Fin lo.
Proof. rewrite clamp_nan. reflexivity. Qed.
Definition y_hide : vec6 XNum := @mk6 XNum (Fin (5 / 100)) (Fin (1 / 10000)) (Fin (1 / 10000)) (Fin (1 / 10000)) (Fin (1 / 10000)) NaN.
Lemma hide_start : guarded o_hide z_hide = z_hide.
Proof.
  unfold guarded. cbn [o_hide q_etype q_oe_min q_oe_max]. unfold z_hide, default_oe_min, default_oe_max, elements_safety. rewrite !xdec.
  pose proof PI2_1 as P. cbn [npi ninf nofZ XNum]. change (10 ^ Z.of_nat 2)%Z with 100%Z. change (10 ^ Z.of_nat 4)%Z with 10000%Z.
  rewrite !clamp_in, clamp_lo, clamp_up by lra. reflexivity.
Qed.
Lemma hide_next : guarded o_hide all_nan = y_hide.
Proof.
  unfold guarded. cbn [o_hide q_etype q_oe_min q_oe_max]. unfold all_nan, default_oe_min, default_oe_max, elements_safety. rewrite !xdec.
  pose proof PI2_1 as P. cbn [npi ninf nofZ XNum]. change (10 ^ Z.of_nat 2)%Z with 100%Z. change (10 ^ Z.of_nat 4)%Z with 10000%Z.
  rewrite !clamp_gone, !clamp_gone_up by lra. reflexivity.
Qed.
Lemma hide_check : q_check o_hide all_nan (p_oeT p_hide) (p_woe p_hide) (q_tol o_hide) = Ok false /\ q_check o_hide all_nan (p_oeT p_hide) (p_woe p_hide) (q_tol_relaxed o_hide) = Ok false.
Proof.
  change (q_check o_hide) with (check_convergence_keplerian (N:=XNum)). change (p_oeT p_hide) with T_hide. unfold check_convergence_keplerian, all_nan, T_hide. cbn [p_hide p_woe o_hide q_tol q_tol_relaxed].
  split; f_equal; unfold check_all; apply short; try apply check_le; right; left; unfold check_entry; cbn; rewrite (proj2 (Reqb_false 1 0)) by lra; reflexivity.
Qed.

Lemma hide_ellipse : proper_ellipse Keplerian z_hide.
Proof. exists 1, (1 / 2), 1, (1 / 10000), 1, 0. split; [reflexivity|]. split; [lra|]. split; [lra|]. apply Rgt_not_eq, sin_gt_0; pose proof PI2_1; lra. Qed.
(** the first step: the law has no direction, the run coasts, and the pull turns every element into nan *)
Lemma hide_step1 ea er : exists s1, step o_hide p_hide ea er (init_state p_hide) = Next s1 /\ l_oe s1 = all_nan /\ l_nnan s1 = 1%Z /\
  l_t s1 = Fin (0 + 1 / 10) /\ l_batt s1 = Fin 1 /\ l_duty s1 = true /\ l_ton s1 = Fin 0 /\ l_toff s1 = Fin 0 /\ l_chg s1 = false /\
  h_states (l_hist s1) = [z_hide; all_nan] /\ h_times (l_hist s1) = [Fin 0; Fin (0 + 1 / 10)].
Proof.
  set (s := safety o_hide (init_state p_hide)).
  assert (Oe : l_oe s = z_hide) by (unfold s; rewrite guarded_oe; exact hide_start).
  assert (Hs : h_states (l_hist s) = [z_hide]) by (unfold s; rewrite (tidy_safe o_hide (init_state p_hide) [] eq_refl); cbn [app]; f_equal; exact hide_start).
  unfold step. fold s. rewrite (hide_plan s 0) by (reflexivity || lra). cbn [pl_dt].
  pose proof (hide_control ea er s (mkplan (N:=XNum) (Fin (1 / 10)) true (Fin 0) (Fin 0) false) (accel_thrust p_hide (Fin (1 / 10)) (l_mass s))) as C.
  change (l_nnan s) with 0%Z in C. cbn [Z.ltb Z.compare Z.add] in C.
  destruct C as (c & -> & Cab & Cth & Cu & Cn); [rewrite Oe; reflexivity|reflexivity|].
  unfold perturbation. change (q_ptrb o_hide) with (Some nan_pull). unfold nan_pull at 1.
  unfold propagate. change (q_integ o_hide) with RK4. rewrite Cu, Oe. change (q_eom o_hide) with (eom_of (N:=XNum) Keplerian). change (q_mu o_hide) with (Fin 1).
  rewrite (hit_rk4 1 (c_psi c) v3zero (l_t s) _ z_hide) by (exact hide_ellipse || lra). cbn [bind]. rewrite Cth. cbn [Z.eqb pl_dt pl_duty pl_chg].
  assert (BU : battery_update p_hide (l_batt s) (Fin (1 / 10)) true false = (Fin 1, false)).
  { unfold battery_update. change (l_batt s) with (Fin 1). change (p_discharge p_hide) with (Fin 0). change (p_cap_lo p_hide) with (Fin 0). change (p_cap_hi p_hide) with (Fin 1).
    f_equal. unfold npclip. xnum. cbn [xsub xmul]. replace (1 - 0 * (1 / 10)) with 1 by ring. rewrite !xlt_no by lra. reflexivity. }
  rewrite BU, Cab. unfold exit_check.
  set (s1 := mkls _ _ _ _ _ _ _ _ _ _ _ _). change (l_oe s1) with all_nan. destruct hide_check as [-> ->]. cbn [andb].
  assert (M : nleb (Num:=XNum) (l_mass (with_nrel s1 (l_nrel s1))) (p_mass_min p_hide) = false) by (apply xle_no; lra). rewrite M.
  eexists. split; [reflexivity|]. unfold with_nrel, s1. cbn [l_oe l_nnan l_t l_batt l_duty l_ton l_toff l_chg l_hist push6 push3 h_states h_times pl_duty pl_ton pl_toff].
  repeat (split; [first [reflexivity|exact Cn]|]). rewrite Hs. split; reflexivity.
Qed.
Lemma C100_hidden_lem ea er : ea <> EtaOther -> exists o' h, ran 2 o_hide ea er p_hide o' h /\ raws o_hide (p_oe0 p_hide) h [all_nan] /\ h_states h = [z_hide; y_hide] /\ q_exitcode o' = (-3)%Z.
Proof.
  intros Ea. destruct (hide_step1 ea er) as (s1 & E1 & O1 & N1 & T1 & B1 & D1 & On1 & Of1 & C1 & H1 & Ti1).
  set (s := safety o_hide s1).
  assert (Oe : l_oe s = y_hide) by (unfold s; rewrite guarded_oe, O1; exact hide_next).
  assert (Hs : h_states (l_hist s) = [z_hide; y_hide]).
  { unfold s. rewrite (tidy_safe o_hide s1 [z_hide]) by (rewrite O1; exact H1). rewrite O1, hide_next. reflexivity. }
  assert (E2 : step o_hide p_hide ea er s1 = Stop (-3) false s).
  { unfold step. fold s. rewrite (hide_plan s (0 + 1 / 10)) by (exact T1 || exact B1 || exact D1 || exact On1 || exact Of1 || exact C1 || lra). cbn [pl_dt].
    pose proof (hide_control ea er s (mkplan (N:=XNum) (Fin (1 / 10)) true (Fin 0) (Fin 0) false) (accel_thrust p_hide (Fin (1 / 10)) (l_mass s))) as C.
    change (l_nnan s) with (l_nnan s1) in C. rewrite N1 in C. cbn [Z.ltb Z.compare Z.add Pos.add Pos.compare Pos.compare_cont Pos.succ] in C.
    rewrite C; [reflexivity|rewrite Oe; reflexivity|reflexivity]. }
  assert (G0 : guard p_hide (init_state p_hide) = true) by (unfold guard; cbn; apply Rltb_true; rewrite !Rabs_pos_eq; lra).
  assert (G1 : guard p_hide s1 = true) by (unfold guard; rewrite Ti1; cbn; apply Rltb_true; rewrite !Rabs_pos_eq; lra).
  assert (L : loop 2 o_hide p_hide ea er (init_state p_hide) = LStop (-3) false s) by (cbn [loop]; rewrite G0, E1, G1, E2; reflexivity).
  unfold ran, solve. change (q_problem o_hide) with (Some p_hide).
  destruct ea as [v|f|]; try congruence; rewrite L; (eexists _, (l_hist s); split; [split; [reflexivity|split; reflexivity]|]);
    (split; [exists [z_hide], all_nan; split; [reflexivity|right; rewrite Hs; cbn [map app]; rewrite hide_next; do 2 f_equal; symmetry; exact hide_start]|]); (split; [exact Hs|reflexivity]).
Qed.

(** The same pull on equinoctial elements: the nan stays in every later row. *)
Definition o_fade : qlaw XNum :=
  @mkqlaw XNum (Fin 1) (Fin 1) (Fin 1) (Fin 3) (Fin 4) (Fin 2) (Fin (1 / 100)) (Fin 0) MeeWithA RK4 2
    (@mk5 XNum (Fin (1 / 1000)) (Fin (1 / 1000)) (Fin (1 / 1000)) (Fin (1 / 1000)) (Fin (1 / 1000))) (@mk5 XNum (Fin (1 / 100)) (Fin (1 / 100)) (Fin (1 / 100)) (Fin (1 / 100)) (Fin (1 / 100))) 200%Z
    (default_oe_min (N:=XNum) MeeWithA) (default_oe_max (N:=XNum) MeeWithA) 1%Z
    (eom_of (N:=XNum) MeeWithA) (lyap_of_etype (N:=XNum) MeeWithA) (dqdt_of_etype (N:=XNum) MeeWithA) (check_of (N:=XNum) MeeWithA)
    (dec (N:=XNum) 1 4) (Fin 2) (dec (N:=XNum) 1 5) false (Some nan_pull) (Some p_fin) None false 0%Z.
Lemma nan_jdiv_l mu : mu <> 0 -> jdiv (N:=XNum) NaN (Fin mu) = Ok NaN.
Proof. intros H. unfold jdiv. cbn. rewrite (proj2 (Reqb_false mu 0) H). reflexivity. Qed.
Lemma fade_eom mu psi u t : 0 < mu -> eom_of (N:=XNum) MeeWithA t all_nan (mkparams (N:=XNum) (Fin mu) u psi (@mk3 XNum NaN NaN NaN)) = Ok all_nan.
Proof.
  intros M. cbn [eom_of]. unfold eom_mee_with_a_gauss, all_nan. cbn [op_mu op_u op_psi op_ptrb]. unfold sq. xnum.
  rewrite nan_jdiv_r. cbn [bind]. cbn [xlift xsqrt xatan]. nans. cbn [xsqrt xlift]. nans. cbn [xsqrt xlift]. nans.
  rewrite nan_jdiv_r. cbn [bind]. rewrite nan_jdiv_l by lra. cbn [bind]. rewrite !nan_jdiv_r. cbn [bind]. f_equal. apply pull_rate.
Qed.
Lemma fade_hit mu psi u t z : 0 < mu -> proper_ellipse MeeWithA z -> eom_of (N:=XNum) MeeWithA t z (mkparams (N:=XNum) (Fin mu) u psi (@mk3 XNum NaN NaN NaN)) = Ok all_nan.
Proof.
  intros Hmu (a & b & c & d & e & l & -> & Ha & H1 & H2). cbn [eom_of].
  pose proof (mv_am_arg mu a b c Hmu Ha H1) as A. pose proof (mv_e b c H1) as He. pose proof (mv_e2 b c) as He2.
  pose proof (sqrt_lt_R0 _ A) as Hh.
  assert (W : 1 + b * cos l + c * sin l <> 0) by (exact (mv_w mu a b c d e l H1)).
  unfold eom_mee_with_a_gauss. cbn [op_mu op_u op_psi op_ptrb]. unfold sq. xnum. cbn [xmul xsub xadd xlift].
  rewrite xsqrt_fin by nra. cbn [xmul xsub xadd xlift]. rewrite xsqrt_fin by lra. rewrite xjdiv by exact H2. cbn [bind xatan xmul xsub xadd xlift].
  assert (P : 0 < a * (1 - sqrt (b * b + c * c) * sqrt (b * b + c * c))) by (apply Rmult_lt_0_compat; [exact Ha|rewrite He2; lra]).
  rewrite xjdiv by (apply Rgt_not_eq, Rmult_lt_0_compat; [exact Hmu|apply ecos_pos; exact He]). cbn [bind].
  rewrite xjdiv by lra. cbn [bind]. rewrite xsqrt_fin by (apply Rlt_le, Rdiv_lt_0_compat; assumption).
  rewrite xjdiv by exact W. cbn [bind]. rewrite xjdiv by lra. cbn [bind]. f_equal. apply pull_rate.
Qed.
Lemma fade_rk4 mu psi u t h z : 0 < mu -> proper_ellipse MeeWithA z \/ z = all_nan ->
  rk4 (N:=XNum) (eom_of (N:=XNum) MeeWithA) t h z (mkparams (N:=XNum) (Fin mu) u psi (@mk3 XNum NaN NaN NaN)) = Ok all_nan.
Proof.
  intros M E. assert (F : eom_of (N:=XNum) MeeWithA t z (mkparams (N:=XNum) (Fin mu) u psi (@mk3 XNum NaN NaN NaN)) = Ok all_nan) by (destruct E as [E | ->]; [apply fade_hit|apply fade_eom]; assumption).
  unfold rk4. rewrite F. cbn [bind]. rewrite nan_v6s, nan_v6, fade_eom by exact M. cbn [bind].
  rewrite nan_v6s, nan_v6, fade_eom by exact M. cbn [bind]. rewrite nan_v6s, nan_v6, fade_eom by exact M. cbn [bind]. rewrite !nan_v6, nan_v6s, nan_v6. reflexivity.
Qed.
Lemma fade_u env : env Voe5 = NaN -> v3_0 (eval3 (N:=XNum) env (usym SymMee.psi SymMee.q)) = NaN.
Proof.
  intros H. cbn [usym map SymMee.psi eval3 v3_0]. unfold dqdoe, oe_vars. cbn [map].
  generalize (diff Voe0 SymMee.q) (diff Voe1 SymMee.q) (diff Voe2 SymMee.q) (diff Voe3 SymMee.q) (diff Voe4 SymMee.q). intros d0 d1 d2 d3 d4.
  cbn [edot5 eval]. assert (S : eval (N:=XNum) env SymMee.sinL = NaN) by (cbn; rewrite H; reflexivity). rewrite S. xnum. do 4 nans. reflexivity.
Qed.
Lemma fade_call acc : exists al be u psi q qd, lyap_call o_fade p_fin acc all_nan = Ok (al, be, u, psi, q, qd) /\ (al = NaN \/ be = NaN).
Proof.
  assert (X : exists out, q_lyap o_fade (q_mu o_fade) acc all_nan (p_oeT p_fin) (q_rpmin o_fade) (q_m o_fade) (q_n o_fade) (q_r o_fade) (q_b o_fade) (q_k o_fade) (q_wp o_fade) (p_woe p_fin) = Ok out /\ singular_in_plane (lo_u out)).
  { change (q_lyap o_fade) with (lyap_mee_with_a (N:=XNum)). change (p_oeT p_fin) with ([Fin 2; Fin 0; Fin 0; Fin 0; Fin 0]). unfold lyap_mee_with_a, lyap_of. cbn [list_to_vec5].
    set (env := mkenv _ _ _ _ _ _ _ _ _ _ _ _). eexists. split; [reflexivity|]. cbn [lo_u].
    pose proof (fade_u env eq_refl) as U. destruct (eval3 (N:=XNum) env (usym SymMee.psi SymMee.q)) as [x y z]. cbn in U |- *. subst. auto. }
  destruct X as (out & C & Sg). exact (nan_lyap o_fade p_fin acc all_nan out C Sg).
Qed.

Record sched (t : R) (n : Z) (s : lstate XNum) : Prop := {
  sc_t : l_t s = Fin t; sc_mass : l_mass s = Fin 1; sc_batt : l_batt s = Fin 1; sc_duty : l_duty s = true; sc_ton : l_ton s = Fin 0; sc_toff : l_toff s = Fin 0;
  sc_chg : l_chg s = false; sc_nan : l_nnan s = n }.
Lemma fade_plan (s : lstate XNum) t n : sched t n s -> 0 <= t <= 5 -> plan o_fade p_fin s = Ok pl_fin.
Proof.
  intros [H1 _ H4 H7 H8 H9 H10 _] H2. unfold plan, local_step. change (q_sundman o_fade) with false. cbn [bind]. rewrite H1, H4, H7, H8, H9, H10.
  unfold duty_phase. change (p_duty_on p_fin) with (Fin 100). change (nsub (Num:=XNum) (Fin t) (Fin 0)) with (Fin (t - 0)).
  rewrite xlt_no by lra. cbn [andb negb]. rewrite andb_false_r. unfold battery_phase.
  change (p_cap_lo p_fin) with (Fin 0). change (p_discharge p_fin) with (Fin 0). change (p_t_step p_fin) with (Fin 1). rewrite xdec. change (10 ^ Z.of_nat 12)%Z with 1000000000000%Z.
  xnum. cbn [xadd xsub xmul]. rewrite xle_no by lra. rewrite xlt_no by lra. reflexivity.
Qed.
Lemma fade_acc (s : lstate XNum) t n : sched t n s -> accel_thrust p_fin (Fin 1) (l_mass s) = Fin 1.
Proof.
  intros [_ -> _ _ _ _ _ _]. unfold accel_thrust, npsign. change (p_tmax p_fin) with (Fin 1). change (nofZ (Num:=XNum) 0) with (Fin 0). rewrite (xlt_no 1 0) by lra.
  change (nltb (Num:=XNum) (Fin 0) (Fin 1)) with (Rltb 0 1). rewrite (proj2 (Rltb_true 0 1)) by lra.
  cbn. rewrite (proj2 (Reqb_false 1 0)) by lra. f_equal. field.
Qed.
Lemma fade_check : q_check o_fade all_nan (p_oeT p_fin) (p_woe p_fin) (q_tol o_fade) = Ok false /\ q_check o_fade all_nan (p_oeT p_fin) (p_woe p_fin) (q_tol_relaxed o_fade) = Ok false.
Proof.
  change (q_check o_fade) with (check_convergence_mee (N:=XNum)). change (p_oeT p_fin) with ([Fin 2; Fin 0; Fin 0; Fin 0; Fin 0]). unfold check_convergence_mee, all_nan.
  change (p_woe p_fin) with (@mk5 XNum (Fin 0) (Fin 1) (Fin 0) (Fin 0) (Fin 0)). cbn [o_fade q_tol q_tol_relaxed].
  split; f_equal; unfold check_all; apply short; try apply check_le; right; left; unfold check_entry; cbn; rewrite (proj2 (Reqb_false 1 0)) by lra; reflexivity.
Qed.
Lemma fade_step ea er (s : lstate XNum) t n c ab : sched t n s -> 0 <= t <= 5 -> proper_ellipse MeeWithA (l_oe s) \/ l_oe s = all_nan ->
  control o_fade p_fin ea er s pl_fin (Fin 1) = Ok (Ctl c) -> c_ab c = Some ab ->
  exists s1, step o_fade p_fin ea er s = Next s1 /\ sched (t + 1) (c_nnan c) s1 /\ l_oe s1 = all_nan /\ h_states (l_hist s1) = h_states (l_hist s) ++ [all_nan] /\ h_times (l_hist s1) = h_times (l_hist s) ++ [Fin (t + 1)].
Proof.
  intros Sc T E C Cab. unfold step. change (safety o_fade s) with s. rewrite (fade_plan s t n Sc T). cbn [pl_fin pl_dt]. rewrite (fade_acc s t n Sc), C.
  destruct Sc as [H1 H3 H4 H7 H8 H9 H10 H6].
  unfold perturbation. change (q_ptrb o_fade) with (Some nan_pull). unfold nan_pull at 1.
  unfold propagate. change (q_integ o_fade) with RK4. change (q_eom o_fade) with (eom_of (N:=XNum) MeeWithA). change (q_mu o_fade) with (Fin 1).
  rewrite (fade_rk4 1 (c_psi c) (c_u c) (l_t s) _ (l_oe s)) by (exact E || lra). cbn [bind pl_dt pl_duty pl_chg pl_fin].
  assert (BU : battery_update p_fin (l_batt s) (Fin 1) true false = (Fin 1, false)).
  { unfold battery_update. rewrite H4. change (p_discharge p_fin) with (Fin 0). change (p_cap_lo p_fin) with (Fin 0). change (p_cap_hi p_fin) with (Fin 1).
    f_equal. unfold npclip. xnum. cbn [xsub xmul]. replace (1 - 0 * 1) with 1 by ring. rewrite !xlt_no by lra. reflexivity. }
  rewrite BU, Cab. destruct ab as [al be].
  assert (Ms : (if (c_thr c =? 1)%Z then nsub (Num:=XNum) (l_mass s) (nmul (Num:=XNum) (p_mdot p_fin) (Fin 1)) else l_mass s) = Fin 1).
  { rewrite H3. change (p_mdot p_fin) with (Fin 0). destruct (c_thr c =? 1)%Z; [|reflexivity]. cbn. f_equal. ring. }
  rewrite Ms. assert (Ts : nadd (Num:=XNum) (l_t s) (Fin 1) = Fin (t + 1)) by (rewrite H1; reflexivity). rewrite Ts.
  unfold exit_check. set (s1 := mkls _ _ _ _ _ _ _ _ _ _ _ _). change (l_oe s1) with all_nan. destruct fade_check as [-> ->]. cbn [andb].
  assert (M : nleb (Num:=XNum) (l_mass (with_nrel s1 (l_nrel s1))) (p_mass_min p_fin) = false) by (apply xle_no; lra). rewrite M.
  eexists. split; [reflexivity|]. unfold with_nrel, s1.
  split; [constructor; reflexivity|]. repeat split; reflexivity.
Qed.
Lemma fade_control ea er (s : lstate XNum) acc : l_oe s = all_nan ->
  if Z.ltb 1 (l_nnan s + 1) then control o_fade p_fin ea er s pl_fin acc = Ok NanBreak
  else exists c, control o_fade p_fin ea er s pl_fin acc = Ok (Ctl c) /\ c_ab c = Some (Fin 0, Fin 0) /\ c_nnan c = (l_nnan s + 1)%Z.
Proof.
  intros H. destruct (fade_call acc) as (al & be & u & psi & q & qd & F & An). rewrite <- H in F.
  unfold control. change (pl_duty pl_fin) with true. cbv iota. rewrite F. cbn [bind].
  assert (X : (nisnan (Num:=XNum) al || nisnan (Num:=XNum) be)%bool = true) by (destruct An as [-> | ->]; [reflexivity|apply orb_true_r]). rewrite X.
  change (q_nan_thr o_fade) with 1%Z. destruct (Z.ltb 1 (l_nnan s + 1)); [reflexivity|]. eexists. split; [reflexivity|]. split; reflexivity.
Qed.
Lemma fade_start : exists c ab, control o_fade p_fin (eta 0) (eta 0) s_fin pl_fin (Fin 1) = Ok (Ctl c) /\ c_ab c = Some ab /\ c_nnan c = 0%Z /\ c_thr c = 1%Z.
Proof.
  destruct fin_out_eff as (out & E & U).
  destruct (C90_on_lem MeeWithA o_fade p_fin (Fin 1) (lw 1) oe_eff out (eta 0) (eta 0) s_fin pl_fin eq_refl ltac:(repeat split; reflexivity) (eff_regular 1 one_one) E) as (c & E1 & (al & be & Ab & _ & _ & _ & N) & T & _).
  - rewrite U. exact far_ne.
  - reflexivity.
  - reflexivity.
  - cbn. apply Rltb_false. lra.
  - cbn. apply Rltb_false. lra.
  - exists c, (Fin al, Fin be). auto.
Qed.
Lemma C100_fade_lem : exists o' h, ran 3 o_fade (eta 0) (eta 0) p_fin o' h /\ built MeeWithA o_fade /\ h_states h = [fin6 oe_eff; all_nan; all_nan] /\ q_exitcode o' = (-3)%Z.
Proof.
  destruct fade_start as (c0 & ab & C0 & Ab & Nn & _).
  assert (S0 : sched 0 0 s_fin) by (constructor; reflexivity).
  assert (E0 : proper_ellipse MeeWithA (l_oe s_fin)) by (exists 1, (1 / 2), 0, 0, 0, PI; split; [reflexivity|split; [lra|split; lra]]).
  destruct (fade_step (eta 0) (eta 0) s_fin 0 0 c0 ab S0 ltac:(lra) (or_introl E0) C0 Ab) as (s1 & St1 & Sc1 & Oe1 & Hs1 & Ht1). rewrite Nn in Sc1.
  pose proof (fade_control (eta 0) (eta 0) s1 (Fin 1) Oe1) as C1. rewrite (sc_nan _ _ _ Sc1) in C1. cbn [Z.ltb Z.compare Z.add Pos.compare Pos.compare_cont] in C1.
  destruct C1 as (c1 & C1 & Ab1 & Nn1).
  destruct (fade_step (eta 0) (eta 0) s1 (0 + 1) 0 c1 _ Sc1 ltac:(lra) (or_intror Oe1) C1 Ab1) as (s2 & St2 & Sc2 & Oe2 & Hs2 & Ht2). rewrite Nn1 in Sc2.
  pose proof (fade_control (eta 0) (eta 0) s2 (Fin 1) Oe2) as C2. rewrite (sc_nan _ _ _ Sc2) in C2. cbn [Z.ltb Z.compare Z.add Pos.add Pos.succ Pos.compare Pos.compare_cont] in C2.
  assert (St3 : step o_fade p_fin (eta 0) (eta 0) s2 = Stop (-3) false s2).
  { unfold step. change (safety o_fade s2) with s2. rewrite (fade_plan s2 _ _ Sc2) by lra. cbn [pl_fin pl_dt]. rewrite (fade_acc s2 _ _ Sc2), C2. reflexivity. }
  rewrite Hs1 in Hs2. rewrite Ht1 in Ht2.
  assert (G0 : guard p_fin s_fin = true) by (unfold guard; cbn; apply Rltb_true; rewrite !Rabs_pos_eq; lra).
  assert (G1 : guard p_fin s1 = true) by (unfold guard; rewrite Ht1; cbn; apply Rltb_true; rewrite !Rabs_pos_eq; lra).
  assert (G2 : guard p_fin s2 = true) by (unfold guard; rewrite Ht2; cbn; apply Rltb_true; rewrite !Rabs_pos_eq; lra).
  assert (L : loop 3 o_fade p_fin (eta 0) (eta 0) s_fin = LStop (-3) false s2) by (cbn [loop]; rewrite G0, St1, G1, St2, G2, St3; reflexivity).
  unfold ran, solve. change (q_problem o_fade) with (Some p_fin). cbn [eta]. fold (eta 0). change (init_state p_fin) with s_fin. rewrite L.
  eexists _, (l_hist s2). split; [split; [reflexivity|split; reflexivity]|]. split; [repeat split|]. split; [exact Hs2|reflexivity].
Qed.
Lemma C100_hidden_refuted_lem : exists (o : qlaw XNum) (p : problem XNum) ea er o' h, built Keplerian o /\
  q_oe_min o = default_oe_min (N:=XNum) Keplerian /\ q_oe_max o = default_oe_max (N:=XNum) Keplerian /\ ran 2 o ea er p o' h /\ raws o (p_oe0 p) h [all_nan] /\
  h_states h = [p_oe0 p; @mk6 XNum (Fin (5 / 100)) (Fin (1 / 10000)) (Fin (1 / 10000)) (Fin (1 / 10000)) (Fin (1 / 10000)) NaN].
Proof.
  destruct (C100_hidden_lem (eta 0) (eta 0)) as (o' & h & R & Rw & H & _); [discriminate|].
  exists o_hide, p_hide, (eta 0), (eta 0), o', h. split; [repeat split|]. split; [reflexivity|]. split; [reflexivity|]. split; [exact R|]. split; [exact Rw|exact H].
Qed.

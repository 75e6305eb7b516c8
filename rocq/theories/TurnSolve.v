(** Whole runs under turned axes and whole turns. *)
From Coq Require Import Reals Lra Lia ZArith List Bool.
From Verif Require Import RMath RLib Num Base Elements Integrate Eom Convergence Lyapunov Symbolic SymKep SymMee Perturb PlotHelper Qlaw Spec NanProofs ScaleSpec DimProofs ScaleProofs SymRun TurnSpec TurnProofs.
Import ListNotations.
Local Open Scope R_scope.

(** ** the last element alone *)
Lemma zero_turn x : plus x (0 + 2 * PI * IZR 0) = x.
Proof. rewrite <- (plus_0 x) at 2. apply plus_eq. ring. Qed.
Lemma zero_turn' x : plus x (2 * PI * IZR 0) = x.
Proof. rewrite <- (plus_0 x) at 2. apply plus_eq. ring. Qed.
Lemma oe_last z a f g h k l : oe_turn (last_turn z) (@mk6 XNum a f g h k l) = @mk6 XNum a f g h k (plus l (2 * PI * IZR z)).
Proof. cbn [oe_turn last_turn w_axes w_ra w_om w_ta]. rewrite zero_turn, zero_turn'. reflexivity. Qed.
Lemma target_last z l : target_turn (last_turn z) l = l.
Proof. destruct l as [|a [|b [|c [|d [|e l]]]]]; try reflexivity. cbn [target_turn last_turn w_axes w_raT w_omT]. rewrite zero_turn, zero_turn'. reflexivity. Qed.
Lemma mee_eom_last z t x prm : eom_mee_with_a_gauss (N:=XNum) t (oe_turn (last_turn z) x) prm = eom_mee_with_a_gauss (N:=XNum) t x prm.
Proof.
  destruct x as [a f g h k l]. rewrite oe_last. unfold eom_mee_with_a_gauss. change (ncos (Num:=XNum)) with (xlift cos). change (nsin (Num:=XNum)) with (xlift sin).
  rewrite xcos_turn, xsin_turn. cbv zeta. apply bind_ext. intros gf. change (nsub (Num:=XNum)) with xsub. rewrite sub_plus_l, xcos_turn. reflexivity.
Qed.
Lemma mee_law_last z mu f oe oeT rpmin m n r b k wp woe :
  lyap_mee_with_a (N:=XNum) mu f (oe_turn (last_turn z) oe) oeT rpmin m n r b k wp woe = lyap_mee_with_a (N:=XNum) mu f oe oeT rpmin m n r b k wp woe /\
  dqdt_mee_with_a (N:=XNum) mu f (oe_turn (last_turn z) oe) oeT rpmin m n r b k wp woe = dqdt_mee_with_a (N:=XNum) mu f oe oeT rpmin m n r b k wp woe.
Proof.
  destruct oe as [o0 o1 o2 o3 o4 o5]. rewrite oe_last. unfold lyap_mee_with_a, dqdt_mee_with_a, lyap_of, dqdt_of. destruct (list_to_vec5 oeT) as [T|]; [|auto].
  destruct (law_turn (last_turn z) mee_kind SymMee.psi SymMee.q mu f (@mk6 XNum o0 o1 o2 o3 o4 o5) (@mk6 XNum o0 o1 o2 o3 o4 (plus o5 (2 * PI * IZR z))) T T rpmin m n r b k wp woe mee_same) as (E1 & E2 & E3 & E4 & E5).
  - intros v. destruct v; cbn [mee_kind has_kind mkenv v6_0 v6_1 v6_2 v6_3 v6_4 v6_5]; try reflexivity. exists z. apply plus_eq. ring.
  - rewrite E1, E2, E3, E4, E5. auto.
Qed.
Lemma mee_check_last z x t wo tol : check_convergence_mee (N:=XNum) (oe_turn (last_turn z) x) t wo tol = check_convergence_mee (N:=XNum) x t wo tol.
Proof. destruct x as [a f g h k l]. rewrite oe_last. reflexivity. Qed.

Lemma v3s_1 v : v3s 1 v = v.
Proof. destruct v. cbn [v3s]. rewrite !xs_1. reflexivity. Qed.
Lemma map_s1 l : map (xscale 1) l = l.
Proof. rewrite <- (map_id l) at 2. apply map_ext. apply xs_1. Qed.
Lemma map_s11 l : map (xscale (1 * 1)) l = l.
Proof. rewrite Rmult_1_l. apply map_s1. Qed.

Section Solve.
Variable w : turns.
Notation phi := (oe_turn w).
Variables (et : etype) (o : qlaw XNum).
Hypothesis B : built et o.
Hypothesis Hw : et = Keplerian \/ exists z, w = last_turn z.

Lemma eom_turn t x prm : q_eom o t (phi x) prm = q_eom o t x prm.
Proof. destruct B as (E1 & E2 & E3 & E4 & E5). rewrite E2. destruct et; [apply kep_eom_turn|]. destruct Hw as [H|(z & ->)]; [discriminate|]. apply mee_eom_last. Qed.
Lemma lyap_turn mu f oe oeT rpmin m n r b k wp woe : q_lyap o mu f (phi oe) (target_turn w oeT) rpmin m n r b k wp woe = q_lyap o mu f oe oeT rpmin m n r b k wp woe.
Proof.
  destruct B as (E1 & E2 & E3 & E4 & E5). rewrite E3. destruct et; [apply kep_law_turn|]. destruct Hw as [H|(z & ->)]; [discriminate|]. rewrite target_last. apply mee_law_last.
Qed.
Lemma dqdt_turn mu f oe oeT rpmin m n r b k wp woe : q_dqdt o mu f (phi oe) (target_turn w oeT) rpmin m n r b k wp woe = q_dqdt o mu f oe oeT rpmin m n r b k wp woe.
Proof.
  destruct B as (E1 & E2 & E3 & E4 & E5). rewrite E4. destruct et; [apply kep_law_turn|]. destruct Hw as [H|(z & ->)]; [discriminate|]. rewrite target_last. apply mee_law_last.
Qed.
Lemma check_turn x t wo tol : q_check o (phi x) (target_turn w t) wo tol = q_check o x t wo tol.
Proof.
  destruct B as (E1 & E2 & E3 & E4 & E5). rewrite E5. destruct et; [apply kep_check_turn|]. destruct Hw as [H|(z & ->)]; [discriminate|]. rewrite target_last. apply mee_check_last.
Qed.
Lemma lcall_turn p a x : lyap_call (N:=XNum) (qlaw_turn w o) (problem_turn w p) a (phi x) = lyap_call (N:=XNum) o p a x.
Proof.
  unfold lyap_call, lyapunov_control_angles, qlaw_turn, problem_turn. cbn [q_lyap q_mu q_rpmin q_m q_n q_r q_b q_k q_wp p_oeT p_woe]. rewrite lyap_turn. reflexivity.
Qed.
Lemma osc_turn p a x : evaluate_osculating_qdot (N:=XNum) (qlaw_turn w o) (problem_turn w p) (phi x) a = evaluate_osculating_qdot (N:=XNum) o p x a.
Proof.
  destruct x as [o0 o1 o2 o3 o4 o5]. unfold evaluate_osculating_qdot. cbn [oe_turn]. rewrite grid_turn, mapM_map.
  change (q_grid (qlaw_turn w o)) with (q_grid o). f_equal. apply mapM_ext. intros an.
  unfold qlaw_turn, problem_turn. cbn [q_dqdt q_mu q_rpmin q_m q_n q_r q_b q_k q_wp p_oeT p_woe].
  exact (dqdt_turn (q_mu o) a (@mk6 XNum o0 o1 o2 o3 o4 an) (p_oeT p) (q_rpmin o) (q_m o) (q_n o) (q_r o) (q_b o) (q_k o) (q_wp o) (p_woe p)).
Qed.
Lemma lstep_turn p x : local_step (N:=XNum) (qlaw_turn w o) (problem_turn w p) (phi x) = local_step (N:=XNum) o p x.
Proof.
  unfold local_step. change (q_sundman (qlaw_turn w o)) with (q_sundman o). change (q_etype (qlaw_turn w o)) with (q_etype o). change (q_mu (qlaw_turn w o)) with (q_mu o).
  change (p_t_step (problem_turn w p)) with (p_t_step p). destruct (q_sundman o); [|reflexivity]. destruct B as (E1 & _). rewrite E1.
  destruct et.
  - destruct x as [a e i ra om ta]. cbn [oe_turn v6_0 v6_1 v6_5]. rewrite ta2ea_turn. reflexivity.
  - destruct Hw as [H|(z & ->)]; [discriminate|]. destruct x as [a f g h k l]. rewrite oe_last. unfold mee2ea. cbn [v6_0 v6_1 v6_2 v6_5].
    change (nsub (Num:=XNum)) with xsub. rewrite sub_plus_l, ta2ea_turn. reflexivity.
Qed.
Lemma eta_turned e t x m b : eta_now (N:=XNum) (eta_turn w e) t (phi x) m b = eta_now (N:=XNum) e t x m b.
Proof. destruct e; try reflexivity. cbn [eta_turn eta_now]. rewrite oe_unturn. reflexivity. Qed.
Lemma prop_turn p s pl c v : propagate (qlaw_turn w o) (problem_turn w p) (ls_to phi 1 1 1 1 s) (plan_to 1 pl) (ctl_to (fun x => x) 1 1 1 c) (v3s 1 v) =
  Rmap (prop_to phi 1 1) (propagate o p s pl c v).
Proof.
  unfold propagate, ls_to, plan_to, ctl_to. cbn [l_t l_oe l_mass pl_dt c_u c_psi c_thr]. rewrite !xs_1, !v3s_1.
  change (q_integ (qlaw_turn w o)) with (q_integ o). change (q_eom (qlaw_turn w o)) with (q_eom o). change (q_mu (qlaw_turn w o)) with (q_mu o).
  change (q_ode_tol (qlaw_turn w o)) with (q_ode_tol o). change (p_mdot (problem_turn w p)) with (p_mdot p). destruct (q_integ o).
  - rewrite rk4_turn by (intros; apply eom_turn). rewrite rmap_bind, bind_rmap. apply bind_ext. intros x. cbn [Rmap prop_to]. rewrite !xs_1. reflexivity.
  - rewrite rkf45_turn by (intros; apply eom_turn). rewrite rmap_bind, bind_rmap. apply bind_ext. intros [x h]. cbn [fst snd Rmap prop_to]. rewrite !xs_1. reflexivity.
Qed.
Lemma loop_turn fuel p ea er s :
  loop fuel (qlaw_turn w o) (problem_turn w p) (eta_turn w ea) (eta_turn w er) (ls_to phi 1 1 1 1 s) = res_to phi 1 1 1 1 (loop fuel o p ea er s).
Proof.
  apply (loop_sim o (qlaw_turn w o) p (problem_turn w p) ea (eta_turn w ea) er (eta_turn w er) phi (fun x => x) 1 1 1 1 1); try lra;
  try (cbn [problem_turn p_mass0 p_tmax p_tf_max p_mass_min p_duty_on p_duty_off p_charge p_discharge]; rewrite ?Rmult_1_l, ?Rinv_1, xs_1; reflexivity); try reflexivity.
  - intros _ x. apply safety_turn.
  - intros x. rewrite lstep_turn. destruct (local_step o p x); [|reflexivity]. cbn [Rmap]. rewrite xs_1. reflexivity.
  - intros a x. rewrite xs_1, lcall_turn. destruct (lyap_call o p a x) as [[[[[[al be] v] ps] q] qd]|]; [|reflexivity]. cbn [Rmap angles_to]. rewrite !xs_1. reflexivity.
  - intros a x. rewrite xs_1, osc_turn. destruct (evaluate_osculating_qdot o p x a) as [[q1 q2]|]; [|reflexivity]. cbn [Rmap fst snd]. rewrite !xs_1. reflexivity.
  - intros. rewrite !xs_1. apply eta_turned.
  - intros. rewrite !xs_1. apply eta_turned.
  - intros. rewrite xs_1. cbn [qlaw_turn q_ptrb]. destruct (q_ptrb o) as [f|]; cbn [option_map Rmap].
    + unfold ptrb_turn. rewrite oe_unturn. destruct (f t x (q_etype o)); [|reflexivity]. cbn [Rmap]. rewrite v3s_1. reflexivity.
    + rewrite v3s_1. reflexivity.
  - intros. apply prop_turn.
  - intros x. apply check_turn.
  - intros x. apply check_turn.
Qed.
Lemma hist_to_turn h : hist_to phi 1 1 1 1 h = hist_turn w h.
Proof. unfold hist_to, hist_turn. rewrite !map_s1. reflexivity. Qed.
Lemma run_turn p h cv code : with_run (qlaw_turn w o) (Some (with_oe0 (problem_turn w p) (hist_turn w h))) (Some (hist_turn w h)) cv code =
  qlaw_turn w (with_run o (Some (with_oe0 p h)) (Some h) cv code).
Proof.
  assert (E : with_oe0 (problem_turn w p) (hist_turn w h) = problem_turn w (with_oe0 p h)) by (unfold with_oe0, problem_turn, hist_turn; cbn; f_equal; destruct (h_states h); reflexivity).
  rewrite E. reflexivity.
Qed.
Theorem solve_turn fuel ea er : solve fuel (qlaw_turn w o) (eta_turn w ea) (eta_turn w er) = result_turn w (solve fuel o ea er).
Proof.
  unfold solve. change (q_problem (qlaw_turn w o)) with (option_map (problem_turn w) (q_problem o)).
  destruct (q_problem o) as [p|]; [|reflexivity]. cbn [option_map].
  assert (E : init_state (problem_turn w p) = ls_to phi 1 1 1 1 (init_state p)).
  { apply init_to; cbn [problem_turn p_mass0]; rewrite ?xs_1; reflexivity. }
  rewrite E, (loop_turn fuel p ea er (init_state p)).
  destruct ea; try reflexivity; cbn [eta_turn];
  (destruct (loop fuel o p _ er (init_state p)) as [s|code cv s|e s|s]; cbn [res_to result_turn];
   try change (l_hist (ls_to phi 1 1 1 1 s)) with (hist_to phi 1 1 1 1 (l_hist s)); rewrite ?hist_to_turn; unfold finish; rewrite ?run_turn; reflexivity).
Qed.
End Solve.

(** Whole runs reflected in the reference plane. *)
From Coq Require Import Reals Lra Lia ZArith List Bool.
From Verif Require Import RMath RLib Num Base Elements Integrate Eom Convergence Lyapunov Symbolic SymKep SymMee Perturb PlotHelper Qlaw Spec NanProofs ScaleSpec DimProofs ScaleProofs SymRun TurnSpec TurnProofs MirrorSpec MirrorProofs.
Import ListNotations.
Local Open Scope R_scope.

Section Solve.
Variables (et : etype) (o : qlaw XNum).
Hypothesis B : built et o.
Notation phi := (reflect et).
Notation o' := (qlaw_reflect et o).
Notation pr := (problem_reflect et).

Lemma built_law : q_lyap o = law_for et /\ q_dqdt o = rate_for et /\ q_eom o = eom_for et /\ q_check o = check_for et /\ q_etype o = et.
Proof. destruct B as (E1 & E2 & E3 & E4 & E5). rewrite E1, E2, E3, E4, E5. destruct et; repeat split; reflexivity. Qed.
Lemma lcall_reflect p a x : lyap_call (N:=XNum) o' (pr p) a (phi x) = Rmap (lya_reflect et) (lyap_call (N:=XNum) o p a x).
Proof.
  unfold lyap_call, qlaw_reflect, problem_reflect. cbn [q_lyap q_mu q_rpmin q_m q_n q_r q_b q_k q_wp p_oeT p_woe]. destruct built_law as (-> & _). apply lya_reflected.
Qed.
Lemma osc_reflect p a x : evaluate_osculating_qdot (N:=XNum) o' (pr p) (phi x) a = evaluate_osculating_qdot (N:=XNum) o p x a.
Proof.
  assert (E : forall y, q_dqdt o' (q_mu o') a (phi y) (p_oeT (pr p)) (q_rpmin o') (q_m o') (q_n o') (q_r o') (q_b o') (q_k o') (q_wp o') (p_woe (pr p)) =
    q_dqdt o (q_mu o) a y (p_oeT p) (q_rpmin o) (q_m o) (q_n o) (q_r o) (q_b o) (q_k o) (q_wp o) (p_woe p)).
  { intros y. unfold qlaw_reflect, problem_reflect. cbn [q_dqdt q_mu q_rpmin q_m q_n q_r q_b q_k q_wp p_oeT p_woe]. destruct built_law as (_ & -> & _). apply law_for_reflect. }
  destruct x as [o0 o1 o2 o3 o4 o5]. unfold evaluate_osculating_qdot. change (q_grid o') with (q_grid o).
  destruct et; cbn [reflect]; f_equal; apply mapM_ext; intros an; exact (E (@mk6 XNum o0 o1 o2 o3 o4 an)).
Qed.
Lemma lstep_reflect p x : local_step (N:=XNum) o' (pr p) (phi x) = local_step (N:=XNum) o p x.
Proof.
  unfold local_step. change (q_sundman o') with (q_sundman o). change (q_etype o') with (q_etype o). change (q_mu o') with (q_mu o).
  change (p_t_step (pr p)) with (p_t_step p). destruct built_law as (_ & _ & _ & _ & ->). destruct et, x; reflexivity.
Qed.
Lemma eta_reflected e t x m b : eta_now (N:=XNum) (eta_reflect et e) t (phi x) m b = eta_now (N:=XNum) e t x m b.
Proof. destruct e; try reflexivity. cbn [eta_reflect eta_now]. rewrite unreflect_reflect. reflexivity. Qed.
Lemma ptrb_reflected t x k : match q_ptrb o' with Some f => f t (phi x) k | None => Ok (v3zero (N:=XNum)) end =
  Rmap normal_reflect (match q_ptrb o with Some f => f t x k | None => Ok (v3zero (N:=XNum)) end).
Proof.
  cbn [qlaw_reflect q_ptrb]. destruct (q_ptrb o) as [f|]; cbn [option_map Rmap]; [|rewrite zero_normal; reflexivity].
  unfold ptrb_reflect. rewrite unreflect_reflect. reflexivity.
Qed.

Definition ls_reflect (s : lstate XNum) : lstate XNum :=
  @mkls XNum (l_t s) (phi (l_oe s)) (l_mass s) (l_batt s) (l_nrel s) (l_nnan s) (l_duty s) (l_ton s) (l_toff s) (l_chg s)
    (option_map (fun ab : @car XNum * @car XNum => (fst ab, xopp (snd ab))) (l_ab s)) (hist_reflect et (l_hist s)).
Definition ctl_reflect (c : ctl_t XNum) : ctl_t XNum :=
  @mkctl XNum (option_map (fun ab : @car XNum * @car XNum => (fst ab, xopp (snd ab))) (c_ab c)) (c_thr c) (normal_reflect (c_u c)) (psi_signs (rows_of et) (c_psi c)) (c_q c) (c_qdot c)
    (c_etas c) (c_bounds c) (c_nnan c).
Definition cres_reflect (c : ctl_res (N:=XNum)) : ctl_res (N:=XNum) := match c with Ctl c => Ctl (ctl_reflect c) | NanBreak => NanBreak end.
Definition out_reflect (r : outcome XNum) : outcome XNum :=
  match r with Next s => Next (ls_reflect s) | Stop c v s => Stop c v (ls_reflect s) | Fail e s => Fail e (ls_reflect s) end.
Definition res_reflect (r : lres XNum) : lres XNum :=
  match r with LEnd s => LEnd (ls_reflect s) | LStop c v s => LStop c v (ls_reflect s) | LFail e s => LFail e (ls_reflect s) | LFuel s => LFuel (ls_reflect s) end.
Definition prop_reflect (r : vec6 XNum * @car XNum * @car XNum * @car XNum) : vec6 XNum * @car XNum * @car XNum * @car XNum := let '(x, t, m, d) := r in (phi x, t, m, d).

Lemma safety_reflected s : safety (N:=XNum) o' (ls_reflect s) = ls_reflect (safety (N:=XNum) o s).
Proof.
  assert (E2 : q_etype o = Keplerian -> elements_safety (N:=XNum) (phi (l_oe s)) (bound_reflect et (q_oe_min o)) (bound_reflect et (q_oe_max o)) = phi (elements_safety (N:=XNum) (l_oe s) (q_oe_min o) (q_oe_max o))).
  { destruct built_law as (_ & _ & _ & _ & E). rewrite E. intros ->. apply safety_reflect. }
  unfold safety. change (q_etype o') with (q_etype o). destruct (q_etype o); [|reflexivity]. unfold ls_reflect, hist_reflect, qlaw_reflect.
  cbn [l_oe l_t l_mass l_batt l_nrel l_nnan l_duty l_ton l_toff l_chg l_ab l_hist h_Qs h_dQdts h_times h_states h_masses h_controls h_etas h_bounds h_battery q_oe_min q_oe_max].
  rewrite E2 by reflexivity. cbv zeta. rewrite replace_last_map. reflexivity.
Qed.
Lemma plan_reflect p s : plan (N:=XNum) o' (pr p) (ls_reflect s) = plan (N:=XNum) o p s.
Proof. unfold plan, ls_reflect. cbn [l_t l_oe l_batt l_duty l_ton l_toff l_chg]. rewrite lstep_reflect. reflexivity. Qed.
Lemma thrust_reflect a al be : v3scal (N:=XNum) a (@mk3 XNum (nmul (Num:=XNum) (ncos (Num:=XNum) (xopp be)) (nsin (Num:=XNum) al)) (nmul (Num:=XNum) (ncos (Num:=XNum) (xopp be)) (ncos (Num:=XNum) al)) (nsin (Num:=XNum) (xopp be))) =
  normal_reflect (v3scal (N:=XNum) a (@mk3 XNum (nmul (Num:=XNum) (ncos (Num:=XNum) be) (nsin (Num:=XNum) al)) (nmul (Num:=XNum) (ncos (Num:=XNum) be) (ncos (Num:=XNum) al)) (nsin (Num:=XNum) be))).
Proof. rewrite <- scal_normal. change (ncos (Num:=XNum)) with (xlift cos). change (nsin (Num:=XNum)) with (xlift sin). rewrite cos_opp, sin_opp. reflexivity. Qed.
Lemma nan_opp x : nisnan (Num:=XNum) (xopp x) = nisnan (Num:=XNum) x.
Proof. destruct x; reflexivity. Qed.
Lemma control_reflected p ea er s pl a :
  control (N:=XNum) o' (pr p) (eta_reflect et ea) (eta_reflect et er) (ls_reflect s) pl a = Rmap cres_reflect (control (N:=XNum) o p ea er s pl a).
Proof.
  unfold control, ls_reflect. cbn [l_t l_oe l_mass l_batt l_nnan l_ab]. destruct (pl_duty pl).
  - rewrite lcall_reflect, rmap_bind, bind_rmap. apply bind_ext. intros [[[[[al be] v] psi] q] qd]. cbn [lya_reflect]. rewrite nan_opp.
    destruct (nisnan (Num:=XNum) al || nisnan (Num:=XNum) be)%bool.
    + change (q_nan_thr o') with (q_nan_thr o). destruct (Z.ltb (q_nan_thr o) (l_nnan s + 1)); [reflexivity|]. cbn [Rmap cres_reflect]. unfold ctl_reflect.
      cbn [c_ab c_thr c_u c_psi c_q c_qdot c_etas c_bounds c_nnan option_map fst snd]. rewrite zero_normal. do 4 f_equal. cbn. do 2 f_equal. f_equal. ring.
    + rewrite thrust_reflect, !eta_reflected.
      match goal with |- context [if ?b then bind _ _ else _] => destruct b end.
      * rewrite osc_reflect, bind_rmap. apply bind_ext. intros [q1 q2]. cbn [Rmap cres_reflect]. unfold ctl_reflect.
        cbn [c_ab c_thr c_u c_psi c_q c_qdot c_etas c_bounds c_nnan option_map fst snd].
        match goal with |- context [if ?b then 0%Z else 1%Z] => destruct b end; rewrite ?zero_normal; reflexivity.
      * reflexivity.
  - rewrite lcall_reflect, rmap_bind, bind_rmap. apply bind_ext. intros [[[[[al be] v] psi] q] qd]. cbn [lya_reflect Rmap cres_reflect]. unfold ctl_reflect.
    cbn [c_ab c_thr c_u c_psi c_q c_qdot c_etas c_bounds c_nnan option_map fst snd]. rewrite zero_normal. reflexivity.
Qed.
Lemma pert_reflect s : perturbation (N:=XNum) o' (ls_reflect s) = Rmap normal_reflect (perturbation (N:=XNum) o s).
Proof. unfold perturbation, ls_reflect. cbn [l_t l_oe]. apply (ptrb_reflected (l_t s) (l_oe s) (q_etype o)). Qed.
Lemma prop_reflected p s pl c w : propagate (N:=XNum) o' (pr p) (ls_reflect s) pl (ctl_reflect c) (normal_reflect w) = Rmap prop_reflect (propagate (N:=XNum) o p s pl c w).
Proof.
  unfold propagate, ls_reflect, ctl_reflect. cbn [l_t l_oe l_mass c_u c_psi c_thr].
  change (q_integ o') with (q_integ o). change (q_eom o') with (q_eom o). change (q_mu o') with (q_mu o). change (q_ode_tol o') with (q_ode_tol o). change (p_mdot (pr p)) with (p_mdot p).
  assert (H : forall t x, q_eom o t (phi x) (@mkparams XNum (q_mu o) (normal_reflect (c_u c)) (psi_signs (rows_of et) (c_psi c)) (normal_reflect w)) =
    Rmap (rate_reflect et) (q_eom o t x (@mkparams XNum (q_mu o) (c_u c) (c_psi c) w))).
  { intros t x. destruct built_law as (_ & _ & -> & _). apply (eom_reflect et t x (@mkparams XNum (q_mu o) (c_u c) (c_psi c) w)). }
  destruct (q_integ o).
  - rewrite (rk4_reflect et _ _ _ H), rmap_bind, bind_rmap. apply bind_ext. intros x. reflexivity.
  - rewrite (rkf45_reflect et _ _ _ H), rmap_bind, bind_rmap. apply bind_ext. intros [x h]. reflexivity.
Qed.
Lemma exit_reflect p s : exit_check (N:=XNum) o' (pr p) (ls_reflect s) = out_reflect (exit_check (N:=XNum) o p s).
Proof.
  assert (E : forall tol, q_check o' (phi (l_oe s)) (p_oeT (pr p)) (p_woe (pr p)) tol = q_check o (l_oe s) (p_oeT p) (p_woe p) tol).
  { intros tol. unfold qlaw_reflect, problem_reflect. cbn [q_check p_oeT p_woe]. destruct built_law as (_ & _ & _ & -> & _). apply check_reflect. }
  unfold exit_check. change (l_oe (ls_reflect s)) with (phi (l_oe s)). rewrite !E. change (q_tol o') with (q_tol o). change (q_tol_relaxed o') with (q_tol_relaxed o).
  destruct (q_check o (l_oe s) (p_oeT p) (p_woe p) (q_tol o)) as [[|]|]; try reflexivity.
  destruct (q_check o (l_oe s) (p_oeT p) (p_woe p) (q_tol_relaxed o)) as [rel|]; [|reflexivity]. cbv zeta.
  change (q_exit_relaxed o') with (q_exit_relaxed o). change (p_mass_min (pr p)) with (p_mass_min p). change (l_nrel (ls_reflect s)) with (l_nrel s).
  generalize (if rel then (l_nrel s + 1)%Z else l_nrel s). intros k.
  change (l_nrel (with_nrel (ls_reflect s) k)) with k. change (l_nrel (with_nrel s k)) with k.
  change (l_mass (with_nrel (ls_reflect s) k)) with (l_mass s). change (l_mass (with_nrel s k)) with (l_mass s).
  destruct (rel && _)%bool; [reflexivity|]. match goal with |- context [if ?b then _ else _] => destruct b end; reflexivity.
Qed.
Lemma push3_reflect h t x m : push3 (N:=XNum) (hist_reflect et h) t (phi x) m = hist_reflect et (push3 (N:=XNum) h t x m).
Proof. unfold push3, hist_reflect. cbn [h_Qs h_dQdts h_times h_states h_masses h_controls h_etas h_bounds h_battery]. rewrite !map_app. reflexivity. Qed.
Lemma push6_reflect h al be c b : push6 (N:=XNum) (hist_reflect et h) al (xopp be) (ctl_reflect c) b = hist_reflect et (push6 (N:=XNum) h al be c b).
Proof. unfold push6, hist_reflect, ctl_reflect. cbn [h_Qs h_dQdts h_times h_states h_masses h_controls h_etas h_bounds h_battery c_q c_qdot c_thr c_etas c_bounds]. rewrite !map_app. reflexivity. Qed.
Lemma step_reflect p ea er s0 : step (N:=XNum) o' (pr p) (eta_reflect et ea) (eta_reflect et er) (ls_reflect s0) = out_reflect (step (N:=XNum) o p ea er s0).
Proof.
  unfold step. rewrite safety_reflected. set (s := safety o s0). clearbody s. rewrite plan_reflect. destruct (plan o p s) as [pl|e]; [|reflexivity].
  change (l_mass (ls_reflect s)) with (l_mass s). change (accel_thrust (N:=XNum) (pr p)) with (accel_thrust (N:=XNum) p). cbv zeta.
  rewrite control_reflected. destruct (control o p ea er s pl _) as [[c|]|e]; [|reflexivity|reflexivity]. cbn [Rmap cres_reflect].
  rewrite pert_reflect. destruct (perturbation o s) as [w|e]; [|reflexivity]. cbn [Rmap].
  rewrite prop_reflected. destruct (propagate o p s pl c w) as [[[[x t] m] dtb]|e]; [|reflexivity]. cbn [Rmap prop_reflect].
  change (l_batt (ls_reflect s)) with (l_batt s). change (battery_update (N:=XNum) (pr p)) with (battery_update (N:=XNum) p).
  destruct (battery_update p (l_batt s) dtb (pl_duty pl) (pl_chg pl)) as [b' chg'].
  change (l_hist (ls_reflect s)) with (hist_reflect et (l_hist s)). rewrite push3_reflect. change (c_ab (ctl_reflect c)) with (option_map (fun ab : @car XNum * @car XNum => (fst ab, xopp (snd ab))) (c_ab c)).
  destruct (c_ab c) as [[al be]|] eqn:CA; [|reflexivity]. cbn [option_map fst snd].
  rewrite push6_reflect. rewrite <- exit_reflect. reflexivity.
Qed.
Lemma loop_reflect p ea er fuel : forall s, loop (N:=XNum) fuel o' (pr p) (eta_reflect et ea) (eta_reflect et er) (ls_reflect s) = res_reflect (loop (N:=XNum) fuel o p ea er s).
Proof.
  induction fuel as [|n IH]; intros s; cbn [loop]; change (guard (N:=XNum) (pr p) (ls_reflect s)) with (guard (N:=XNum) p s); destruct (guard p s); try reflexivity.
  rewrite step_reflect. destruct (step o p ea er s); try reflexivity. cbn [out_reflect]. apply IH.
Qed.
Lemma run_reflect p h cv code : with_run o' (Some (with_oe0 (pr p) (hist_reflect et h))) (Some (hist_reflect et h)) cv code =
  qlaw_reflect et (with_run o (Some (with_oe0 p h)) (Some h) cv code).
Proof.
  assert (E : with_oe0 (pr p) (hist_reflect et h) = pr (with_oe0 p h)) by (unfold with_oe0, problem_reflect, hist_reflect; cbn; f_equal; destruct (h_states h); reflexivity).
  rewrite E. reflexivity.
Qed.
Theorem solve_reflect fuel ea er : solve (N:=XNum) fuel o' (eta_reflect et ea) (eta_reflect et er) = result_reflect et (solve (N:=XNum) fuel o ea er).
Proof.
  unfold solve. change (q_problem o') with (option_map pr (q_problem o)).
  destruct (q_problem o) as [p|]; [|reflexivity]. cbn [option_map].
  assert (E : init_state (N:=XNum) (pr p) = ls_reflect (init_state (N:=XNum) p)) by reflexivity.
  rewrite E, (loop_reflect p ea er fuel).
  destruct ea; try reflexivity; cbn [eta_reflect];
  (destruct (loop fuel o p _ er (init_state p)) as [s|code cv s|e s|s]; cbn [res_reflect result_reflect];
   try change (l_hist (ls_reflect s)) with (hist_reflect et (l_hist s)); unfold finish; rewrite ?run_reflect; reflexivity).
Qed.
End Solve.

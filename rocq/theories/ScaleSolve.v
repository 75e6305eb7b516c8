(** Whole runs in other units. *)
From Coq Require Import Reals Lra Lia ZArith List Bool.
From Verif Require Import RMath RLib Num Base Elements Integrate Eom Convergence Lyapunov Symbolic SymKep SymMee Perturb PlotHelper Qlaw Spec NanProofs ScaleSpec DimProofs ScaleProofs SymRun.
Import ListNotations.
Local Open Scope R_scope.

Section Solve.
Variable u : units.
Hypothesis Hu : positive u.
Notation L := (u_len u).
Notation T := (u_time u).
Notation M := (u_mass u).
Let PL : 0 < L. Proof. exact (HL u Hu). Qed.
Let PT : 0 < T. Proof. exact (HT u Hu). Qed.
Let PM : 0 < M. Proof. exact (HM u Hu). Qed.
Let PA : 0 < u_acc u. Proof. exact (pos_acc u Hu). Qed.

Lemma inv_cancel c x : 0 < c -> xscale (/ c) (xscale c x) = x.
Proof. intros H. rewrite xs_comp. replace (/ c * c) with 1 by (field; lra). apply xs_1. Qed.
Lemma oe_back x : oe_in (back u) (oe_in u x) = x.
Proof. destruct x. cbn [oe_in back u_len]. rewrite inv_cancel by exact PL. reflexivity. Qed.
Lemma clamp_scaled c lo x hi : 0 < c -> clamp1 (N:=XNum) (xscale c lo) (xscale c x) (xscale c hi) = xscale c (clamp1 (N:=XNum) lo x hi).
Proof.
  intros H. unfold clamp1, pymin, pymax. change (nltb (Num:=XNum)) with xltb. rewrite xs_ltb by exact H.
  destruct (xltb lo x); rewrite xs_ltb by exact H; match goal with |- context [if ?b then _ else _] => destruct b end; reflexivity.
Qed.
Lemma safety_scaled x lo hi : elements_safety (N:=XNum) (oe_in u x) (slow_in u lo) (slow_in u hi) = oe_in u (elements_safety (N:=XNum) x lo hi).
Proof. destruct x, lo, hi. cbn [oe_in slow_in elements_safety]. rewrite clamp_scaled by exact PL. reflexivity. Qed.
Lemma step_scaled o p x : local_step (N:=XNum) (qlaw_in u o) (problem_in u (q_sundman o) p) (oe_in u x) = Rmap (xscale T) (local_step (N:=XNum) o p x).
Proof.
  unfold local_step. change (q_sundman (qlaw_in u o)) with (q_sundman o). change (q_etype (qlaw_in u o)) with (q_etype o).
  unfold problem_in. cbn [p_t_step]. destruct (q_sundman o) eqn:S; [|reflexivity].
  assert (P : xsqrt (xdiv (cube (N:=XNum) (xscale L (v6_0 x))) (q_mu (qlaw_in u o))) = xscale T (xsqrt (xdiv (cube (N:=XNum) (v6_0 x)) (q_mu o)))).
  { unfold cube. cbn [qlaw_in q_mu]. xnum. rewrite !xs_mul by (try apply Rmult_lt_0_compat; assumption).
    rewrite xs_div by (try (apply Rdiv_lt_0_compat; repeat apply Rmult_lt_0_compat); repeat apply Rmult_lt_0_compat; assumption).
    apply sqrt_scaled; [exact PT|]. field. lra. }
  destruct x as [a e i ra om ta]. cbn [oe_in v6_0 v6_1 v6_2 v6_5] in *.
  change (mee2ea (N:=XNum) (@mk6 XNum (xscale L a) e i ra om ta)) with (mee2ea (N:=XNum) (@mk6 XNum a e i ra om ta)).
  match goal with |- bind ?b _ = _ => set (B := b) end. rewrite bind_rmap. apply bind_ext. intros [ecc E0]. cbv zeta.
  change (nsqrt (Num:=XNum)) with xsqrt. change (ndiv (Num:=XNum)) with xdiv. change (nmul (Num:=XNum)) with xmul. rewrite P, !(pr T) by exact PT.
  match goal with |- context [nltb ?a ?b] => destruct (nltb a b) end; reflexivity.
Qed.
Lemma eta_scaled e t x m b : eta_now (N:=XNum) (eta_in u e) (xscale T t) (oe_in u x) (xscale M m) b = eta_now (N:=XNum) e t x m b.
Proof. destruct e; try reflexivity. cbn [eta_in eta_now]. rewrite !inv_cancel, oe_back by assumption. reflexivity. Qed.
Lemma check_all_scaled w d tol : check_all (N:=XNum) w (slow_in u d) (slow_in u tol) = check_all (N:=XNum) w d tol.
Proof.
  destruct w, d, tol. cbn [slow_in check_all]. unfold check_entry at 1 6. change (nleb (Num:=XNum)) with xleb. rewrite xs_leb by exact PL. reflexivity.
Qed.
Lemma dist_scaled x y : nabs (Num:=XNum) (nsub (Num:=XNum) (xscale L x) (xscale L y)) = xscale L (nabs (Num:=XNum) (nsub (Num:=XNum) x y)).
Proof. change (nabs (Num:=XNum)) with xabs. change (nsub (Num:=XNum)) with xsub. rewrite xs_sub, xs_abs by exact PL. reflexivity. Qed.
Lemma kep_check_scaled x t w tol : check_convergence_keplerian (N:=XNum) (oe_in u x) (target_in u t) w (slow_in u tol) = check_convergence_keplerian (N:=XNum) x t w tol.
Proof.
  destruct t as [|t0 [|t1 [|t2 [|t3 [|t4 t]]]]]; try reflexivity. destruct x as [a e i ra om ta]. cbn [target_in check_convergence_keplerian oe_in]. f_equal.
  rewrite dist_scaled. match goal with |- check_all _ (mk5 (xscale _ ?a) ?b ?c ?d ?e) _ = _ =>
   change (check_all (N:=XNum) w (slow_in u (@mk5 XNum a b c d e)) (slow_in u tol) = check_all (N:=XNum) w (@mk5 XNum a b c d e) tol) end. apply check_all_scaled.
Qed.
Lemma mee_check_scaled x t w tol : check_convergence_mee (N:=XNum) (oe_in u x) (target_in u t) w (slow_in u tol) = check_convergence_mee (N:=XNum) x t w tol.
Proof.
  destruct t as [|t0 [|t1 [|t2 [|t3 [|t4 t]]]]]; try reflexivity. destruct x as [a e i ra om ta]. cbn [target_in check_convergence_mee oe_in]. f_equal.
  rewrite dist_scaled. match goal with |- check_all _ (mk5 (xscale _ ?a) ?b ?c ?d ?e) _ = _ =>
   change (check_all (N:=XNum) w (slow_in u (@mk5 XNum a b c d e)) (slow_in u tol) = check_all (N:=XNum) w (@mk5 XNum a b c d e) tol) end. apply check_all_scaled.
Qed.
Lemma maxl_scaled c l : 0 < c -> pymaxl (N:=XNum) (map (xscale c) l) = Rmap (xscale c) (pymaxl (N:=XNum) l).
Proof.
  intros H. destruct l as [|x l]; [reflexivity|]. cbn [map pymaxl Rmap]. f_equal. revert x. induction l as [|y l IH]; intros x; [reflexivity|].
  cbn [map fold_left]. rewrite <- IH. f_equal. unfold pymax. change (nltb (Num:=XNum)) with xltb. rewrite xs_ltb by exact H. destruct (xltb x y); reflexivity.
Qed.
Lemma minl_scaled c l : 0 < c -> pyminl (N:=XNum) (map (xscale c) l) = Rmap (xscale c) (pyminl (N:=XNum) l).
Proof.
  intros H. destruct l as [|x l]; [reflexivity|]. cbn [map pyminl Rmap]. f_equal. revert x. induction l as [|y l IH]; intros x; [reflexivity|].
  cbn [map fold_left]. rewrite <- IH. f_equal. unfold pymin. change (nltb (Num:=XNum)) with xltb. rewrite xs_ltb by exact H. destruct (xltb y x); reflexivity.
Qed.
Lemma mapM_rmap {A B C} (f : A -> Res B) (g : A -> Res C) (h : B -> C) l : (forall x, g x = Rmap h (f x)) -> mapM g l = Rmap (map h) (mapM f l).
Proof.
  intros E. induction l as [|x l IH]; [reflexivity|]. cbn [mapM]. rewrite E, rmap_bind, bind_rmap. apply bind_ext. intros y. rewrite IH, rmap_bind, bind_rmap. reflexivity.
Qed.
Lemma osc_scaled o p et a x : built et o ->
  evaluate_osculating_qdot (N:=XNum) (qlaw_in u o) (problem_in u (q_sundman o) p) (oe_in u x) (xscale (u_acc u) a) =
  Rmap (fun q : ereal * ereal => (xscale T (fst q), xscale T (snd q))) (evaluate_osculating_qdot (N:=XNum) o p x a).
Proof.
  intros (E1 & E2 & E3 & E4 & E5). destruct x as [o0 o1 o2 o3 o4 o5]. unfold evaluate_osculating_qdot. cbn [oe_in]. change (q_grid (qlaw_in u o)) with (q_grid o).
  set (pts := tl _). rewrite (mapM_rmap (fun an => q_dqdt o (q_mu o) a (@mk6 XNum o0 o1 o2 o3 o4 an) (p_oeT p) (q_rpmin o) (q_m o) (q_n o) (q_r o) (q_b o) (q_k o) (q_wp o) (p_woe p)) _ (xscale T)).
  - rewrite rmap_bind, bind_rmap. apply bind_ext. intros qs. rewrite maxl_scaled, minl_scaled by exact PT. rewrite rmap_bind, bind_rmap. apply bind_ext. intros q1.
    rewrite rmap_bind, bind_rmap. reflexivity.
  - intros an. unfold qlaw_in, problem_in. cbn [q_dqdt q_mu q_rpmin q_m q_n q_r q_b q_k q_wp p_oeT p_woe].
    change (@mk6 XNum (xscale L o0) o1 o2 o3 o4 an) with (oe_in u (@mk6 XNum o0 o1 o2 o3 o4 an)). rewrite E4.
    destruct et; [apply (rate_scaled u Hu SymKep.psi SymKep.q), kep_dims|apply (rate_scaled u Hu SymMee.psi SymMee.q), mee_dims].
Qed.
Lemma law_call_scaled o p et a x : built et o ->
  lyap_call (N:=XNum) (qlaw_in u o) (problem_in u (q_sundman o) p) (xscale (u_acc u) a) (oe_in u x) = Rmap (angles_to (psi_in u) (T * T) T) (lyap_call (N:=XNum) o p a x).
Proof.
  intros (E1 & E2 & E3 & E4 & E5). unfold lyap_call, qlaw_in, problem_in. cbn [q_lyap q_mu q_rpmin q_m q_n q_r q_b q_k q_wp p_oeT p_woe].
  apply (lyap_scaled u Hu (q_lyap o) (q_lyap o)); [|reflexivity]. rewrite E3.
  destruct et; [apply (law_scaled u Hu SymKep.psi SymKep.q), kep_dims|apply (law_scaled u Hu SymMee.psi SymMee.q), mee_dims].
Qed.
Lemma rk4_step_scaled o et t h x v psi w : built et o ->
  rk4 (N:=XNum) (q_eom o) (xscale T t) (xscale T h) (oe_in u x) (@mkparams XNum (xscale (L * L * L / (T * T)) (q_mu o)) (v3s (u_acc u) v) (psi_in u psi) (v3s (u_acc u) w)) =
  Rmap (oe_in u) (rk4 (N:=XNum) (q_eom o) t h x (@mkparams XNum (q_mu o) v psi w)).
Proof.
  intros (E1 & E2 & E3 & E4 & E5). rewrite E2.
  destruct et; [apply (rk4_scaled u Hu (@eom_kep_gauss XNum) t (xscale T t) h x (@mkparams XNum (q_mu o) v psi w)); intros; apply (kep_eom_scaled u Hu)
               |apply (rk4_scaled u Hu (@eom_mee_with_a_gauss XNum) t (xscale T t) h x (@mkparams XNum (q_mu o) v psi w)); intros; apply (mee_eom_scaled u Hu)].
Qed.
Lemma ptrb_scaled o t x : match q_ptrb (qlaw_in u o) with Some f => f (xscale T t) (oe_in u x) (q_etype o) | None => Ok v3zero end =
  Rmap (v3s (u_acc u)) (match q_ptrb o with Some f => f t x (q_etype o) | None => Ok v3zero end).
Proof.
  cbn [qlaw_in q_ptrb]. destruct (q_ptrb o) as [f|]; cbn [option_map Rmap].
  - unfold ptrb_in. rewrite inv_cancel, oe_back by exact PT. destruct (f t x (q_etype o)); reflexivity.
  - rewrite zero_to. reflexivity.
Qed.
Lemma loop_scaled fuel o p et ea er s : built et o -> q_integ o = RK4 ->
  loop fuel (qlaw_in u o) (problem_in u (q_sundman o) p) (eta_in u ea) (eta_in u er) (ls_to (oe_in u) (T * T) T T M s) = res_to (oe_in u) (T * T) T T M (loop fuel o p ea er s).
Proof.
  intros B I. apply (loop_sim o (qlaw_in u o) p (problem_in u (q_sundman o) p) ea (eta_in u ea) er (eta_in u er) (oe_in u) (psi_in u) (T * T) T (u_acc u) T M); try assumption; try reflexivity.
  - intros _ x. apply safety_scaled.
  - intros x. apply step_scaled.
  - intros a x. eapply law_call_scaled. exact B.
  - intros a x. eapply osc_scaled. exact B.
  - intros. apply eta_scaled.
  - intros. apply eta_scaled.
  - intros. apply ptrb_scaled.
  - intros. apply propagate_sim; try assumption; try reflexivity. intros. eapply rk4_step_scaled. exact B.
  - intros x. destruct B as (E1 & E2 & E3 & E4 & E5). cbn [qlaw_in q_check q_tol problem_in p_oeT p_woe]. rewrite E5. destruct et; [apply kep_check_scaled|apply mee_check_scaled].
  - intros x. destruct B as (E1 & E2 & E3 & E4 & E5). cbn [qlaw_in q_check q_tol_relaxed problem_in p_oeT p_woe]. rewrite E5. destruct et; [apply kep_check_scaled|apply mee_check_scaled].
Qed.
Lemma oe0_scaled sun p h : with_oe0 (problem_in u sun p) (hist_in u h) = problem_in u sun (with_oe0 p h).
Proof.
  unfold with_oe0, problem_in, hist_in. cbn [p_oe0 p_oeT p_mass0 p_tmax p_mdot p_tf_max p_t_step p_mass_min p_woe p_duty_on p_duty_off p_batt0 p_cap_lo p_cap_hi p_charge p_discharge p_full h_states].
  f_equal. destruct (h_states h); reflexivity.
Qed.
Lemma run_scaled o p h cv code : with_run (qlaw_in u o) (Some (with_oe0 (problem_in u (q_sundman o) p) (hist_in u h))) (Some (hist_in u h)) cv code =
  qlaw_in u (with_run o (Some (with_oe0 p h)) (Some h) cv code).
Proof. rewrite oe0_scaled. reflexivity. Qed.
Theorem solve_scaled fuel o et ea er : built et o -> q_integ o = RK4 ->
  solve fuel (qlaw_in u o) (eta_in u ea) (eta_in u er) = result_in u (solve fuel o ea er).
Proof.
  intros B I. unfold solve. change (q_problem (qlaw_in u o)) with (option_map (problem_in u (q_sundman o)) (q_problem o)).
  destruct (q_problem o) as [p|]; [|reflexivity]. cbn [option_map].
  assert (E : init_state (problem_in u (q_sundman o) p) = ls_to (oe_in u) (T * T) T T M (init_state p)) by (apply init_to; reflexivity).
  rewrite E, (loop_scaled fuel o p et ea er (init_state p) B I).
  assert (X : match eta_in u ea with EtaOther => Raises ValueError (qlaw_in u o) | _ => match res_to (oe_in u) (T * T) T T M (loop fuel o p ea er (init_state p)) with
          | LEnd s => Returns (finish (qlaw_in u o) (problem_in u (q_sundman o) p) (l_hist s) (q_converge (qlaw_in u o)) (q_exitcode (qlaw_in u o)))
          | LStop code conv s => Returns (finish (qlaw_in u o) (problem_in u (q_sundman o) p) (l_hist s) (conv || q_converge (qlaw_in u o)) code)
          | LFail e s => Raises e (with_run (qlaw_in u o) (Some (with_oe0 (problem_in u (q_sundman o) p) (l_hist s))) (Some (l_hist s)) (q_converge (qlaw_in u o)) (q_exitcode (qlaw_in u o)))
          | LFuel _ => Running end end =
   result_in u (match ea with EtaOther => Raises ValueError o | _ => match loop fuel o p ea er (init_state p) with
          | LEnd s => Returns (finish o p (l_hist s) (q_converge o) (q_exitcode o))
          | LStop code conv s => Returns (finish o p (l_hist s) (conv || q_converge o) code)
          | LFail e s => Raises e (with_run o (Some (with_oe0 p (l_hist s))) (Some (l_hist s)) (q_converge o) (q_exitcode o))
          | LFuel _ => Running end end)); [|destruct ea; exact X].
  destruct ea; try reflexivity; cbn [eta_in];
  (destruct (loop fuel o p _ er (init_state p)) as [s|code cv s|e s|s]; cbn [res_to result_in];
   try change (l_hist (ls_to (oe_in u) (T * T) T T M s)) with (hist_in u (l_hist s)); unfold finish; rewrite ?run_scaled; reflexivity).
Qed.
End Solve.

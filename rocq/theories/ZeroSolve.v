(** Runs whose targets differ only where there is no weight (C91). *)
From Coq Require Import Reals Lra Lia ZArith List Bool.
From Verif Require Import RMath RLib Num Base Elements Integrate Eom Convergence Lyapunov Symbolic SymKep SymMee Perturb PlotHelper Qlaw Spec NanProofs Trace CutSpec CutProofs ZeroSpec ZeroProofs.
Import ListNotations.
Local Open Scope R_scope.

Lemma mapM_same {A B} (f g : A -> Res B) l : (forall x, f x = g x) -> mapM f l = mapM g l.
Proof. intros E. induction l as [|x l IH]; [reflexivity|]. cbn [mapM]. rewrite E, IH. reflexivity. Qed.

Section Zero.
Variables (et : etype) (o : qlaw XNum) (p : problem XNum) (ea er : eta_arg XNum) (T' : list (@car XNum)).
Hypothesis B : built et o.
Hypothesis D : same_demand (p_woe p) (p_oeT p) T'.
Notation o' := (qlaw_for T' o).
Notation p' := (problem_for T' p).
Definition clear (z : vec6 XNum) : Prop := et = Keplerian -> clear_of (p_oeT p) T' z.

Lemma law_z acc z : clear z ->
  q_lyap o (q_mu o) acc z T' (q_rpmin o) (q_m o) (q_n o) (q_r o) (q_b o) (q_k o) (q_wp o) (p_woe p) =
  q_lyap o (q_mu o) acc z (p_oeT p) (q_rpmin o) (q_m o) (q_n o) (q_r o) (q_b o) (q_k o) (q_wp o) (p_woe p) /\
  q_dqdt o (q_mu o) acc z T' (q_rpmin o) (q_m o) (q_n o) (q_r o) (q_b o) (q_k o) (q_wp o) (p_woe p) =
  q_dqdt o (q_mu o) acc z (p_oeT p) (q_rpmin o) (q_m o) (q_n o) (q_r o) (q_b o) (q_k o) (q_wp o) (p_woe p).
Proof.
  intros C. destruct B as (_ & _ & -> & -> & _). unfold clear in C. destruct D as (a & t1 & t2 & t3 & t4 & t1' & t2' & t3' & t4' & E & E' & M1 & M2 & M3 & M4).
  rewrite E, E' in *. unfold clear_of in C. cbn [nth] in C.
  destruct et; exact (target_laws _ _ _ _ _ _ _ _ _ _ _ _ _ _ _ _ _ _ _ _ _ M1 M2 M3 M4 C).
Qed.
Lemma clear_turn z l : clear z -> clear (let 'mk6 o0 o1 o2 o3 o4 _ := z in @mk6 XNum o0 o1 o2 o3 o4 l).
Proof. destruct z. intros C X. exact (C X). Qed.
Lemma call_z acc z : clear z -> lyap_call o' p' acc z = lyap_call o p acc z.
Proof.
  intros C. unfold lyap_call, lyapunov_control_angles. change (q_lyap o') with (q_lyap o). change (p_oeT p') with T'. change (p_woe p') with (p_woe p).
  change (q_mu o') with (q_mu o). change (q_rpmin o') with (q_rpmin o). change (q_m o') with (q_m o). change (q_n o') with (q_n o). change (q_r o') with (q_r o).
  change (q_b o') with (q_b o). change (q_k o') with (q_k o). change (q_wp o') with (q_wp o). rewrite (proj1 (law_z acc z C)). reflexivity.
Qed.
Lemma osc_z acc z : clear z -> evaluate_osculating_qdot o' p' z acc = evaluate_osculating_qdot o p z acc.
Proof.
  intros C. pose proof (clear_turn z) as K. destruct z as [z0 z1 z2 z3 z4 z5]. unfold evaluate_osculating_qdot. change (q_grid o') with (q_grid o). set (pts := tl _).
  rewrite (mapM_same _ (fun an => q_dqdt o (q_mu o) acc (@mk6 XNum z0 z1 z2 z3 z4 an) (p_oeT p) (q_rpmin o) (q_m o) (q_n o) (q_r o) (q_b o) (q_k o) (q_wp o) (p_woe p)) pts); [reflexivity|].
  intros an. exact (proj2 (law_z acc _ (K an C))).
Qed.
Lemma control_z s pl acc : clear (l_oe s) -> control o' p' ea er s pl acc = control o p ea er s pl acc.
Proof. intros C. unfold control. rewrite (call_z acc _ C), (osc_z acc _ C). reflexivity. Qed.
Lemma check_z z tol : q_check o z T' (p_woe p) tol = q_check o z (p_oeT p) (p_woe p) tol.
Proof.
  destruct B as (_ & _ & _ & _ & ->). destruct D as (a & t1 & t2 & t3 & t4 & t1' & t2' & t3' & t4' & E & E' & M1 & M2 & M3 & M4).
  assert (K : forall w t t' t5 (F : ereal -> ereal), may_change w t t' -> check_entry (N:=XNum) w (F t') t5 = check_entry (N:=XNum) w (F t) t5).
  { intros w t t' t5 F [->|(-> & _)]; [reflexivity|]. unfold check_entry. change (neqb (Num:=XNum) (Fin 0) (nofZ (Num:=XNum) 0)) with (Reqb 0 0). rewrite (proj2 (Reqb_true 0 0)) by reflexivity. reflexivity. }
  rewrite E, E'. destruct z as [z0 z1 z2 z3 z4 z5], (p_woe p) as [w0 w1 w2 w3 w4], tol as [s0 s1 s2 s3 s4]. cbn [v5_1 v5_2 v5_3 v5_4] in *.
  destruct et; [unfold check_convergence_keplerian|unfold check_convergence_mee]; cbn [check_all];
  rewrite (K w1 t1 t1' s1 (fun t => nabs (Num:=XNum) (nsub (Num:=XNum) t z1)) M1), (K w2 t2 t2' s2 (fun t => nabs (Num:=XNum) (nsub (Num:=XNum) t z2)) M2).
  - rewrite (K w3 t3 t3' s3 (fun t => nabs (Num:=XNum) (nacos (Num:=XNum) (ncos (Num:=XNum) (nsub (Num:=XNum) t z3)))) M3),
      (K w4 t4 t4' s4 (fun t => nabs (Num:=XNum) (nacos (Num:=XNum) (ncos (Num:=XNum) (nsub (Num:=XNum) t z4)))) M4). reflexivity.
  - rewrite (K w3 t3 t3' s3 (fun t => nabs (Num:=XNum) (nsub (Num:=XNum) t z3)) M3), (K w4 t4 t4' s4 (fun t => nabs (Num:=XNum) (nsub (Num:=XNum) t z4)) M4). reflexivity.
Qed.
Lemma exit_z s : exit_check o' p' s = exit_check o p s.
Proof. unfold exit_check. change (q_check o') with (q_check o). change (p_oeT p') with T'. change (p_woe p') with (p_woe p). change (q_tol o') with (q_tol o).
  change (q_tol_relaxed o') with (q_tol_relaxed o). rewrite !check_z. reflexivity. Qed.
Lemma step_z s : clear (guarded o (l_oe s)) -> step o' p' ea er s = step o p ea er s.
Proof.
  intros C. unfold step. change (safety o' s) with (safety o s). change (plan o' p' (safety o s)) with (plan o p (safety o s)).
  rewrite <- (guarded_oe o s) in C. destruct (plan o p (safety o s)) as [pl|e]; [|reflexivity].
  change (accel_thrust p' (pl_dt pl) (l_mass (safety o s))) with (accel_thrust p (pl_dt pl) (l_mass (safety o s))). rewrite (control_z _ pl _ C).
  destruct (control o p ea er (safety o s) pl _) as [[c|]|e]; [|reflexivity|reflexivity].
  change (perturbation o' (safety o s)) with (perturbation o (safety o s)). destruct (perturbation o (safety o s)) as [pt|e]; [|reflexivity].
  change (propagate o' p' (safety o s) pl c pt) with (propagate o p (safety o s) pl c pt).
  destruct (propagate o p (safety o s) pl c pt) as [[[[oe1 t1] m1] dtb]|e]; [|reflexivity].
  change (battery_update p' (l_batt (safety o s)) dtb (pl_duty pl) (pl_chg pl)) with (battery_update p (l_batt (safety o s)) dtb (pl_duty pl) (pl_chg pl)).
  destruct (battery_update p _ _ _ _) as [b1 c1]. destruct (c_ab c) as [[al be]|]; [|reflexivity]. apply exit_z.
Qed.
Lemma used_in s g h : tidy s -> iter o p ea er s g -> begins o (l_hist (post g)) h -> In (guarded o (l_oe s)) (h_states h).
Proof.
  intros [i H] I (_ & _ & _ & _ & _ & _ & _ & _ & i' & z & z' & r & S1 & S2 & _). unfold post in S1. cbn [l_hist push6 push3 h_states] in S1.
  rewrite (it_s _ _ _ _ _ _ I), (tidy_safe o s i H) in S1. apply app_inj_tail in S1. destruct S1 as [<- _]. rewrite S2. apply in_or_app. left. apply in_or_app. right. left. reflexivity.
Qed.
(** every state at which a finished run has asked the law is recorded *)
Lemma used fuel s sf : tidy s -> guard p s = true -> ended (loop (S fuel) o p ea er s) sf -> In (guarded o (l_oe s)) (h_states (l_hist sf)).
Proof.
  intros Ht Hg E. unfold ended in E. cbn [loop] in E. rewrite Hg in E.
  pose proof (step_cases o p ea er s) as C. destruct (step o p ea er s) as [s1|c1 v1 s1|e s1].
  - inversion C as [g I X| | |]. destruct (exit_next_hist o p (post g) s1 X) as [k ->]. apply (used_in s g _ Ht I).
    change (l_hist (post g)) with (l_hist (with_nrel (post g) k)). apply (mono o p ea er fuel); [exact (post_tidy o p ea er s g Ht I)|exact E].
  - assert (sf = s1) by (destruct E as [E|(c & v & E)]; [discriminate|injection E as _ _ <-; reflexivity]). subst sf.
    inversion C as [g I X|pl H1 H2 X| |].
    + destruct (exit_stop_hist o p _ _ _ _ X) as [X1 _]. rewrite X1. apply (used_in s g _ Ht I). apply begins_refl. exact (post_tidy o p ea er s g Ht I).
    + destruct Ht as [i Hi]. rewrite (tidy_safe o s i Hi). apply in_or_app. right. left. reflexivity.
  - destruct E as [E|(c & v & E)]; discriminate.
Qed.
Lemma loop_z fuel : forall s sf, tidy s -> ended (loop fuel o p ea er s) sf -> (forall z, In z (h_states (l_hist sf)) -> clear z) ->
  loop fuel o' p' ea er s = loop fuel o p ea er s.
Proof.
  induction fuel as [|n IH]; intros s sf Ht E C; [reflexivity|]. destruct (guard p s) eqn:G.
  - pose proof (C _ (used n s sf Ht G E)) as Cs. unfold ended in E. cbn [loop] in E |- *. change (guard p' s) with (guard p s). rewrite G in E |- *. rewrite (step_z s Cs).
    pose proof (step_cases o p ea er s) as K. destruct (step o p ea er s) as [s1|c1 v1 s1|e s1]; [|reflexivity|reflexivity].
    inversion K as [g I X| | |]. destruct (exit_next_hist o p (post g) s1 X) as [k ->]. apply (IH _ sf); [exact (post_tidy o p ea er s g Ht I)|exact E|exact C].
  - cbn [loop]. change (guard p' s) with (guard p s). rewrite G. reflexivity.
Qed.
Lemma loop_all fuel : (forall z, clear z) -> forall s, loop fuel o' p' ea er s = loop fuel o p ea er s.
Proof.
  intros C. induction fuel as [|n IH]; intros s; cbn [loop]; change (guard p' s) with (guard p s); [reflexivity|]. destruct (guard p s); [|reflexivity].
  rewrite (step_z s (C _)). destruct (step o p ea er s); [apply IH|reflexivity|reflexivity].
Qed.
Lemma solve_of fuel : q_problem o = Some p -> loop fuel o' p' ea er (init_state p) = loop fuel o p ea er (init_state p) ->
  solve fuel o' ea er = result_for T' (solve fuel o ea er).
Proof.
  intros P E. unfold solve. change (q_problem o') with (option_map (problem_for T') (q_problem o)). rewrite P. cbn [option_map].
  change (init_state p') with (init_state p). rewrite E. destruct ea; cbn [result_for]; try reflexivity;
  destruct (loop fuel o p _ er (init_state p)); reflexivity.
Qed.
End Zero.

Lemma C91_mee_lem (o : qlaw XNum) p ea er T' fuel : built MeeWithA o -> q_problem o = Some p -> same_demand (p_woe p) (p_oeT p) T' ->
  solve fuel (qlaw_for T' o) ea er = result_for T' (solve fuel o ea er).
Proof. intros B P D. apply (solve_of o p ea er T' fuel P). apply (loop_all MeeWithA o p ea er T' B D). intros z X. discriminate X. Qed.
Lemma C91_kep_lem (o : qlaw XNum) p ea er T' fuel : built Keplerian o -> q_problem o = Some p -> same_demand (p_woe p) (p_oeT p) T' ->
  nth 3 T' NaN = nth 3 (p_oeT p) NaN -> nth 4 T' NaN = nth 4 (p_oeT p) NaN ->
  solve fuel (qlaw_for T' o) ea er = result_for T' (solve fuel o ea er).
Proof.
  intros B P D E3 E4. apply (solve_of o p ea er T' fuel P). apply (loop_all Keplerian o p ea er T' B D). intros z _. split; left; symmetry; assumption.
Qed.
Lemma C91_angles_lem (o : qlaw XNum) p ea er T' fuel o1 h : built Keplerian o -> same_demand (p_woe p) (p_oeT p) T' -> ran fuel o ea er p o1 h ->
  (forall z, In z (h_states h) -> clear_of (p_oeT p) T' z) -> solve fuel (qlaw_for T' o) ea er = Returns (qlaw_for T' o1).
Proof.
  intros B D R C. pose proof R as (R1 & R2 & _). destruct (ran_ended ea er o p fuel o1 h R) as (s & E & ->).
  rewrite (solve_of o p ea er T' fuel R2), R1; [reflexivity|]. apply (loop_z Keplerian o p ea er T' B D fuel (init_state p) s (tidy_init p) E). intros z I _. exact (C z I).
Qed.

(** Runs with all weights multiplied, and decisions under another thrust level or gravitational parameter. *)
From Coq Require Import Reals Lra Lia ZArith List Bool.
From Verif Require Import RMath RLib Num Base Elements Integrate Eom Convergence Lyapunov Symbolic SymKep SymMee Perturb PlotHelper Qlaw Spec NanSpec NanProofs NanRun ScaleSpec DimProofs ScaleProofs SymRun ScaleSolve TurnProofs TurnSolve WeightSpec WeightProofs.
Import ListNotations.
Local Open Scope R_scope.

Ltac pows := unfold powerRZ; repeat match goal with |- context [Pos.to_nat ?p] => let n := eval compute in (Pos.to_nat p) in change (Pos.to_nat p) with n end;
  cbn [pow].
Lemma psi_by_1 psi : psi_by 1 psi = psi.
Proof. destruct psi as [[] [] []]. cbn [psi_by times5]. rewrite !xs_1. reflexivity. Qed.
Lemma angles_to_ext f g q d r : (forall x, f x = g x) -> angles_to f q d r = angles_to g q d r.
Proof. intros H. destruct r as [[[[[al be] v] ps] q1] qd]. cbn [angles_to]. rewrite H. reflexivity. Qed.
Lemma Rmap_ext {A B} (f g : A -> B) r : (forall x, f x = g x) -> Rmap f r = Rmap g r.
Proof. intros H. destruct r; cbn; [rewrite H|]; reflexivity. Qed.

Section Weights.
Variable c : R.
Hypothesis Hc : 0 < c.
Variables (et : etype) (o : qlaw XNum).
Hypothesis B : built et o.
Notation id6 := (fun x : vec6 XNum => x).
Notation idp := (fun x : psi_t XNum => x).

Lemma fc : factor c 1 1 0 = c. Proof. unfold factor. pows. ring. Qed.
Lemma weight_env mu f oe T rpmin m n r b k wp woe v :
  typed c 1 (weight_dim v) (mkenv (N:=XNum) mu f oe T rpmin m n r b k wp woe v) (mkenv (N:=XNum) mu f oe T rpmin m n r b k wp (times5 c woe) v).
Proof.
  destruct woe, v; cbn [mkenv weight_dim typed times5 v5_0 v5_1 v5_2 v5_3 v5_4]; rewrite ?factor_0, ?fc, ?xs_1; reflexivity.
Qed.
Lemma law_w mu f oe oeT rpmin m n r b k wp woe :
  q_lyap o mu f oe oeT rpmin m n r b k wp (times5 c woe) = Rmap (out_by c 1 weight_expo) (q_lyap o mu f oe oeT rpmin m n r b k wp woe) /\
  q_dqdt o mu f oe oeT rpmin m n r b k wp (times5 c woe) = Rmap (xscale c) (q_dqdt o mu f oe oeT rpmin m n r b k wp woe).
Proof.
  destruct B as (E1 & E2 & E3 & E4 & E5). rewrite E3, E4. rewrite <- fc at 4.
  destruct et; [apply (law_by c 1 Hc Rlt_0_1 weight_dim weight_expo SymKep.psi SymKep.q)|apply (law_by c 1 Hc Rlt_0_1 weight_dim weight_expo SymMee.psi SymMee.q)];
  try exact kep_weights; try exact mee_weights; intros; apply weight_env.
Qed.
Lemma call_w p a x : lyap_call (N:=XNum) (qlaw_weighed c o) (problem_weighed c p) a x = Rmap (angles_to idp c c) (lyap_call (N:=XNum) o p a x).
Proof.
  unfold lyap_call, qlaw_weighed, problem_weighed. cbn [q_lyap q_mu q_rpmin q_m q_n q_r q_b q_k q_wp p_oeT p_woe].
  rewrite (angles_by c 1 Hc Rlt_0_1 weight_expo (q_lyap o) (q_lyap o) (q_mu o) a x (p_oeT p) (q_rpmin o) (q_m o) (q_n o) (q_r o) (q_b o) (q_k o) (q_wp o) (p_woe p) (q_mu o) a (times5 c (p_woe p)) 1).
  - cbn [weight_expo e_q e_psi e_u e_d fst snd]. rewrite fc, factor_0. apply Rmap_ext. intros. apply angles_to_ext. apply psi_by_1.
  - apply law_w.
  - lra.
  - rewrite xs_1. reflexivity.
  - cbn [weight_expo e_q e_psi e_u e_d fst snd]. rewrite fc, factor_0. ring.
Qed.
Lemma osc_w p a x : evaluate_osculating_qdot (N:=XNum) (qlaw_weighed c o) (problem_weighed c p) x a =
  Rmap (fun q : ereal * ereal => (xscale c (fst q), xscale c (snd q))) (evaluate_osculating_qdot (N:=XNum) o p x a).
Proof. apply (osc_by c o p (q_mu o) (times5 c (p_woe p)) a a x Hc); try reflexivity. intros. apply law_w. Qed.
Lemma check_w x t wo tol : q_check o x t (times5 c wo) tol = q_check o x t wo tol.
Proof.
  destruct B as (E1 & E2 & E3 & E4 & E5). rewrite E5.
  assert (A : forall d, check_all (N:=XNum) (times5 c wo) d tol = check_all (N:=XNum) wo d tol).
  { intros d. destruct wo, d, tol. cbn [times5 check_all]. unfold check_entry. change (neqb (Num:=XNum)) with xeqb. change (nofZ (Num:=XNum) 0) with (Fin 0).
    rewrite !xeq0 by exact Hc. reflexivity. }
  destruct et; [unfold check_convergence_keplerian|unfold check_convergence_mee]; destruct t as [|t0 [|t1 [|t2 [|t3 [|t4 t]]]]]; try reflexivity; destruct x; rewrite A; reflexivity.
Qed.
Lemma prop_w p s pl ct v : propagate (qlaw_weighed c o) (problem_weighed c p) (ls_to id6 c c 1 1 s) (plan_to 1 pl) (ctl_to idp c c 1 ct) (v3s 1 v) =
  Rmap (prop_to id6 1 1) (propagate o p s pl ct v).
Proof.
  unfold propagate, ls_to, plan_to, ctl_to. cbn [l_t l_oe l_mass pl_dt c_u c_psi c_thr]. rewrite !xs_1, !v3s_1.
  change (q_integ (qlaw_weighed c o)) with (q_integ o). change (q_eom (qlaw_weighed c o)) with (q_eom o). change (q_mu (qlaw_weighed c o)) with (q_mu o).
  change (q_ode_tol (qlaw_weighed c o)) with (q_ode_tol o). change (p_mdot (problem_weighed c p)) with (p_mdot p). destruct (q_integ o).
  - rewrite bind_rmap. apply bind_ext. intros x. cbn [Rmap prop_to]. rewrite !xs_1. reflexivity.
  - rewrite bind_rmap. apply bind_ext. intros [x h]. cbn [Rmap prop_to]. rewrite !xs_1. reflexivity.
Qed.
Lemma loop_w fuel p ea er s :
  loop fuel (qlaw_weighed c o) (problem_weighed c p) ea er (ls_to id6 c c 1 1 s) = res_to id6 c c 1 1 (loop fuel o p ea er s).
Proof.
  apply (loop_sim o (qlaw_weighed c o) p (problem_weighed c p) ea ea er er id6 idp c c 1 1 1); try lra;
  try (cbn [problem_weighed p_mass0 p_tmax p_tf_max p_mass_min p_duty_on p_duty_off p_charge p_discharge]; rewrite ?Rmult_1_l, ?Rinv_1, xs_1; reflexivity); try reflexivity.
  - intros x. change (local_step (N:=XNum) (qlaw_weighed c o) (problem_weighed c p) x) with (local_step (N:=XNum) o p x). destruct (local_step o p x); [|reflexivity]. cbn [Rmap]. rewrite xs_1. reflexivity.
  - intros a x. rewrite xs_1. apply call_w.
  - intros a x. rewrite xs_1. apply osc_w.
  - intros. rewrite !xs_1. reflexivity.
  - intros. rewrite !xs_1. reflexivity.
  - intros. rewrite xs_1. change (q_ptrb (qlaw_weighed c o)) with (q_ptrb o). destruct (q_ptrb o) as [f|]; cbn [Rmap].
    + destruct (f t x (q_etype o)); [|reflexivity]. cbn [Rmap]. rewrite v3s_1. reflexivity.
    + rewrite v3s_1. reflexivity.
  - intros. apply prop_w.
  - intros x. apply check_w.
  - intros x. apply check_w.
Qed.
Lemma hist_to_w h : hist_to id6 c c 1 1 h = hist_weighed c h.
Proof. unfold hist_to, hist_weighed. rewrite !map_s1, map_id. reflexivity. Qed.
Lemma run_w p h cv code : with_run (qlaw_weighed c o) (Some (with_oe0 (problem_weighed c p) (hist_weighed c h))) (Some (hist_weighed c h)) cv code =
  qlaw_weighed c (with_run o (Some (with_oe0 p h)) (Some h) cv code).
Proof. reflexivity. Qed.
Theorem solve_w fuel ea er : solve fuel (qlaw_weighed c o) ea er = result_weighed c (solve fuel o ea er).
Proof.
  unfold solve. change (q_problem (qlaw_weighed c o)) with (option_map (problem_weighed c) (q_problem o)).
  destruct (q_problem o) as [p|]; [|reflexivity]. cbn [option_map].
  assert (E : init_state (problem_weighed c p) = ls_to id6 c c 1 1 (init_state p)).
  { apply init_to; cbn [problem_weighed p_mass0]; rewrite ?xs_1; reflexivity. }
  rewrite E, (loop_w fuel p ea er (init_state p)).
  destruct ea; try reflexivity;
  (destruct (loop fuel o p _ er (init_state p)) as [s|code cv s|e s|s]; cbn [res_to result_weighed];
   try change (l_hist (ls_to id6 c c 1 1 s)) with (hist_to id6 c c 1 1 (l_hist s)); rewrite ?hist_to_w; unfold finish; rewrite ?run_w; reflexivity).
Qed.
End Weights.
Lemma C88_case : let z := EtaFloat (N:=XNum) (Fin 0) in
  built Keplerian o_low /\ exists o' h, solve 11 (qlaw_weighed 1000 o_low) z z = Returns o' /\ q_hist o' = Some h /\ length (h_states h) = 11%nat /\ q_exitcode o' = (-3)%Z.
Proof.
  intros z. destruct C82_case as (F & B & P & RM & Q). pose proof F as (Bo & _). split; [exact Bo|].
  destruct (C82_lem o_low p_low z z a_low F B P RM Q ltac:(discriminate) 11%nat ltac:(cbn; lia)) as (o' & h & (R1 & _ & R3) & X & _ & _ & Len & _).
  exists (qlaw_weighed 1000 o'), (hist_weighed 1000 h). rewrite (solve_w 1000 ltac:(lra) Keplerian o_low Bo 11 z z), R1. split; [reflexivity|].
  cbn [qlaw_weighed q_hist q_exitcode]. rewrite R3. split; [reflexivity|]. split; [exact Len|exact X].
Qed.

Section Forces.
Variables t d : R.
Hypothesis Ht : 0 < t.
Hypothesis Hd : 0 < d.
Variables (et : etype) (o : qlaw XNum).
Hypothesis B : built et o.
Let s := sqrt d.
Let Hs : 0 < s. Proof. apply sqrt_lt_R0. exact Hd. Qed.
Let ss : s * s = d. Proof. apply sqrt_sqrt. lra. Qed.
Notation id6 := (fun x : vec6 XNum => x).

Lemma FQ : factor s t 2 (-2) = d / (t * t).
Proof. unfold factor. pows. rewrite <- ss. field. lra. Qed.
Lemma FD : factor s t 1 (-1) = s / t.
Proof. unfold factor. pows. field. lra. Qed.
Lemma F20 : factor s t 2 0 = d. Proof. unfold factor. pows. rewrite <- ss. ring. Qed.
Lemma F01 : factor s t 0 1 = t. Proof. unfold factor. pows. ring. Qed.
Lemma force_env mu f oe T rpmin m n r b k wp woe v :
  typed s t (force_dim v) (mkenv (N:=XNum) mu f oe T rpmin m n r b k wp woe v) (mkenv (N:=XNum) (xscale d mu) (xscale t f) oe T rpmin m n r b k wp woe v).
Proof.
  destruct v; cbn [mkenv force_dim typed]; rewrite ?factor_0, ?F20, ?F01, ?xs_1; reflexivity.
Qed.
Lemma law_f mu f oe oeT rpmin m n r b k wp woe :
  q_lyap o (xscale d mu) (xscale t f) oe oeT rpmin m n r b k wp woe = Rmap (out_by s t force_expo) (q_lyap o mu f oe oeT rpmin m n r b k wp woe) /\
  q_dqdt o (xscale d mu) (xscale t f) oe oeT rpmin m n r b k wp woe = Rmap (xscale (s / t)) (q_dqdt o mu f oe oeT rpmin m n r b k wp woe).
Proof.
  destruct B as (E1 & E2 & E3 & E4 & E5). rewrite E3, E4, <- FD.
  destruct et; [apply (law_by s t Hs Ht force_dim force_expo SymKep.psi SymKep.q)|apply (law_by s t Hs Ht force_dim force_expo SymMee.psi SymMee.q)];
  try exact kep_forces; try exact mee_forces; intros; apply force_env.
Qed.
Definition psi_f := psi_by (factor s t (-1) 0).
Lemma call_f p a x : lyap_call (N:=XNum) (qlaw_heavier d o) p (xscale t a) x = Rmap (angles_to psi_f (d / (t * t)) (s / t)) (lyap_call (N:=XNum) o p a x).
Proof.
  unfold lyap_call, qlaw_heavier. cbn [q_lyap q_mu q_rpmin q_m q_n q_r q_b q_k q_wp].
  rewrite (angles_by s t Hs Ht force_expo (q_lyap o) (q_lyap o) (q_mu o) a x (p_oeT p) (q_rpmin o) (q_m o) (q_n o) (q_r o) (q_b o) (q_k o) (q_wp o) (p_woe p) (xscale d (q_mu o)) (xscale t a) (p_woe p) t).
  - cbn [force_expo e_q e_psi e_u e_d fst snd]. rewrite FQ, FD. reflexivity.
  - apply law_f.
  - exact Ht.
  - reflexivity.
  - cbn [force_expo e_q e_psi e_u e_d fst snd]. unfold factor. pows. field. pose proof Hs. lra.
Qed.
Lemma osc_f p a x : evaluate_osculating_qdot (N:=XNum) (qlaw_heavier d o) p x (xscale t a) =
  Rmap (fun q : ereal * ereal => (xscale (s / t) (fst q), xscale (s / t) (snd q))) (evaluate_osculating_qdot (N:=XNum) o p x a).
Proof.
  apply (osc_by (s / t) o p (xscale d (q_mu o)) (p_woe p) a (xscale t a) x); try reflexivity; [apply Rdiv_lt_0_compat; assumption|]. intros. apply law_f.
Qed.
Lemma control_f p ea er st pl a : control (qlaw_heavier d o) p ea er st pl (xscale t a) =
  Rmap (cres_to psi_f (d / (t * t)) (s / t) t) (control o p ea er st pl a).
Proof.
  assert (E : forall st : lstate XNum, control (qlaw_heavier d o) p ea er st pl (xscale t a) = control (qlaw_heavier d o) p ea er (ls_to id6 (d / (t * t)) (s / t) 1 1 st) (plan_to 1 pl) (xscale t a)).
  { intros x. unfold control, ls_to, plan_to. cbn [l_t l_oe l_mass l_batt l_nnan l_ab pl_duty]. rewrite !xs_1. reflexivity. }
  rewrite E. apply (control_sim o (qlaw_heavier d o) p p ea ea er er id6 psi_f (d / (t * t)) (s / t) t 1 1); try reflexivity; try assumption.
  - apply Rdiv_lt_0_compat; assumption.
  - apply call_f.
  - apply osc_f.
  - intros. rewrite !xs_1. reflexivity.
  - intros. rewrite !xs_1. reflexivity.
Qed.
Lemma C89_lem p ea er st pl a :
  same_decision (control o p ea er st pl a) (control (qlaw_heavier d o) p ea er st pl (xscale t a)) /\
  forall ct ct', control o p ea er st pl a = Ok (Ctl ct) -> control (qlaw_heavier d o) p ea er st pl (xscale t a) = Ok (Ctl ct') -> rescaled t d ct ct'.
Proof.
  rewrite control_f. destruct (control o p ea er st pl a) as [[ct|]|e].
  - split; [cbn; auto|]. intros c1 c2 X Y. cbn [Rmap cres_to] in Y. assert (c1 = ct) by congruence. subst c1.
    assert (c2 = ctl_to psi_f (d / (t * t)) (s / t) t ct) by congruence. subst c2. unfold rescaled, ctl_to. cbn [c_u c_q c_qdot]. auto.
  - split; [exact I|discriminate].
  - split; [reflexivity|discriminate].
Qed.
End Forces.

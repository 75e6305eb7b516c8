(** C67: solving with equinoctial elements from an exactly circular orbit. *)
From Coq Require Import Reals Lra Lia ZArith List Bool.
From Verif Require Import RMath RLib Num Base Elements Integrate Eom Convergence Lyapunov Symbolic SymKep SymMee Perturb Qlaw Spec NanProofs Sim.
Import ListNotations.
Local Open Scope R_scope.

Lemma zero_over_zero : xdiv (Fin 0) (Fin 0) = NaN.
Proof.
  cbn. destruct (Reqb_spec 0 0); [|contradiction]. unfold xinf.
  rewrite (proj2 (Rltb_false 0 0)) by lra. rewrite (proj2 (Rltb_false 0 0)) by lra. reflexivity.
Qed.
Lemma ta_nan env : env Voe1 = Fin 0 -> env Voe2 = Fin 0 -> eval (N:=XNum) env SymMee.ta = NaN.
Proof. intros F G. unfold SymMee.ta. cbn [eval]. unfold SymMee.g, SymMee.f. cbn [eval]. rewrite F, G. xnum. rewrite zero_over_zero. cbn [xatan]. nans. reflexivity. Qed.
Lemma circular_gradient env : env Voe1 = Fin 0 -> env Voe2 = Fin 0 -> v3_0 (eval3 (N:=XNum) env (usym SymMee.psi SymMee.q)) = NaN.
Proof.
  intros F G. pose proof (ta_nan env F G) as T. cbn [usym map SymMee.psi eval3 v3_0].
  unfold dqdoe, oe_vars. cbn [map]. generalize (diff Voe0 SymMee.q) (diff Voe1 SymMee.q) (diff Voe2 SymMee.q) (diff Voe3 SymMee.q) (diff Voe4 SymMee.q). intros d0 d1 d2 d3 d4.
  cbn [edot5 eval]. rewrite T. xnum. cbn [xlift]. nans. reflexivity.
Qed.
Lemma circular_call (o : qlaw XNum) (p : problem XNum) acc (oe : vec6 XNum) T : q_lyap o = lyap_of_etype (N:=XNum) MeeWithA -> v6_1 oe = Fin 0 -> v6_2 oe = Fin 0 ->
  list_to_vec5 (N:=XNum) (p_oeT p) = Some T ->
  exists out, q_lyap o (q_mu o) acc oe (p_oeT p) (q_rpmin o) (q_m o) (q_n o) (q_r o) (q_b o) (q_k o) (q_wp o) (p_woe p) = Ok out /\ singular_in_plane (lo_u out).
Proof.
  intros L F G HT. rewrite L. unfold lyap_of_etype, lyap_mee_with_a, lyap_of. rewrite HT.
  set (env := mkenv _ _ _ _ _ _ _ _ _ _ _ _). eexists. split; [reflexivity|]. cbn [lo_u].
  assert (N : v3_0 (eval3 (N:=XNum) env (usym SymMee.psi SymMee.q)) = NaN) by (apply circular_gradient; assumption).
  destruct (eval3 (N:=XNum) env (usym SymMee.psi SymMee.q)) as [x y z]. cbn in N |- *. subst. auto.
Qed.
Lemma circular_eom t (oe : vec6 XNum) prm : v6_1 oe = Fin 0 -> eom_mee_with_a_gauss (N:=XNum) t oe prm = Err ZeroDivisionError.
Proof. destruct oe as [a f g h k l]. cbn [v6_1]. intros ->. unfold eom_mee_with_a_gauss. rewrite jdiv_zero. reflexivity. Qed.
Lemma circular_propagate (o : qlaw XNum) p (s : lstate XNum) pl c ptrb : q_eom o = eom_of (N:=XNum) MeeWithA -> v6_1 (l_oe s) = Fin 0 ->
  propagate o p s pl c ptrb = Err ZeroDivisionError.
Proof.
  intros E F. unfold propagate. rewrite E. destruct (q_integ o); [unfold rk4|unfold rkf45]; cbn [eom_of]; rewrite circular_eom by exact F; reflexivity.
Qed.
Lemma circular_coast (o : qlaw XNum) p ea er (s : lstate XNum) pl acc T : built MeeWithA o -> v6_1 (l_oe s) = Fin 0 -> v6_2 (l_oe s) = Fin 0 ->
  list_to_vec5 (N:=XNum) (p_oeT p) = Some T -> pl_duty pl = false -> exists c, control o p ea er s pl acc = Ok (Ctl c).
Proof.
  intros B F G HT D. destruct (circular_call o p acc (l_oe s) T) as (out & C & S); try assumption; [apply B|].
  unfold control, lyap_call, lyapunov_control_angles. rewrite D, C. cbn [bind].
  destruct (sing_angles _ S) as (u & b & E & ->). rewrite E. cbn [bind]. destruct (lo_psi out). cbn [bind]. eexists. reflexivity.
Qed.

Section Circular.
Variables (o : qlaw XNum) (p : problem XNum) (ea er : eta_arg XNum) (T : vec5 XNum) (a h k l : ereal).
Hypothesis B : built MeeWithA o.
Hypothesis P : q_problem o = Some p.
Hypothesis P0 : p_oe0 p = @mk6 XNum a (Fin 0) (Fin 0) h k l.
Hypothesis HT : list_to_vec5 (N:=XNum) (p_oeT p) = Some T.
Hypothesis Ea : ea <> EtaOther.
Hypothesis Sm : q_sundman o = false.
Hypothesis G : nltb (Num:=XNum) (Fin 0) (nabs (Num:=XNum) (p_tf_max p)) = true.

Lemma circ_safety : safety o (init_state p) = init_state p.
Proof. unfold safety. destruct B as (-> & _). reflexivity. Qed.
Lemma circ_guard : guard p (init_state p) = true.
Proof. unfold guard. cbn. rewrite Rabs_R0. exact G. Qed.
Lemma circ_step : exists pl, plan o p (init_state p) = Ok pl.
Proof.
  unfold plan, local_step. rewrite Sm. cbn [bind]. destruct (duty_phase _ _ _ _ _) as [[? ?] ?], (battery_phase _ _ _ _ _ _ _) as [[[? ?] ?] ?]. eexists. reflexivity.
Qed.
Lemma circ_duty pl : plan o p (init_state p) = Ok pl -> nltb (Num:=XNum) (p_duty_on p) (Fin 0) = false ->
  nleb (Num:=XNum) (p_batt0 p) (nadd (Num:=XNum) (p_cap_lo p) (dec (N:=XNum) 1 12)) = false -> pl_duty pl = true.
Proof.
  intros H Du Ba. unfold plan, local_step in H. rewrite Sm in H. cbn [bind] in H. unfold duty_phase in H.
  change (l_t (init_state p)) with (Fin 0) in H. change (l_ton (init_state p)) with (Fin 0) in H. change (l_toff (init_state p)) with (Fin 0) in H.
  change (l_duty (init_state p)) with true in H. change (l_chg (init_state p)) with false in H. change (l_batt (init_state p)) with (p_batt0 p) in H.
  change (nsub (Num:=XNum) (Fin 0) (Fin 0)) with (Fin (0 - 0)) in H. rewrite Rminus_0_r in H. rewrite Du in H. cbn [andb negb] in H.
  rewrite andb_false_r in H. unfold battery_phase in H. rewrite Ba in H. cbn [negb] in H.
  destruct (_ && true)%bool in H; inversion H; unfold recharge_phase; rewrite ?andb_false_r; reflexivity.
Qed.
Lemma circ_solve fuel s : step o p ea er (init_state p) = Fail ZeroDivisionError s ->
  exists o', solve (S fuel) o ea er = Raises ZeroDivisionError o' /\ q_hist o' = Some (l_hist s).
Proof.
  intros E. unfold solve. rewrite P. destruct ea as [v|f|]; try congruence; cbn [loop]; rewrite circ_guard, E; eexists; split; reflexivity.
Qed.
Lemma C67_raises_lem fuel : (1 <= q_nan_thr o)%Z -> q_ptrb o = None ->
  exists o', solve (S fuel) o ea er = Raises ZeroDivisionError o' /\
    exists hh, q_hist o' = Some hh /\ h_times hh = [Fin 0] /\ h_controls hh = [].
Proof.
  intros Th Pt. destruct circ_step as (pl & E).
  assert (St : step o p ea er (init_state p) = Fail ZeroDivisionError (init_state p)).
  { unfold step. rewrite circ_safety, E.
    assert (F1 : v6_1 (l_oe (init_state p)) = Fin 0) by (cbn; rewrite P0; reflexivity).
    assert (F2 : v6_2 (l_oe (init_state p)) = Fin 0) by (cbn; rewrite P0; reflexivity).
    assert (C : exists c, control o p ea er (init_state p) pl (accel_thrust p (pl_dt pl) (l_mass (init_state p))) = Ok (Ctl c)).
    { destruct (pl_duty pl) eqn:D.
      - destruct (circular_call o p (accel_thrust p (pl_dt pl) (l_mass (init_state p))) (l_oe (init_state p)) T) as (out & C & Sg); try assumption; [apply B|].
        destruct (proj1 (C34_control_lem o p ea er _ pl _ out D C) Sg) as [(c & H & _)|[_ H]]; [eauto|]. cbn in H.
        exfalso. apply (Zlt_not_le _ _ H). exact Th.
      - apply (circular_coast _ _ _ _ _ _ _ T); assumption. }
    destruct C as (c & ->). unfold perturbation. rewrite Pt. rewrite circular_propagate; [reflexivity|apply B|exact F1]. }
  destruct (circ_solve fuel _ St) as (o' & H1 & H2). exists o'. split; [exact H1|]. exists (l_hist (init_state p)). split; [exact H2|]. split; reflexivity.
Qed.
Lemma C67_breaks_lem fuel : (q_nan_thr o < 1)%Z -> nltb (Num:=XNum) (p_duty_on p) (Fin 0) = false ->
  nleb (Num:=XNum) (p_batt0 p) (nadd (Num:=XNum) (p_cap_lo p) (dec (N:=XNum) 1 12)) = false ->
  exists o' hh, ran (S fuel) o ea er p o' hh /\ q_exitcode o' = (-3)%Z /\ h_times hh = [Fin 0] /\ h_controls hh = [].
Proof.
  intros Th Du Ba. destruct circ_step as (pl & E). pose proof (circ_duty pl E Du Ba) as D.
  assert (St : step o p ea er (init_state p) = Stop (-3) false (init_state p)).
  { unfold step. rewrite circ_safety, E.
    destruct (circular_call o p (accel_thrust p (pl_dt pl) (l_mass (init_state p))) (l_oe (init_state p)) T) as (out & C & Sg); try assumption; try (cbn; rewrite P0; reflexivity); [apply B|].
    destruct (proj1 (C34_control_lem o p ea er _ pl _ out D C) Sg) as [(c & _ & _ & _ & _ & H)|[-> _]]; [|reflexivity].
    exfalso. cbn in H. apply (Zlt_not_le _ _ Th). exact H. }
  unfold ran, solve. rewrite P. destruct ea as [v|f|]; try congruence; cbn [loop]; rewrite circ_guard, St; eexists _, _; (split; [split; [reflexivity|split; reflexivity]|]);
    (split; [cbn; rewrite andb_false_r; reflexivity|split; reflexivity]).
Qed.
End Circular.

(** An object and a problem meeting these hypotheses. *)
Definition p_circ : problem XNum :=
  @mkproblem XNum (@mk6 XNum (Fin 1) (Fin 0) (Fin 0) (Fin (1 / 10)) (Fin 0) (Fin 0)) [Fin 2; Fin 0; Fin 0; Fin 0; Fin 0] (Fin 1) (Fin 1) (Fin 0) (Fin 10) (Fin 1) (Fin (1 / 10))
    (@mk5 XNum (Fin 1) (Fin 1) (Fin 1) (Fin 1) (Fin 1)) (Fin 100) (Fin 0) (Fin 1) (Fin 0) (Fin 1) (Fin 0) (Fin 0) false.
Definition o_circle (thr : Z) : qlaw XNum :=
  @mkqlaw XNum (Fin 1) (Fin 1) (Fin 1) (Fin 3) (Fin 4) (Fin 2) (Fin (1 / 100)) (Fin 1) MeeWithA RK4 100
    (@mk5 XNum (Fin (1 / 1000)) (Fin (1 / 1000)) (Fin (1 / 1000)) (Fin (1 / 1000)) (Fin (1 / 1000))) (@mk5 XNum (Fin (1 / 100)) (Fin (1 / 100)) (Fin (1 / 100)) (Fin (1 / 100)) (Fin (1 / 100))) 200%Z
    (default_oe_min (N:=XNum) MeeWithA) (default_oe_max (N:=XNum) MeeWithA) thr
    (eom_of (N:=XNum) MeeWithA) (lyap_of_etype (N:=XNum) MeeWithA) (dqdt_of_etype (N:=XNum) MeeWithA) (check_of (N:=XNum) MeeWithA)
    (dec (N:=XNum) 1 4) (Fin 2) (dec (N:=XNum) 1 5) false None (Some p_circ) None false 0%Z.
Lemma circle_built thr : built MeeWithA (o_circle thr).
Proof. repeat split. Qed.
Lemma circle_guard : nltb (Num:=XNum) (Fin 0) (nabs (Num:=XNum) (p_tf_max p_circ)) = true.
Proof. cbn. apply Rltb_true. rewrite Rabs_pos_eq; lra. Qed.
Lemma C67_refuted_lem : exists (o : qlaw XNum) p ea er a h k l,
  built MeeWithA o /\ fresh o /\ q_problem o = Some p /\ p_oe0 p = @mk6 XNum a (Fin 0) (Fin 0) h k l /\ q_nan_thr o = 10%Z /\
  forall fuel, exists o', solve (S fuel) o ea er = Raises ZeroDivisionError o'.
Proof.
  eexists (o_circle 10), p_circ, (EtaFloat (N:=XNum) (Fin 0)), (EtaFloat (N:=XNum) (Fin 0)), (Fin 1), (Fin (1 / 10)), (Fin 0), (Fin 0).
  split; [apply circle_built|]. split; [split; reflexivity|]. split; [reflexivity|]. split; [reflexivity|]. split; [reflexivity|]. intros fuel.
  destruct (C67_raises_lem (o_circle 10) p_circ (EtaFloat (N:=XNum) (Fin 0)) (EtaFloat (N:=XNum) (Fin 0)) (@mk5 XNum (Fin 2) (Fin 0) (Fin 0) (Fin 0) (Fin 0)) (Fin 1) (Fin (1 / 10)) (Fin 0) (Fin 0)
    (circle_built 10) eq_refl eq_refl eq_refl ltac:(discriminate) eq_refl circle_guard fuel ltac:(discriminate) eq_refl) as (o' & H & _). exists o'. exact H.
Qed.
Lemma C67_case : built MeeWithA (o_circle 0) /\ q_problem (o_circle 0) = Some p_circ /\ q_sundman (o_circle 0) = false /\ (q_nan_thr (o_circle 0) < 1)%Z /\
  nltb (Num:=XNum) (Fin 0) (nabs (Num:=XNum) (p_tf_max p_circ)) = true /\ nltb (Num:=XNum) (p_duty_on p_circ) (Fin 0) = false /\
  nleb (Num:=XNum) (p_batt0 p_circ) (nadd (Num:=XNum) (p_cap_lo p_circ) (dec (N:=XNum) 1 12)) = false.
Proof.
  split; [apply circle_built|]. split; [reflexivity|]. split; [reflexivity|]. split; [reflexivity|]. split; [exact circle_guard|].
  split; [cbn; apply Rltb_false; lra|]. unfold dec. xnum. cbn [p_batt0 p_cap_lo p_circ xdiv xadd]. destruct (Reqb_spec (IZR (10 ^ Z.of_nat 12)) 0) as [H|H]; [cbn in H; lra|].
  cbn. unfold xleb. cbn. apply orb_false_iff. split; [apply Rltb_false; lra|apply Reqb_false; lra].
Qed.

(** ** An object whose law returns the gradient [D] everywhere *)
Definition pulled (D : vec3 XNum) : qlaw XNum :=
  @mkqlaw XNum (Fin 1) (Fin 1) (Fin 1) (Fin 3) (Fin 4) (Fin 2) (Fin 1) (Fin 1) MeeWithA RK4 100
    (v5of (N:=XNum) (Fin 1)) (v5of (N:=XNum) (Fin 1)) 200%Z
    (default_oe_min (N:=XNum) MeeWithA) (default_oe_max (N:=XNum) MeeWithA) 10%Z (eom_of (N:=XNum) MeeWithA)
    (fun _ _ _ _ _ _ _ _ _ _ _ _ => Ok (@mklyap XNum D (@mkpsi XNum (v5of (N:=XNum) (Fin 0)) (v5of (N:=XNum) (Fin 0)) (v5of (N:=XNum) (Fin 0))) (Fin 1) (v5of (N:=XNum) (Fin 1))))
    (dqdt_of_etype (N:=XNum) MeeWithA) (check_of (N:=XNum) MeeWithA) (Fin 1) (Fin 2) (Fin 1) false None (Some p_circ) None false 0%Z.
Definition on_plan : plan_t XNum := @mkplan XNum (Fin 1) true (Fin 0) (Fin 0) false.
Lemma C34_ex : exists (o : qlaw XNum) p ea er s pl acc out, pl_duty pl = true /\ (l_nnan s + 1 <= q_nan_thr o)%Z /\
  q_lyap o (q_mu o) acc (l_oe s) (p_oeT p) (q_rpmin o) (q_m o) (q_n o) (q_r o) (q_b o) (q_k o) (q_wp o) (p_woe p) = Ok out /\
  lo_u out = @mk3 XNum (Fin 1) (Fin 1) PInf /\ control o p ea er s pl acc = Err ZeroDivisionError.
Proof.
  exists (pulled (@mk3 XNum (Fin 1) (Fin 1) PInf)), p_circ, (EtaFloat (N:=XNum) (Fin 0)), (EtaFloat (N:=XNum) (Fin 0)), (init_state p_circ), on_plan, (Fin 1).
  eexists. split; [reflexivity|]. split; [cbn; lia|]. split; [reflexivity|]. split; [reflexivity|].
  eapply C34_control_lem; [reflexivity|reflexivity|]. cbn. right. split; [exists 1; reflexivity|]. split; [exists 1; reflexivity|]. left. reflexivity.
Qed.
Lemma C34_case : exists (o : qlaw XNum) p s (pl : plan_t XNum) acc out, pl_duty pl = true /\
  q_lyap o (q_mu o) acc (l_oe s) (p_oeT p) (q_rpmin o) (q_m o) (q_n o) (q_r o) (q_b o) (q_k o) (q_wp o) (p_woe p) = Ok out /\
  lo_u out = @mk3 XNum NaN (Fin 1) (Fin 0) /\ l_nnan s = 0%Z.
Proof.
  exists (pulled (@mk3 XNum NaN (Fin 1) (Fin 0))), p_circ, (init_state p_circ), on_plan, (Fin 1). eexists. repeat split.
Qed.

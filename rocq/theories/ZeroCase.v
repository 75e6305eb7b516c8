(** A start on the node target: zero weight on the node, the run gives up; with another node target it thrusts. *)
From Coq Require Import Reals ZArith List Bool Lia Lra.
From Verif Require Import RMath RLib Num Base Elements Integrate Eom Convergence Lyapunov Symbolic SymKep Perturb Qlaw Spec RSpec XSpec XTrace LawSpec MaxSpec EffSpec LawRuns Trace NanSpec NanProofs EllSpec XLaw NanRun
  FinSpec FinProofs EffRuns FinRuns ZeroSpec ZeroRuns.
Import ListNotations.
Local Open Scope R_scope.

Definition z_kink : vec6 XNum := fin6 oe_kep.
Definition T_kink : list (@car XNum) := [Fin 2; Fin 0; Fin 0; Fin (PI / 4); Fin 0].
Definition T_free : list (@car XNum) := map Fin (LawSpec.list5 (g_T p_kep)).
Definition p_kink : problem XNum :=
  @mkproblem XNum z_kink T_kink (Fin 1) (Fin 1) (Fin 1) (Fin 100) (Fin (1 / 10)) (Fin (1 / 10))
    (@mk5 XNum (Fin 0) (Fin 1) (Fin 0) (Fin 0) (Fin 0)) (Fin 100) (Fin 0) (Fin 1) (Fin 0) (Fin 1) (Fin 0) (Fin 0) false.
Definition o_kink (thr : Z) : qlaw XNum :=
  @mkqlaw XNum (Fin 1) (Fin 1) (Fin 1) (Fin 3) (Fin 4) (Fin 2) (Fin (1 / 100)) (Fin 0) Keplerian RK4 100
    (@mk5 XNum (Fin (1 / 1000)) (Fin (1 / 1000)) (Fin (1 / 1000)) (Fin (1 / 1000)) (Fin (1 / 1000))) (@mk5 XNum (Fin (1 / 100)) (Fin (1 / 100)) (Fin (1 / 100)) (Fin (1 / 100)) (Fin (1 / 100))) 200%Z
    (default_oe_min (N:=XNum) Keplerian) (default_oe_max (N:=XNum) Keplerian) thr
    (eom_of (N:=XNum) Keplerian) (lyap_of_etype (N:=XNum) Keplerian) (dqdt_of_etype (N:=XNum) Keplerian) (check_of (N:=XNum) Keplerian)
    (dec (N:=XNum) 1 4) (Fin 2) (dec (N:=XNum) 1 5) false None (Some p_kink) None false 0%Z.
Definition zeta : eta_arg XNum := EtaFloat (N:=XNum) (Fin 0).

Lemma kink_guarded thr : guarded (o_kink thr) (p_oe0 p_kink) = p_oe0 p_kink.
Proof.
  unfold guarded. cbn [o_kink q_etype q_oe_min q_oe_max]. cbn [p_kink p_oe0 z_kink fin6 oe_kep elems]. unfold default_oe_min, default_oe_max, elements_safety. rewrite !xdec.
  pose proof PI2_1 as P. cbn [npi ninf nofZ XNum].
  change (10 ^ Z.of_nat 2)%Z with 100%Z. change (10 ^ Z.of_nat 4)%Z with 10000%Z.
  assert (K : forall lo x hi, lo < x -> x <= hi -> clamp1 (N:=XNum) (Fin lo) (Fin x) (Fin hi) = Fin x).
  { intros lo x hi H1 H2. unfold clamp1, pymin, pymax. cbn [nltb XNum xltb]. rewrite (proj2 (Rltb_true lo x) H1).
    cbn [nltb XNum xltb]. rewrite (proj2 (Rltb_false hi x)) by lra. reflexivity. }
  assert (K' : forall lo x, lo < x -> clamp1 (N:=XNum) (Fin lo) (Fin x) PInf = Fin x).
  { intros lo x H1. unfold clamp1, pymin, pymax. cbn [nltb XNum xltb]. rewrite (proj2 (Rltb_true lo x) H1). reflexivity. }
  unfold fin6, oe_kep, elems. rewrite !K by lra. rewrite !K' by lra. reflexivity.
Qed.
Lemma kink_ellipse : proper_ellipse Keplerian (p_oe0 p_kink).
Proof.
  exists 1, (1 / 2), (PI / 4), (PI / 4), (PI / 4), (PI / 2). split; [reflexivity|]. split; [lra|]. split; [lra|]. pose proof sin_pi4_pos. lra.
Qed.
Lemma C92_case thr : (0 <= thr <= 10)%Z -> plain Keplerian (o_kink thr) /\ on_angle (o_kink thr) p_kink /\ finite_problem p_kink a_low /\
  room_for (Z.to_nat (q_nan_thr (o_kink thr))) a_low /\ q_problem (o_kink thr) = Some p_kink.
Proof.
  intros Ht. split.
  { split; [repeat split|]. repeat (split; [reflexivity|]). split; [apply Ht|]. exists 1. split; [reflexivity|lra]. }
  split.
  { split; [exact kink_ellipse|]. split; [exact (kink_guarded thr)|]. do 5 eexists. split; [reflexivity|]. split; [left; reflexivity|].
    right. left. exists 1, (1 / 2), 0, (1 / 1000), (1 / 100). repeat (split; [first [reflexivity|lra]|]). rewrite Rabs_left by lra. lra. }
  split; [repeat split|]. split; [|reflexivity].
  unfold room_for. change (q_nan_thr (o_kink thr)) with thr. assert (L : INR (Z.to_nat thr) <= 10) by (replace 10 with (INR 10) by (cbn; ring); apply le_INR; lia).
  rewrite S_INR. pose proof (pos_INR (Z.to_nat thr)).
  cbn [a_low a_ts a_tf a_on a_dis a_lo a_b0 a_hi a_mmin a_mass0]. rewrite Rabs_pos_eq by lra. cbn [pow]. repeat split; lra.
Qed.
Lemma kink_demand : same_demand (p_woe p_kink) (p_oeT p_kink) T_free.
Proof.
  do 9 eexists. split; [reflexivity|]. split; [reflexivity|]. split; [left; reflexivity|]. split; [left; reflexivity|]. split; [|left; reflexivity].
  right. split; [reflexivity|]. split; eexists; reflexivity.
Qed.
Lemma free_regular : regular Keplerian p_kep oe_kep.
Proof. split; [exact p_kep_sound|]. split; [exact oe_kep_state|]. split; [exact oe_kep_power|exact oe_kep_smooth]. Qed.
(** with the other node target the first iteration thrusts: the run does not give up there *)
Lemma free_steers : exists c s pl, plan (qlaw_for T_free (o_kink 0)) (problem_for T_free p_kink) s = Ok pl /\ s = safety (qlaw_for T_free (o_kink 0)) (init_state (problem_for T_free p_kink)) /\
  control (qlaw_for T_free (o_kink 0)) (problem_for T_free p_kink) zeta zeta s pl (accel_thrust (problem_for T_free p_kink) (pl_dt pl) (l_mass s)) = Ok (Ctl c) /\ c_thr c = 1%Z.
Proof.
  set (o := qlaw_for T_free (o_kink 0)). set (p := problem_for T_free p_kink).
  assert (F : finite_problem p a_low) by repeat split.
  pose proof (start_at Keplerian p a_low F kink_ellipse) as S0.
  destruct (safe_at Keplerian o p a_low (kink_guarded 0) 0 (init_state p) S0) as [S1 E1].
  assert (Pl : plan o p (safety o (init_state p)) = Ok (mkplan (N:=XNum) (Fin (a_ts a_low)) true (Fin 0) (Fin 0) false)).
  { apply (plan_at Keplerian o p a_low F eq_refl) with (j := 0%nat); try exact S1; try lia;
      change (Z.to_nat (q_nan_thr o)) with 0%nat; cbn; lra. }
  destruct (kep_gradient_value) as (out & A & U).
  assert (H : holds o p (accel_thrust p (Fin (a_ts a_low)) (l_mass (safety o (init_state p)))) p_kep).
  { rewrite (as_mass _ _ _ _ _ S1). unfold accel_thrust. repeat split; try reflexivity.
    change (p_tmax p) with (Fin 1). change (Fin (a_mass0 a_low)) with (Fin 1). change (Fin (a_ts a_low)) with (Fin (1 / 10)).
    unfold npsign. cbn. rewrite (proj2 (Rltb_false (1 / 10) 0)), (proj2 (Rltb_true 0 (1 / 10))) by lra. cbn. destruct (Reqb_spec 1 0); [lra|]. f_equal. field. }
  destruct (C90_on_lem Keplerian o p _ p_kep oe_kep out zeta zeta (safety o (init_state p)) (mkplan (N:=XNum) (Fin (a_ts a_low)) true (Fin 0) (Fin 0) false) eq_refl H free_regular A) as (c & E & _ & T & _).
  - left. exact U.
  - rewrite E1. reflexivity.
  - reflexivity.
  - cbn. apply Rltb_false. lra.
  - cbn. apply Rltb_false. lra.
  - exists c. do 2 eexists. split; [exact Pl|]. split; [reflexivity|]. split; [exact E|exact T].
Qed.
Lemma C91_refuted_lem : exists (o : qlaw XNum) p T' fuel, built Keplerian o /\ q_problem o = Some p /\ same_demand (p_woe p) (p_oeT p) T' /\
  solve fuel (qlaw_for T' o) zeta zeta <> result_for T' (solve fuel o zeta zeta).
Proof.
  exists (o_kink 0), p_kink, T_free, 1%nat. destruct (C92_case 0 ltac:(lia)) as (C1 & C2 & C3 & C4 & C5).
  split; [apply C1|]. split; [exact C5|]. split; [exact kink_demand|].
  destruct (C92_lem (o_kink 0) p_kink zeta zeta a_low C1 C2 C3 C4 C5 ltac:(discriminate) 1%nat ltac:(cbn; lia)) as (o1 & h & (R & _ & _) & X & _).
  rewrite R. cbn [result_for]. intros E.
  destruct free_steers as (c & s & pl & P & -> & Co & _).
  set (o := qlaw_for T_free (o_kink 0)) in *. set (p := problem_for T_free p_kink) in *.
  assert (E2 : q_exitcode (qlaw_for T_free o1) = (-3)%Z) by exact X.
  unfold solve in E. change (q_problem o) with (Some p) in E. cbn [zeta] in E. cbn [loop] in E. destruct (guard p (init_state p)).
  2:{ apply (f_equal (fun r : sres XNum => match r with Returns o0 => q_exitcode o0 | _ => 0%Z end)) in E. cbn in E. rewrite X in E. discriminate E. }
  pose proof (step_cases o p zeta zeta (init_state p)) as K. unfold zeta in K. destruct (step o p _ _ (init_state p)) as [s1|c1 v1 s1|e s1]; try discriminate E.
  - destruct (guard p s1); [discriminate E|]. apply (f_equal (fun r : sres XNum => match r with Returns o0 => q_exitcode o0 | _ => 0%Z end)) in E. cbn in E. rewrite X in E. discriminate E.
  - apply (f_equal (fun r : sres XNum => match r with Returns o0 => q_exitcode o0 | _ => 0%Z end)) in E.
    assert (E3 : c1 = (-3)%Z) by (rewrite E2 in E; cbn in E; destruct v1, (c1 =? 0)%Z; cbn in E; first [exact E|discriminate E]). subst c1.
    inversion K as [g I X'|pl' H1 H2 H3| |].
    + pose proof (exit_cases o p (post g)) as Y. rewrite X' in Y. inversion Y.
    + unfold zeta in Co. congruence.
Qed.

(** ** Cases for the positive statements *)
(** an equinoctial object with a weight on one element only *)
Definition o_one : qlaw XNum := @mkqlaw XNum (Fin 1) (Fin 1) (Fin 1) (Fin 3) (Fin 4) (Fin 2) (Fin (1 / 100)) (Fin 0) MeeWithA RK4 2
    (@mk5 XNum (Fin (1 / 1000)) (Fin (1 / 1000)) (Fin (1 / 1000)) (Fin (1 / 1000)) (Fin (1 / 1000))) (@mk5 XNum (Fin (1 / 100)) (Fin (1 / 100)) (Fin (1 / 100)) (Fin (1 / 100)) (Fin (1 / 100))) 200%Z
    (default_oe_min (N:=XNum) MeeWithA) (default_oe_max (N:=XNum) MeeWithA) 10%Z
    (eom_of (N:=XNum) MeeWithA) (lyap_of_etype (N:=XNum) MeeWithA) (dqdt_of_etype (N:=XNum) MeeWithA) (check_of (N:=XNum) MeeWithA)
    (dec (N:=XNum) 1 4) (Fin 2) (dec (N:=XNum) 1 5) false None (Some p_fin) None false 0%Z.
Lemma C91_mee_case : built MeeWithA o_one /\ q_problem o_one = Some p_fin /\ same_demand (p_woe p_fin) (p_oeT p_fin) [Fin 2; Fin 0; Fin 5; Fin 6; Fin 7].
Proof.
  split; [repeat split|]. split; [reflexivity|]. do 9 eexists. split; [reflexivity|]. split; [reflexivity|]. split; [left; reflexivity|].
  repeat split; right; (split; [reflexivity|]); split; eexists; reflexivity.
Qed.
Lemma C91_kep_case : built Keplerian (o_kink 10) /\ q_problem (o_kink 10) = Some p_kink /\ same_demand (p_woe p_kink) (p_oeT p_kink) [Fin 2; Fin 0; Fin 1; Fin (PI / 4); Fin 0].
Proof.
  split; [repeat split|]. split; [reflexivity|]. do 9 eexists. split; [reflexivity|]. split; [reflexivity|]. split; [left; reflexivity|].
  split; [right; (split; [reflexivity|]); split; eexists; reflexivity|]. split; left; reflexivity.
Qed.
(** a run of ten steps beside both node targets *)
Definition p_side : problem XNum :=
  @mkproblem XNum (@mk6 XNum (Fin 1) (Fin (1 / 2)) (Fin 1) (Fin 1) (Fin 1) (Fin 0)) [Fin 2; Fin (1 / 2); Fin 1; Fin 2; Fin 1] (Fin 1) (Fin 1) (Fin 1) (Fin 100) (Fin (1 / 10)) (Fin (1 / 10))
    (@mk5 XNum (Fin 1) (Fin 1) (Fin 1) (Fin 0) (Fin 1)) (Fin 100) (Fin 0) (Fin 1) (Fin 0) (Fin 1) (Fin 0) (Fin 0) false.
Definition o_side : qlaw XNum := with_run o_low (Some p_side) None false 0%Z.
Lemma C91_angles_case : let T' := [Fin 2; Fin (1 / 2); Fin 1; Fin (5 / 2); Fin 1] in
  built Keplerian o_side /\ same_demand (p_woe p_side) (p_oeT p_side) T' /\ exists o1 h, ran 11 o_side zeta zeta p_side o1 h /\ length (h_states h) = 11%nat /\
    forall z, In z (h_states h) -> clear_of (p_oeT p_side) T' z.
Proof.
  intros T'. destruct C82_case as (F & B & _ & RM & _).
  assert (F' : fractional_law o_side) by exact F.
  assert (B' : below_target o_side p_side).
  { destruct B as (B1 & B2 & _). split; [exact B1|]. split; [exact B2|]. exists 1, 2, 1, (1 / 1000), (1 / 100). do 8 eexists. repeat (split; [first [reflexivity|lra]|]). lra. }
  assert (P' : finite_problem p_side a_low) by repeat split.
  split; [exact (proj1 F')|]. split.
  { do 9 eexists. split; [reflexivity|]. split; [reflexivity|]. split; [left; reflexivity|]. split; [left; reflexivity|]. split; [|left; reflexivity].
    right. split; [reflexivity|]. split; eexists; reflexivity. }
  destruct (C82_lem o_side p_side zeta zeta a_low F' B' P' RM eq_refl ltac:(discriminate) 11%nat ltac:(cbn; lia)) as (o1 & h & R & _ & _ & _ & L & K).
  change (S (Z.to_nat (q_nan_thr o_side))) with 11%nat in L. change (Z.to_nat (q_nan_thr o_side)) with 10%nat in K.
  exists o1, h. split; [exact R|]. split; [exact L|]. intros z I. apply In_nth_error in I. destruct I as [k I].
  assert (k < 11)%nat by (rewrite <- L; apply nth_error_Some; congruence).
  destruct (K k ltac:(lia)) as (_ & _ & _ & z' & Z & S & _). rewrite I in Z. injection Z as <-. apply slow_eq in S. destruct S as (_ & _ & _ & S3 & _). change (v6_3 z = Fin 1) in S3.
  pose proof PI2_1 as Pi. split; [|left; reflexivity]. right. rewrite S3. split; intros r s E1 E2; injection E1 as <-; injection E2 as <-.
  - replace (1 - 2) with (- (1)) by ring. rewrite sin_neg. assert (0 < sin 1) by (apply sin_gt_0; lra). lra.
  - replace (1 - 5 / 2) with (- (3 / 2)) by field. rewrite sin_neg. assert (0 < sin (3 / 2)) by (apply sin_gt_0; lra). lra.
Qed.

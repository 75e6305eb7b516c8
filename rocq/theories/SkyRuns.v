(** Cases for C98: a Moon and a Sun in the reference plane, an oblate planet spinning about its normal. *)
From Coq Require Import Reals Lra Lia ZArith String List Bool.
From Verif Require Import RMath RLib Num Base Elements Convergence Lyapunov Perturb RSpec ExportSpec LawSpec Qlaw Spec ElemProofs PtrbProofs MirrorSpec EffRuns FinSpec FinRuns ZeroCase SkySpec SkyProofs SkyFin.
Import ListNotations.
Local Open Scope R_scope.

Definition moon_sun (ID : string) : vec3 RNum := if String.eqb ID "10" then vec 100 0 0 else vec 0 2 0.
Definition sky_r : spice RNum := @mkspice RNum (fun _ => 1) (fun ID _ _ _ => moon_sun ID) (fun _ _ _ => ident) 100.
Definition sky_x : spice XNum := @mkspice XNum (fun _ => Fin 1) (fun ID _ _ _ => fin3 (moon_sun ID)) (fun _ _ _ => finm ident) (Fin 100).
Definition sky_m : spice XNum := @mkspice XNum (fun _ => Fin 1) (fun ID _ _ _ => fin3 (flip (moon_sun ID))) (fun _ _ _ => finm (flip_rotation ident)) (Fin 100).
Definition earth : ptrb_obj RNum :=
  @mkptrb RNum 0 1 1 "399" "J2000" "ITRF93" (Some ["301"%string]) (Some [1 / 80]) (1 / 1000) 1 (1 / 1000) true true 1.
Definition o_sky : qlaw XNum := @mkqlaw XNum (q_mu o_one) (q_rpmin o_one) (q_k o_one) (q_m o_one) (q_n o_one) (q_r o_one) (q_b o_one) (q_wp o_one) (q_etype o_one) (q_integ o_one) (q_grid o_one)
  (q_tol o_one) (q_tol_relaxed o_one) (q_exit_relaxed o_one) (q_oe_min o_one) (q_oe_max o_one) (q_nan_thr o_one) (q_eom o_one) (q_lyap o_one) (q_dqdt o_one) (q_check o_one)
  (q_step_min o_one) (q_step_max o_one) (q_ode_tol o_one) (q_sundman o_one) (Some (built_in sky_x (float_settings earth))) (q_problem o_one) None false 0%Z.

Lemma sky_planar : bodies_in_plane sky_x (float_settings earth) /\ sun_in_plane sky_x (float_settings earth) /\ axis_normal sky_x (float_settings earth).
Proof.
  split; [|split].
  - intros ns ID et _ _. cbn [sky_x sp_pos]. unfold moon_sun. destruct (String.eqb ID "10"); reflexivity.
  - intros _ et. reflexivity.
  - intros _ et. exists (Fin 1), (Fin 0), (Fin 0), (Fin 1), (Fin 1). reflexivity.
Qed.
Lemma sky_floats : float_sky sky_r sky_x /\ float_sky (flip_sky sky_r) sky_m.
Proof. split; (split; [|split]); intros; reflexivity. Qed.
Lemma sky_state : state_of (N:=RNum) MeeWithA oe_eff (pt_obs_mu earth) = Ok (concat33 (vec (- (3 / 2)) 0 0) (vec 0 (- (sqrt (4 / 3) / 2)) 0)).
Proof.
  destruct (C50_pos 1 (1 / 2) 0 0 0 PI 1 ltac:(lra) ltac:(lra) ltac:(lra)) as (s & E & P & _).
  unfold state_of, oe_eff. change (pt_obs_mu earth) with 1. rewrite E. rewrite P by (right; right; lra).
  unfold mee_r, mee_v, vec. cbv zeta. rewrite cos_PI, sin_PI.
  replace (1 / (1 * (1 - 1 / 2 * (1 / 2) - 0 * 0))) with (4 / 3) by field. cbn [concat33]. f_equal. f_equal; field.
Qed.
Lemma sky_elliptic : elliptic MeeWithA oe_eff.
Proof. unfold oe_eff, elems. cbn [elliptic]. lra. Qed.
Lemma sky_clear : clear_of_sun sky_r earth 0 MeeWithA oe_eff.
Proof.
  intros _ s E. rewrite sky_state in E. apply ok_inj in E. subst s. intros Z. apply (f_equal (fun v : vec3 RNum => let 'mk3 x _ _ := v in x)) in Z. cbn in Z. lra.
Qed.
Lemma norm_pos (u : vec3 RNum) : norm u <> 0 <-> u <> vec 0 0 0.
Proof.
  split; intros H E; apply H; [rewrite E|exact (norm_0 u E)]. unfold norm, vec. cbn. rewrite !Rmult_0_l, !Rplus_0_l. apply sqrt_0.
Qed.
Lemma sky_pull : exists v, get_perturbations_RTN (N:=RNum) sky_r earth 0 oe_eff MeeWithA = Ok v.
Proof.
  change (exists v, get_perturbations_by_name (N:=RNum) sky_r earth 0 oe_eff "mee_with_a" = Ok v).
  assert (J : exists j, perturbation_J2 (N:=RNum) (vec (- (3 / 2)) 0 0) ident 1 (1 / 1000) 1 = Ok j).
  { unfold perturbation_J2. cbv zeta. rewrite jdivR; [cbn [bind]; eexists; reflexivity|].
    change (2 * pow5 (N:=RNum) (norm (vec (- (3 / 2)) 0 0)) <> 0). replace (norm (vec (- (3 / 2)) 0 0)) with (3 / 2); [unfold pow5; cbn; lra|].
    symmetry. apply sqrt_pos_of; [lra|]. cbn. field. }
  destruct J as [j J]. eexists. eapply C62_lem with (j2 := j).
  - right. split; [reflexivity|]. exact sky_state.
  - reflexivity.
  - reflexivity.
  - intros mu3 ID I. cbn in I. destruct I as [I|[]]. injection I as <- <-. split; apply norm_pos; intros Z; apply (f_equal (fun v : vec3 RNum => let 'mk3 _ y _ := v in y)) in Z; cbn in Z; lra.
  - intros _. exact J.
Qed.
Lemma C98_case : built MeeWithA o_sky /\ q_problem o_sky = Some p_fin /\ flat (p_oe0 p_fin) /\ (exists a f g, p_oeT p_fin = [a; f; g; Fin 0; Fin 0]) /\
  q_ptrb o_sky = Some (built_in sky_x (float_settings earth)) /\
  bodies_in_plane sky_x (float_settings earth) /\ sun_in_plane sky_x (float_settings earth) /\ axis_normal sky_x (float_settings earth) /\
  exists v, built_in sky_x (float_settings earth) (Fin 0) (p_oe0 p_fin) MeeWithA = Ok v.
Proof.
  split; [repeat split|]. split; [reflexivity|]. split; [split; left; reflexivity|]. split; [do 3 eexists; reflexivity|]. split; [reflexivity|].
  destruct sky_planar as (A & B & C). split; [exact A|]. split; [exact B|]. split; [exact C|].
  destruct sky_pull as [v V]. unfold built_in. change (p_oe0 p_fin) with (fin6 oe_eff).
  assert (L : pt_LU earth <> 0) by (cbn; lra). assert (M : 0 < pt_obs_mu earth) by (cbn; lra).
  rewrite (C98_fin_lem sky_r sky_x earth 0 oe_eff MeeWithA (proj1 sky_floats) L M sky_elliptic sky_clear). rewrite V. eexists. reflexivity.
Qed.

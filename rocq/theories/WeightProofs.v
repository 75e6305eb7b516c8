(** How the control laws answer to a change of scale of weights, thrust level or gravitational parameter. *)
From Coq Require Import Reals Lra Lia ZArith List Bool.
From Verif Require Import RMath RLib Num Base Elements Integrate Eom Convergence Lyapunov Symbolic SymKep SymMee Perturb PlotHelper Qlaw Spec NanProofs ScaleSpec DimProofs ScaleProofs SymRun ScaleSolve TurnProofs TurnSolve WeightSpec.
Import ListNotations.
Local Open Scope R_scope.

Definition col_by (c : R) (v : vec5 XNum) : vec5 XNum := times5 c v.
Definition psi_by (c : R) (psi : psi_t XNum) : psi_t XNum := let 'mkpsi x y z := psi in @mkpsi XNum (times5 c x) (times5 c y) (times5 c z).
Definition ty_is (a : option ty) (l t : Z) : bool :=
  match a with Some TZero => true | Some (TDim l' t') => (Z.eqb l l' && Z.eqb t t')%bool | None => false end.
(** exponents of Q, the influence matrix, the thrust vector and dQ/dt *)
Record expo : Type := mkexpo { e_q : Z * Z; e_psi : Z * Z; e_u : Z * Z; e_d : Z * Z }.
Definition is (dv : var -> ty) (x : Z * Z) (e : expr) : bool := ty_is (dim_by dv e) (fst x) (snd x).
Definition gauge_ok (dv : var -> ty) (x : expo) (psi : list (list expr)) (q : expr) : bool :=
  (is dv (e_q x) q && is dv (e_d x) (dqdt_expr psi q) && forallb (is dv (e_q x)) (dqdoe q) && forallb (forallb (is dv (e_psi x))) psi
   && forallb (is dv (e_u x)) (usym psi q))%bool.

Section Gauge.
Variables s w : R.
Hypothesis Hs : 0 < s.
Hypothesis Hw : 0 < w.
Variable dv : var -> ty.
Variable x : expo.
Notation F a := (factor s w (fst a) (snd a)).
Lemma is_eval a env env' e : (forall v, typed s w (dv v) (env v) (env' v)) -> is dv a e = true ->
  eval (N:=XNum) env' e = xscale (F a) (eval (N:=XNum) env e).
Proof.
  intros H E. unfold is, ty_is in E. destruct (dim_by dv e) as [[|l' t']|] eqn:D; [| |discriminate].
  - exact (dim_zero_as s w Hs Hw dv env env' H _ e D).
  - apply andb_true_iff in E. destruct E as [E1 E2]. apply Z.eqb_eq in E1. apply Z.eqb_eq in E2. subst l' t'. exact (dim_as s w Hs Hw dv env env' H _ _ e D).
Qed.
Lemma is_eval3 a env env' l : (forall v, typed s w (dv v) (env v) (env' v)) -> forallb (is dv a) l = true ->
  eval3 (N:=XNum) env' l = v3s (F a) (eval3 (N:=XNum) env l).
Proof.
  intros H E. destruct l as [|a0 [|a1 [|a2 [|]]]]; try (unfold eval3, v3zero, v3s; change (nofZ (Num:=XNum) 0) with (Fin 0); rewrite xs_0; reflexivity).
  cbn [forallb] in E. repeat (apply andb_true_iff in E; destruct E as [? E]). cbn [eval3 v3s]. rewrite !(is_eval a env env') by assumption. reflexivity.
Qed.
Lemma is_eval5 a env env' l : (forall v, typed s w (dv v) (env v) (env' v)) -> forallb (is dv a) l = true ->
  eval5 (N:=XNum) env' l = times5 (F a) (eval5 (N:=XNum) env l).
Proof.
  intros H E. destruct l as [|a0 [|a1 [|a2 [|a3 [|a4 [|]]]]]]; try (unfold eval5, times5; change (nofZ (Num:=XNum) 0) with (Fin 0); rewrite xs_0; reflexivity).
  cbn [forallb] in E. repeat (apply andb_true_iff in E; destruct E as [? E]). cbn [eval5 times5]. rewrite !(is_eval a env env') by assumption. reflexivity.
Qed.
Lemma is_evalpsi a env env' l : (forall v, typed s w (dv v) (env v) (env' v)) -> forallb (forallb (is dv a)) l = true ->
  evalpsi (N:=XNum) env' l = psi_by (F a) (evalpsi (N:=XNum) env l).
Proof.
  intros H E. destruct l as [|a0 [|a1 [|a2 [|]]]]; try (unfold evalpsi; cbn [psi_by]; rewrite <- !(is_eval5 a env env' []) by (try assumption; reflexivity); reflexivity).
  cbn [forallb] in E. repeat (apply andb_true_iff in E; destruct E as [? E]). cbn [evalpsi psi_by]. rewrite !(is_eval5 a env env') by assumption. reflexivity.
Qed.
Definition out_by (o : lyap_out XNum) : lyap_out XNum :=
  @mklyap XNum (v3s (F (e_u x)) (lo_u o)) (psi_by (F (e_psi x)) (lo_psi o)) (xscale (F (e_q x)) (lo_q o)) (times5 (F (e_q x)) (lo_dqdoe o)).
Lemma law_by psi q mu f oe oeT rpmin m n r b k wp woe mu' f' woe' : gauge_ok dv x psi q = true ->
  (forall T v, typed s w (dv v) (mkenv (N:=XNum) mu f oe T rpmin m n r b k wp woe v) (mkenv (N:=XNum) mu' f' oe T rpmin m n r b k wp woe' v)) ->
  lyap_of (N:=XNum) psi q mu' f' oe oeT rpmin m n r b k wp woe' = Rmap out_by (lyap_of (N:=XNum) psi q mu f oe oeT rpmin m n r b k wp woe) /\
  dqdt_of (N:=XNum) psi q mu' f' oe oeT rpmin m n r b k wp woe' = Rmap (xscale (F (e_d x))) (dqdt_of (N:=XNum) psi q mu f oe oeT rpmin m n r b k wp woe).
Proof.
  intros E H. unfold lyap_of, dqdt_of. destruct (list_to_vec5 oeT) as [T5|]; [|split; reflexivity]. specialize (H T5).
  set (env := mkenv (N:=XNum) mu f oe T5 rpmin m n r b k wp woe) in *.
  set (env' := mkenv (N:=XNum) mu' f' oe T5 rpmin m n r b k wp woe') in *. clearbody env env'. unfold gauge_ok in E.
  generalize dependent (usym psi q). generalize dependent (dqdoe q). generalize dependent (dqdt_expr psi q). intros dq dl ul E.
  repeat (apply andb_true_iff in E; destruct E as [E ?]). unfold out_by. cbn [Rmap lo_u lo_psi lo_q lo_dqdoe].
  rewrite (is_eval3 (e_u x) env env'), (is_evalpsi (e_psi x) env env'), (is_eval5 (e_q x) env env'), (is_eval (e_q x) env env'), (is_eval (e_d x) env env') by assumption.
  split; reflexivity.
Qed.
Lemma dot5_by c d g v : 0 < c -> 0 < d -> dot5 (N:=XNum) (times5 c g) (times5 d v) = xscale (c * d) (dot5 (N:=XNum) g v).
Proof. intros. destruct g, v. unfold dot5, times5. xnum. rewrite !xs_mul by assumption. rewrite !xs_add. reflexivity. Qed.
Lemma angles_by (fn fn' : lyap_fn XNum) mu f oe oeT rpmin m n r b k wp woe mu' f' woe' A :
  fn' mu' f' oe oeT rpmin m n r b k wp woe' = Rmap out_by (fn mu f oe oeT rpmin m n r b k wp woe) ->
  0 < A -> f' = xscale A f -> F (e_d x) = F (e_q x) * F (e_psi x) * A ->
  lyapunov_control_angles (N:=XNum) fn' mu' f' oe oeT rpmin m n r b k wp woe' =
  Rmap (angles_to (psi_by (F (e_psi x))) (F (e_q x)) (F (e_d x))) (lyapunov_control_angles (N:=XNum) fn mu f oe oeT rpmin m n r b k wp woe).
Proof.
  intros E HA -> HD. unfold lyapunov_control_angles. rewrite E. destruct (fn mu f oe oeT rpmin m n r b k wp woe) as [out|ex]; [|reflexivity].
  cbn [Rmap bind out_by lo_u lo_psi lo_q lo_dqdoe]. rewrite angles_scaled by (apply factor_pos; assumption).
  destruct (u_to_thrust_angles (lo_u out)) as [[[v al] be]|ex]; [|reflexivity]. cbn [bind].
  destruct (lo_psi out) as [c0 c1 c2]. cbn [psi_by]. rewrite !dot5_by by (apply factor_pos; assumption). cbn [Rmap angles_to psi_by]. f_equal. f_equal.
  assert (P : 0 < F (e_q x) * F (e_psi x)) by (apply Rmult_lt_0_compat; apply factor_pos; assumption).
  destruct v as [a1 a2 a3]. unfold dot3, v3scal. xnum. rewrite !(pl A) by exact HA. rewrite !xs_mul by assumption. rewrite HD, !xs_add. reflexivity.
Qed.
End Gauge.

(** ** the osculating extremes *)
Lemma osc_by D (o : qlaw XNum) (p : problem XNum) mu' woe' a a' x : 0 < D ->
  (forall x, q_dqdt o mu' a' x (p_oeT p) (q_rpmin o) (q_m o) (q_n o) (q_r o) (q_b o) (q_k o) (q_wp o) woe' =
     Rmap (xscale D) (q_dqdt o (q_mu o) a x (p_oeT p) (q_rpmin o) (q_m o) (q_n o) (q_r o) (q_b o) (q_k o) (q_wp o) (p_woe p))) ->
  forall o' p', q_grid o' = q_grid o -> q_dqdt o' = q_dqdt o -> q_mu o' = mu' -> q_rpmin o' = q_rpmin o -> q_m o' = q_m o -> q_n o' = q_n o -> q_r o' = q_r o ->
  q_b o' = q_b o -> q_k o' = q_k o -> q_wp o' = q_wp o -> p_woe p' = woe' -> p_oeT p' = p_oeT p ->
  evaluate_osculating_qdot (N:=XNum) o' p' x a' = Rmap (fun q : ereal * ereal => (xscale D (fst q), xscale D (snd q))) (evaluate_osculating_qdot (N:=XNum) o p x a).
Proof.
  intros HD H o' p' E1 E2 E3 E4 E5 E6 E7 E8 E9 E10 E11 E12. destruct x as [o0 o1 o2 o3 o4 o5]. unfold evaluate_osculating_qdot.
  rewrite E1, E2, E3, E4, E5, E6, E7, E8, E9, E10, E11, E12. set (pts := tl _).
  rewrite (mapM_rmap (fun an => q_dqdt o (q_mu o) a (@mk6 XNum o0 o1 o2 o3 o4 an) (p_oeT p) (q_rpmin o) (q_m o) (q_n o) (q_r o) (q_b o) (q_k o) (q_wp o) (p_woe p)) _ (xscale D)) by (intros; apply H).
  rewrite rmap_bind, bind_rmap. apply bind_ext. intros qs. rewrite maxl_scaled, minl_scaled by exact HD. rewrite rmap_bind, bind_rmap. apply bind_ext. intros q1.
  rewrite rmap_bind, bind_rmap. reflexivity.
Qed.

(** ** weights *)
Definition weight_dim (v : var) : ty := match v with VW0 | VW1 | VW2 | VW3 | VW4 => TDim 1 0 | _ => TDim 0 0 end.
Definition weight_expo : expo := mkexpo (1, 0)%Z (0, 0)%Z (1, 0)%Z (1, 0)%Z.
Lemma kep_weights : gauge_ok weight_dim weight_expo SymKep.psi SymKep.q = true.
Proof. vm_compute. reflexivity. Qed.
Lemma mee_weights : gauge_ok weight_dim weight_expo SymMee.psi SymMee.q = true.
Proof. vm_compute. reflexivity. Qed.
(** ** thrust level and gravitational parameter *)
Definition force_dim (v : var) : ty := match v with Vmu => TDim 2 0 | Vacc => TDim 0 1 | _ => TDim 0 0 end.
Definition force_expo : expo := mkexpo (2, -2)%Z (-1, 0)%Z (1, -2)%Z (1, -1)%Z.
Lemma kep_forces : gauge_ok force_dim force_expo SymKep.psi SymKep.q = true.
Proof. vm_compute. reflexivity. Qed.
Lemma mee_forces : gauge_ok force_dim force_expo SymMee.psi SymMee.q = true.
Proof. vm_compute. reflexivity. Qed.

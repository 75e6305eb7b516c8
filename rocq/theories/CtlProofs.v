(** Thrust direction and dQ/dt over the reals. *)
From Coq Require Import Reals Lra Lia ZArith List Bool Psatz.
From Verif Require Import RMath RLib DLib Num Base Lyapunov Symbolic SymKep SymMee RSpec ElemProofs DiffProofs IntegProofs.
Import ListNotations.
Local Open Scope R_scope.

Lemma atan_cos_sin x : cos (atan x) = / sqrt (1 + x * x) /\ sin (atan x) = x / sqrt (1 + x * x).
Proof. rewrite cos_atan, sin_atan. unfold Rsqr. split; [unfold Rdiv; ring|reflexivity]. Qed.

Lemma in_plane_pos (x y : R) : x <> 0 \/ y <> 0 -> 0 < x * x + y * y.
Proof. intros [H|H]; nra. Qed.

Lemma angles_lem (x y z : R) : x <> 0 \/ y <> 0 ->
  let D := vec x y z in
  exists alpha beta, u_to_thrust_angles (N:=RNum) D = Ok (scale (/ norm D) D, alpha, beta) /\
    direction alpha beta = scale (- / norm D) D /\ - PI < alpha <= PI /\ - (PI / 2) < beta < PI / 2.
Proof.
  intros H D. pose proof (in_plane_pos x y H) as Pxy.
  assert (Pn : 0 < x * x + y * y + z * z) by nra.
  unfold u_to_thrust_angles.
  change (nsqrt (Num:=RNum) (nadd (Num:=RNum) (nadd (Num:=RNum) (sq (v3_0 D)) (sq (v3_1 D))) (sq (v3_2 D)))) with (norm D).
  assert (Nn : norm D * norm D = x * x + y * y + z * z).
  { unfold D, norm. cbn. apply sqrt_sqrt. lra. }
  assert (Np : 0 < norm D). { unfold D, norm. cbn. apply sqrt_lt_R0. lra. }
  set (n := norm D) in *. clearbody n.
  assert (E : v3divs (N:=RNum) D n = vec (x / n) (y / n) (z / n)) by reflexivity.
  rewrite E. cbn [v3_0 v3_1 v3_2 vec].
  set (rho := sqrt (x / n * (x / n) + y / n * (y / n))).
  assert (R2 : rho * rho = x / n * (x / n) + y / n * (y / n)) by (apply sqrt_sqrt; nra).
  assert (Rp : 0 < rho).
  { apply sqrt_lt_R0. replace (x / n * (x / n) + y / n * (y / n)) with ((x * x + y * y) / (n * n)) by (field; lra).
    apply Rdiv_lt_0_compat; nra. }
  change (nsqrt (Num:=RNum) _) with rho.
  change (nopp (Num:=RNum)) with Ropp. rewrite jdivR by lra. cbn [bind].
  change (natan2 (Num:=RNum)) with Ratan2. change (natan (Num:=RNum)) with atan.
  assert (Z1 : rho * rho + z / n * (z / n) = 1).
  { rewrite R2. replace 1 with ((x * x + y * y + z * z) / (n * n)) by (rewrite <- Nn; field; lra). field. lra. }
  exists (Ratan2 (- (x / n)) (- (y / n))), (atan (- (z / n) / rho)).
  split; [|split; [|split]].
  - f_equal. f_equal. f_equal. unfold scale, D, vec. cbn. f_equal; field; lra.
  - destruct (atan2_polar (- (x / n)) (- (y / n)) rho Rp) as [Ca Sa]; [rewrite R2; ring|].
    destruct (atan_cos_sin (- (z / n) / rho)) as [Cb Sb].
    assert (Q : sqrt (1 + - (z / n) / rho * (- (z / n) / rho)) = / rho).
    { apply sqrt_pos_of; [apply Rlt_le, Rinv_0_lt_compat, Rp|].
      replace (/ rho * / rho) with ((rho * rho + z / n * (z / n)) / (rho * rho)) by (rewrite Z1; field; lra).
      field. lra. }
    rewrite Q in Cb, Sb. unfold direction. rewrite Ca, Sa, Cb, Sb. unfold scale, D, vec. cbn. f_equal; field; lra.
  - apply atan2_range.
  - pose proof (atan_bound (- (z / n) / rho)). lra.
Qed.

Lemma cauchy (u v : vec3 RNum) : (dot u v) * (dot u v) <= dot u u * dot v v.
Proof.
  destruct u as [a b c], v as [x y z]. unfold dot. cbn. cbn in a, b, c, x, y, z.
  pose proof (Rle_0_sqr (a * y - b * x)). pose proof (Rle_0_sqr (a * z - c * x)). pose proof (Rle_0_sqr (b * z - c * y)).
  unfold Rsqr in *. nra.
Qed.
Lemma dot_scale k u v : dot u (scale k v) = k * dot u v.
Proof. destruct u, v. unfold dot, scale. cbn. ring. Qed.
Lemma dot_scale_l k u v : dot (scale k u) v = k * dot u v.
Proof. destruct u, v. unfold dot, scale. cbn. ring. Qed.
Lemma descent (D v : vec3 RNum) : norm D <> 0 -> dot v v = 1 -> dot D (scale (- / norm D) D) <= dot D v.
Proof.
  intros H V. destruct (norm_sq D) as [Q P]. rewrite dot_scale, <- Q.
  replace (- / norm D * (norm D * norm D)) with (- norm D) by (field; exact H).
  pose proof (cauchy D v) as C. rewrite V, <- Q in C. nra.
Qed.
Lemma norm_in_plane x y z : x <> 0 \/ y <> 0 -> norm (vec x y z) <> 0.
Proof.
  intros H E. destruct (norm_sq (vec x y z)) as [Q _]. rewrite E in Q. unfold dot, vec in Q. cbn in Q.
  pose proof (in_plane_pos x y H). nra.
Qed.

Lemma C33_lem (fn : lyap_fn RNum) mu f oe oeT rpmin m n r b k wp woe out :
  fn mu f oe oeT rpmin m n r b k wp woe = Ok out ->
  let D := lo_u out in v3_0 D <> 0 \/ v3_1 D <> 0 ->
  exists alpha beta u psi q qdot,
    lyapunov_control_angles (N:=RNum) fn mu f oe oeT rpmin m n r b k wp woe = Ok (alpha, beta, u, psi, q, qdot) /\
    direction alpha beta = scale (- / norm D) D /\
    (forall v, dot v v = 1 -> dot D (direction alpha beta) <= dot D v) /\
    - PI < alpha <= PI /\ - (PI / 2) <= beta <= PI / 2.
Proof.
  intros HF D HD. destruct D as [x y z] eqn:ED. cbn [v3_0 v3_1] in HD.
  destruct (angles_lem x y z HD) as (al & be & E & Dir & Ra & Rb).
  unfold lyapunov_control_angles. rewrite HF. cbn [bind].
  change (u_to_thrust_angles (lo_u out)) with (u_to_thrust_angles (N:=RNum) D).
  rewrite ED. change (@mk3 RNum x y z) with (vec x y z). rewrite E. cbn [bind].
  destruct (lo_psi out) as [c0 c1 c2].
  do 6 eexists. split; [reflexivity|]. split; [exact Dir|]. split; [|split; [exact Ra|lra]].
  intros v Hv. rewrite Dir. apply descent; [apply norm_in_plane, HD|exact Hv].
Qed.
(** a purely normal gradient raises *)
Lemma C34_normal_lem (fn : lyap_fn RNum) mu f oe oeT rpmin m n r b k wp woe out :
  fn mu f oe oeT rpmin m n r b k wp woe = Ok out -> v3_0 (lo_u out) = 0 -> v3_1 (lo_u out) = 0 ->
  lyapunov_control_angles (N:=RNum) fn mu f oe oeT rpmin m n r b k wp woe = Err ZeroDivisionError.
Proof.
  intros HF Hx Hy. unfold lyapunov_control_angles. rewrite HF. cbn [bind].
  destruct (lo_u out) as [x y z]. cbn [v3_0 v3_1] in Hx, Hy. subst x y.
  unfold u_to_thrust_angles. set (nn := nsqrt _). clearbody nn. cbn [v3divs v3_0 v3_1 v3_2].
  match goal with |- context [jdiv _ ?d] => replace d with 0 end; [rewrite jdivR0; reflexivity|].
  symmetry. unfold sq. cbn. etransitivity; [|exact sqrt_0]. apply (f_equal sqrt). unfold Rdiv. change (@eq (@car RNum)) with (@eq R). ring.
Qed.

(** ** qdot *)
Definition shape35 (psi : list (list expr)) : Prop :=
  exists p00 p01 p02 p03 p04 p10 p11 p12 p13 p14 p20 p21 p22 p23 p24,
    psi = [[p00; p01; p02; p03; p04]; [p10; p11; p12; p13; p14]; [p20; p21; p22; p23; p24]].
Lemma shape_kep : shape35 SymKep.psi.
Proof. unfold SymKep.psi. do 15 eexists. reflexivity. Qed.
Lemma shape_mee : shape35 SymMee.psi.
Proof. unfold SymMee.psi. do 15 eexists. reflexivity. Qed.

Lemma qdot_lem psi q mu f oe T rpmin m n r b k wp woe :
  shape35 psi ->
  let env := mkenv (N:=RNum) mu f oe T rpmin m n r b k wp woe in
  let D := eval3 (N:=RNum) env (usym psi q) in
  let Tl := let '(mk5 t0 t1 t2 t3 t4) := T in [t0; t1; t2; t3; t4] in
  v3_0 D <> 0 \/ v3_1 D <> 0 ->
  exists alpha beta u P qv qdot,
    lyapunov_control_angles (N:=RNum) (lyap_of psi q) mu f oe Tl rpmin m n r b k wp woe = Ok (alpha, beta, u, P, qv, qdot) /\
    dqdt_of (N:=RNum) psi q mu f oe Tl rpmin m n r b k wp woe = Ok qdot /\
    qdot = f * norm D /\
    P = evalpsi env psi /\ qv = reval env q /\
    dot5R (eval5 (N:=RNum) env (dqdoe q)) (slow_rate P (scale f (direction alpha beta))) = - qdot.
Proof.
  intros (p00 & p01 & p02 & p03 & p04 & p10 & p11 & p12 & p13 & p14 & p20 & p21 & p22 & p23 & p24 & ->) env D Tl HD.
  assert (ET : list_to_vec5 Tl = Some T) by (destruct T; reflexivity).
  unfold lyapunov_control_angles, lyap_of, dqdt_of. rewrite ET. fold env. cbn [bind lo_u lo_psi lo_q lo_dqdoe]. fold D.
  destruct D as [x y z] eqn:ED. cbn [v3_0 v3_1] in HD.
  destruct (angles_lem x y z HD) as (al & be & E & Dir & _).
  change (@mk3 RNum x y z) with (vec x y z) in *. rewrite E. cbn [bind].
  pose proof (norm_in_plane x y z HD) as Nn. destruct (norm_sq (vec x y z)) as [Nq Np].
  unfold D, usym, dqdoe, oe_vars in ED. cbn [map edot5 eval3] in ED. 
  pose proof (f_equal (@v3_0 RNum) ED) as Ex. pose proof (f_equal (@v3_1 RNum) ED) as Ey. pose proof (f_equal (@v3_2 RNum) ED) as Ez.
  unfold vec in Ex, Ey, Ez. cbn [v3_0 v3_1 v3_2] in Ex, Ey, Ez.
  unfold evalpsi, eval5, dqdoe, oe_vars. cbn [map].
  rewrite !ev_add, !ev_mul in Ex, Ey, Ez.
  set (d0 := reval env (diff Voe0 q)) in *. set (d1 := reval env (diff Voe1 q)) in *. set (d2 := reval env (diff Voe2 q)) in *.
  set (d3 := reval env (diff Voe3 q)) in *. set (d4 := reval env (diff Voe4 q)) in *.
  assert (Q1 : dot (vec x y z) (scale f (scale (/ norm (vec x y z)) (vec x y z))) = f * norm (vec x y z)).
  { rewrite !dot_scale, <- Nq. field. exact Nn. }
  do 6 eexists. split; [reflexivity|]. split; [|split; [|split; [reflexivity|split; [reflexivity|]]]].
  - f_equal. unfold dqdt_expr, usym, dqdoe, oe_vars. cbn [map edot5].
    rewrite !ev_mul, !ev_add, !ev_mul, !ev_add, !ev_mul, !ev_div, !ev_sqrt, !ev_add, !ev_sq, !ev_add, !ev_mul.
    change (reval env Eacc) with f. fold d0 d1 d2 d3 d4. rewrite Ex, Ey, Ez.
    change (sqrt (x * x + y * y + z * z)) with (norm (vec x y z)). set (nn := norm (vec x y z)) in *. clearbody nn.
    unfold dot5, scale. cbn. rewrite <- Ex, <- Ey, <- Ez. field. exact Nn.
  - etransitivity; [|exact Q1]. unfold dot5, dot, scale. set (nn := norm (vec x y z)) in *. clearbody nn. cbn.
    rewrite <- Ex, <- Ey, <- Ez. ring.
  - rewrite Dir. transitivity (- dot (vec x y z) (scale f (scale (/ norm (vec x y z)) (vec x y z)))).
    + set (nn := norm (vec x y z)) in *. clearbody nn. unfold dot5R, slow_rate, dot, scale. cbn.
      rewrite <- Ex, <- Ey, <- Ez. ring.
    + f_equal. unfold dot5, dot, scale. set (nn := norm (vec x y z)) in *. clearbody nn. cbn.
      rewrite <- Ex, <- Ey, <- Ez. ring.
Qed.

(** Orbital element conversions over the reals. *)
From Coq Require Import Reals Lra Lia ZArith List Bool Psatz Nsatz.
From Verif Require Import RMath RLib Num Base Elements RSpec.
Import ListNotations.
Local Open Scope R_scope.

Lemma jdivR (x y : R) : y <> 0 -> jdiv (N:=RNum) x y = Ok (x / y).
Proof. intros H. unfold jdiv. cbn. destruct (Reqb_spec y 0); [contradiction|reflexivity]. Qed.
Lemma jdivR0 (x : R) : jdiv (N:=RNum) x 0 = Err ZeroDivisionError.
Proof. unfold jdiv. cbn. destruct (Reqb_spec 0 0); [reflexivity|contradiction]. Qed.

Lemma dot_in_plane i raan x y x' y' : dot (in_plane i raan x y) (in_plane i raan x' y') = x * x' + y * y'.
Proof.
  unfold dot, in_plane, vec. cbn. pose proof (sincos i). pose proof (sincos raan). nsatz.
Qed.
Lemma cross_in_plane i raan x y x' y' :
  cross (in_plane i raan x y) (in_plane i raan x' y') = scale (x * y' - y * x') (plane_normal i raan).
Proof.
  unfold cross, scale, in_plane, plane_normal, vec. cbn. pose proof (sincos i). pose proof (sincos raan).
  f_equal; nsatz.
Qed.
Lemma cross_normal i raan k x y :
  cross (in_plane i raan x y) (scale k (plane_normal i raan)) = in_plane i raan (k * y) (- (k * x)).
Proof.
  unfold cross, scale, in_plane, plane_normal, vec. cbn. pose proof (sincos i). pose proof (sincos raan).
  f_equal; nsatz.
Qed.
Lemma norm_in_plane i raan x y r : 0 <= r -> x * x + y * y = r * r -> norm (in_plane i raan x y) = r.
Proof.
  intros H E. unfold norm, norm3. change (nsqrt (Num:=RNum)) with sqrt.
  change (dot3 (N:=RNum)) with dot. rewrite dot_in_plane, E. apply sqrt_square, H.
Qed.
Lemma norm_normal i raan k : 0 <= k -> norm (scale k (plane_normal i raan)) = k.
Proof.
  intros H. unfold norm, norm3, scale, plane_normal, vec. cbn. apply sqrt_pos_of; [exact H|].
  pose proof (sincos i). pose proof (sincos raan). nsatz.
Qed.

Lemma rot3_0 v : matvec (rotmat3 (N:=RNum) (- 0)) v = v.
Proof. destruct v as [x y z]. cbn. rewrite Ropp_0, cos_0, sin_0. f_equal; lra. Qed.
Lemma rot1_0 v : matvec (rotmat1 (N:=RNum) (- 0)) v = v.
Proof. destruct v as [x y z]. cbn. rewrite Ropp_0, cos_0, sin_0. f_equal; lra. Qed.

Lemma ecos_pos e t : 0 <= e < 1 -> 0 < 1 + e * cos t.
Proof. intros H. pose proof (COS_bound t). nra. Qed.
Lemma ee_pos e : 0 <= e < 1 -> 0 < 1 - e * e.
Proof. intros. nra. Qed.

(** The conditionals on zero angles do not matter. *)
Lemma kep2sv_rot (a e i raan om ta mu c d : R) :
  jdiv (N:=RNum) (sqrt (a * mu * (1 - e * e)) * sqrt (a * mu * (1 - e * e))) (mu * (1 + e * cos ta)) = Ok c ->
  jdiv (N:=RNum) mu (sqrt (a * mu * (1 - e * e))) = Ok d ->
  let T := fun v => matvec (rotmat3 (N:=RNum) (- raan)) (matvec (rotmat1 (N:=RNum) (- i)) (matvec (rotmat3 (N:=RNum) (- om)) v)) in
  kep2sv (N:=RNum) (elems a e i raan om ta) mu =
  Ok (concat33 (T (v3scal (N:=RNum) c (vec (cos ta) (sin ta) 0))) (T (v3scal (N:=RNum) d (vec (- sin ta) (e + cos ta) 0)))).
Proof.
  intros Hc Hd T. unfold kep2sv, elems.
  change (nsqrt (Num:=RNum) (nmul (Num:=RNum) (nmul (Num:=RNum) a mu) (nsub (Num:=RNum) (nofZ (Num:=RNum) 1) (sq (N:=RNum) e))))
    with (sqrt (a * mu * (1 - e * e))).
  change (jdiv (N:=RNum) (sq (N:=RNum) (sqrt (a * mu * (1 - e * e))))
    (nmul (Num:=RNum) mu (nadd (Num:=RNum) (nofZ (Num:=RNum) 1) (nmul (Num:=RNum) e (ncos (Num:=RNum) ta)))))
    with (jdiv (N:=RNum) (sqrt (a * mu * (1 - e * e)) * sqrt (a * mu * (1 - e * e))) (mu * (1 + e * cos ta))).
  rewrite Hc. cbn [bind]. rewrite Hd. cbn [bind].
  change (neqb (Num:=RNum) om (nofZ (Num:=RNum) 0)) with (Reqb om 0).
  change (neqb (Num:=RNum) i (nofZ (Num:=RNum) 0)) with (Reqb i 0).
  change (neqb (Num:=RNum) raan (nofZ (Num:=RNum) 0)) with (Reqb raan 0).
  change (nopp (Num:=RNum)) with Ropp.
  unfold T, vec.
  destruct (Reqb_spec om 0) as [E1|]; [rewrite E1, !rot3_0|];
  (destruct (Reqb_spec i 0) as [E2|]; [rewrite E2, !rot1_0|]);
  (destruct (Reqb_spec raan 0) as [E3|]; [rewrite E3, !rot3_0|]); reflexivity.
Qed.

Lemma kep2sv_closed (a e i raan om ta mu : R) : 0 < mu -> 0 < a -> 0 <= e < 1 ->
  kep2sv (N:=RNum) (elems a e i raan om ta) mu = Ok (concat33 (kep_r a e i raan om ta) (kep_v mu a e i raan om ta)).
Proof.
  intros Hmu Ha He. pose proof (ecos_pos e ta He) as Hc. pose proof (ee_pos e He) as Hee.
  assert (Hp : 0 < a * (1 - e * e)) by (apply Rmult_lt_0_compat; assumption).
  assert (Hp2 : 0 < a * mu * (1 - e * e)) by (apply Rmult_lt_0_compat; nra).
  assert (Hs : 0 < sqrt (a * mu * (1 - e * e))) by (apply sqrt_lt_R0; exact Hp2).
  rewrite (kep2sv_rot a e i raan om ta mu (a * (1 - e * e) / (1 + e * cos ta)) (sqrt (mu / (a * (1 - e * e))))).
  - f_equal. unfold kep_r, kep_v, in_plane, vec. cbn. rewrite !cos_neg, !sin_neg, !cos_plus, !sin_plus.
    f_equal; ring.
  - rewrite sqrt_sqrt by lra. rewrite jdivR by (apply Rgt_not_eq, Rmult_lt_0_compat; assumption). f_equal. field. lra.
  - rewrite jdivR by lra. f_equal.
    symmetry. apply sqrt_pos_of; [apply Rlt_le, Rdiv_lt_0_compat; assumption|].
    apply (Rmult_eq_reg_r (a * mu * (1 - e * e))); [|lra].
    replace (mu / (a * (1 - e * e)) * (a * mu * (1 - e * e))) with (mu * mu) by (field; lra).
    set (s := sqrt (a * mu * (1 - e * e))) in *.
    replace (a * mu * (1 - e * e)) with (s * s) by (unfold s; apply sqrt_sqrt; lra). field. lra.
Qed.

Lemma scale_in_plane i raan k x y : scale k (in_plane i raan x y) = in_plane i raan (k * x) (k * y).
Proof. unfold scale, in_plane, vec. cbn. f_equal; ring. Qed.
Lemma sub_in_plane i raan x y x' y' :
  v3sub (N:=RNum) (in_plane i raan x y) (in_plane i raan x' y') = in_plane i raan (x - x') (y - y').
Proof. unfold in_plane, vec. cbn. f_equal; ring. Qed.
Lemma div_in_plane i raan k x y : v3divs (N:=RNum) (in_plane i raan x y) k = in_plane i raan (x / k) (y / k).
Proof. unfold in_plane, vec. cbn. f_equal; unfold Rdiv; ring. Qed.
Lemma parts r v : rpart (N:=RNum) (concat33 r v) = r /\ vpart (N:=RNum) (concat33 r v) = v.
Proof. destruct r, v. split; reflexivity. Qed.
Lemma concat_parts s : concat33 (N:=RNum) (rpart s) (vpart s) = s.
Proof. destruct s. reflexivity. Qed.

Section KepState.
Variables (mu a e i raan om ta : R).
Hypotheses (Hmu : 0 < mu) (Ha : 0 < a) (He : 0 <= e < 1).
Let p := a * (1 - e * e).
Let c := sqrt (mu / p).
Let rho := p / (1 + e * cos ta).
Let H := p * c.
Let r := kep_r a e i raan om ta.
Let v := kep_v mu a e i raan om ta.
Let s := concat33 (N:=RNum) r v.

Lemma ks_p : 0 < p.
Proof. apply Rmult_lt_0_compat; [exact Ha|apply ee_pos, He]. Qed.
Lemma ks_c : 0 < c /\ c * c * p = mu.
Proof.
  pose proof ks_p. assert (0 < mu / p) by (apply Rdiv_lt_0_compat; assumption).
  split; [apply sqrt_lt_R0; assumption|]. unfold c. rewrite sqrt_sqrt by lra. field. lra.
Qed.
Lemma ks_rho : 0 < rho.
Proof. pose proof ks_p. pose proof (ecos_pos e ta He). apply Rdiv_lt_0_compat; assumption. Qed.
Lemma ks_H : 0 < H /\ H * H = mu * p /\ H = sqrt (mu * p).
Proof.
  pose proof ks_p. destruct ks_c as [C1 C2]. assert (0 < H) by (apply Rmult_lt_0_compat; assumption).
  assert (H * H = mu * p) by (unfold H; rewrite <- C2; ring).
  repeat split; [assumption..|]. symmetry. apply sqrt_pos_of; [lra|congruence].
Qed.

Lemma ks_norm_r : norm r = rho.
Proof.
  pose proof ks_rho. apply norm_in_plane; [lra|]. fold p rho. pose proof (sincos (om + ta)). nsatz.
Qed.
Lemma ks_v2 : dot v v = c * c * (1 + 2 * e * cos ta + e * e).
Proof.
  unfold v, kep_v. rewrite dot_in_plane. fold p c.
  replace ta with ((om + ta) - om) at 5 by ring. rewrite (cos_minus (om + ta) om).
  pose proof (sincos (om + ta)). pose proof (sincos om). nsatz.
Qed.
Lemma ks_energy : dot v v / 2 - mu / rho = - mu / (2 * a).
Proof.
  rewrite ks_v2. pose proof ks_p as Hp. destruct ks_c as [C1 C2]. pose proof (ecos_pos e ta He).
  assert (E : c * c = mu / p) by (rewrite <- C2; field; lra).
  rewrite E. unfold rho. unfold p in *. field. pose proof (ee_pos e He). repeat split; lra.
Qed.
Lemma ks_h : cross r v = scale H (plane_normal i raan).
Proof.
  unfold r, v, kep_r, kep_v. rewrite cross_in_plane. f_equal. fold p c rho.
  pose proof (ecos_pos e ta He) as Hc. unfold H.
  transitivity (rho * c * (1 + e * cos ta)); [|unfold rho; field; lra].
  replace ta with ((om + ta) - om) at 5 by ring. rewrite (cos_minus (om + ta) om).
  pose proof (sincos (om + ta)). nsatz.
Qed.
Lemma ks_ecc : v3sub (N:=RNum) (scale (1 / mu) (cross v (cross r v))) (v3divs (N:=RNum) r (norm r)) =
  in_plane i raan (e * cos om) (e * sin om).
Proof.
  rewrite ks_h, ks_norm_r. unfold v, r, kep_v, kep_r. fold p c rho.
  rewrite cross_normal, scale_in_plane, div_in_plane, sub_in_plane.
  destruct ks_c as [C1 C2]. pose proof ks_rho. pose proof ks_p.
  f_equal.
  - replace (1 / mu * (H * (c * (cos (om + ta) + e * cos om)))) with (cos (om + ta) + e * cos om).
    + field. lra.
    + unfold H. apply (Rmult_eq_reg_l mu); [|lra]. rewrite <- C2 at 1. field. lra.
  - replace (1 / mu * - (H * - (c * (sin (om + ta) + e * sin om)))) with (sin (om + ta) + e * sin om).
    + field. lra.
    + unfold H. apply (Rmult_eq_reg_l mu); [|lra]. rewrite <- C2 at 1. field. lra.
Qed.

Lemma ks_get_ecc : get_eccentricity (N:=RNum) s mu = Ok (in_plane i raan (e * cos om) (e * sin om)).
Proof.
  unfold get_eccentricity, s. destruct (parts r v) as [-> ->].
  change (nofZ (Num:=RNum) 1) with 1. rewrite jdivR by lra. cbn [bind]. f_equal. apply ks_ecc.
Qed.
Lemma ks_norm_ecc : norm (in_plane i raan (e * cos om) (e * sin om)) = e.
Proof. apply norm_in_plane; [lra|]. pose proof (sincos om). nsatz. Qed.
Lemma ks_get_sma : get_semiMajorAxis (N:=RNum) s mu = Ok a.
Proof.
  unfold get_semiMajorAxis. rewrite ks_get_ecc. unfold s. destruct (parts r v) as [-> ->]. cbn [bind].
  change (cross3 (N:=RNum) r v) with (cross r v). rewrite ks_h.
  change (norm3 (N:=RNum)) with norm. rewrite ks_norm_ecc.
  destruct ks_H as (H1 & H2 & _). rewrite norm_normal by lra. unfold sq.
  change (nmul (Num:=RNum)) with Rmult. change (nsub (Num:=RNum) (nofZ (Num:=RNum) 1)) with (Rminus 1).
  pose proof (ee_pos e He). rewrite jdivR by (apply Rgt_not_eq, Rmult_lt_0_compat; assumption).
  f_equal. rewrite H2. unfold p. field. lra.
Qed.
Lemma ks_get_inc : 0 <= i <= PI -> get_inclination (N:=RNum) s = Ok i.
Proof.
  intros Hi. unfold get_inclination, s. destruct (parts r v) as [-> ->].
  change (cross3 (N:=RNum) r v) with (cross r v). rewrite ks_h.
  change (norm3 (N:=RNum)) with norm. destruct ks_H as (H1 & H2 & _). rewrite norm_normal by lra.
  rewrite jdivR by lra. cbn. f_equal. replace (H * cos i / H) with (cos i) by (field; lra).
  apply acos_cos. exact Hi.
Qed.
Lemma ks_ndir : cross3 (N:=RNum) (vec 0 0 1) (cross r v) = in_plane i raan (H * sin i) 0.
Proof. rewrite ks_h. unfold in_plane, vec. cbn. f_equal; ring. Qed.
Lemma ks_get_raan : 0 < sin i -> - PI < raan <= PI -> get_raan (N:=RNum) s = Ok raan.
Proof.
  intros Hi Hr. unfold get_raan, s. destruct (parts r v) as [-> ->].
  change (mk3 (nofZ (Num:=RNum) 0) (nofZ (Num:=RNum) 0) (nofZ (Num:=RNum) 1)) with (vec 0 0 1).
  change (cross3 (N:=RNum) r v) with (cross r v). rewrite ks_ndir. cbn. f_equal.
  destruct ks_H as (H1 & _).
  replace (H * sin i * sin raan + 0 * (cos raan * cos i)) with (H * sin i * sin raan) by ring.
  replace (H * sin i * cos raan - 0 * (sin raan * cos i)) with (H * sin i * cos raan) by ring.
  apply atan2_angle_eq; [nra|exact Hr].
Qed.
Lemma ks_get_omega : 0 < e -> 0 < sin i -> / 10 ^ 12 <= sqrt (mu * p) * sin i * e -> 0 <= om < 2 * PI ->
  get_omega (N:=RNum) s mu = Ok om.
Proof.
  intros He0 Hi Hth Hom. unfold get_omega, s. destruct (parts r v) as [-> ->].
  rewrite jdivR by lra. cbn [bind]. change (nofZ (Num:=RNum) 1) with 1.
  change (mk3 (nofZ (Num:=RNum) 0) (nofZ (Num:=RNum) 0) 1) with (vec 0 0 1). change (nofZ (Num:=RNum) 0) with 0.
  change (cross3 (N:=RNum) r v) with (cross r v). rewrite ks_ndir.
  change (v3scal (N:=RNum)) with scale. change (cross3 (N:=RNum)) with cross.
  change (norm3 (N:=RNum)) with norm. rewrite ks_ecc, ks_norm_ecc.
  destruct ks_H as (H1 & H2 & H3).
  rewrite (norm_in_plane i raan (H * sin i) 0 (H * sin i)); [|nra|ring].
  change (nmul (Num:=RNum)) with Rmult. change (nabs (Num:=RNum)) with Rabs.
  assert (Hpos : 0 < H * sin i * e) by (apply Rmult_lt_0_compat; [apply Rmult_lt_0_compat|]; assumption).
  rewrite Rabs_right by lra.
  replace (nleb (Num:=RNum) (dec (N:=RNum) 1 12) (H * sin i * e)) with true.
  2:{ symmetry. apply Rleb_true. change (dec (N:=RNum) 1 12) with (1 / 1000000000000).
      rewrite H3. replace (1 / 1000000000000) with (/ 10 ^ 12) by (simpl; field). exact Hth. }
  rewrite jdivR by lra. cbn [bind].
  change (dot3 (N:=RNum)) with dot. rewrite dot_in_plane.
  replace ((H * sin i * (e * cos om) + 0 * (e * sin om)) / (H * sin i * e)) with (cos om).
  2:{ field. repeat split; lra. }
  change (nltb (Num:=RNum)) with Rltb. change (nacos (Num:=RNum)) with acos.
  replace (v3_2 (in_plane i raan (e * cos om) (e * sin om))) with (e * sin om * sin i) by reflexivity.
  change (npi (Num:=RNum)) with PI. change (nsub (Num:=RNum) (2 * PI)) with (Rminus (2 * PI)).
  pose proof PI_RGT_0.
  destruct (Rltb_spec (e * sin om * sin i) 0) as [L|L].
  - assert (sin om < 0).
    { destruct (Rlt_or_le (sin om) 0) as [K|K]; [exact K|]. exfalso.
      assert (0 <= e * sin om * sin i) by (repeat apply Rmult_le_pos; lra). lra. }
    assert (PI < om).
    { destruct (Rlt_or_le PI om) as [K|K]; [exact K|]. pose proof (sin_ge_0 om). lra. }
    f_equal. change (nmul (Num:=RNum) 2 PI - acos (cos om) = om). change (nmul (Num:=RNum) 2 PI) with (2 * PI).
    replace (cos om) with (cos (2 * PI - om)).
    + rewrite acos_cos by lra. ring.
    + rewrite cos_minus, cos_2PI, sin_2PI. ring.
  - assert (0 <= sin om).
    { destruct (Rlt_or_le (sin om) 0) as [K|K]; [|exact K]. exfalso.
      assert (0 < e * - sin om * sin i) by (repeat apply Rmult_lt_0_compat; lra). lra. }
    assert (om <= PI).
    { destruct (Rlt_or_le PI om) as [K|K]; [|exact K]. pose proof (sin_lt_0 om). lra. }
    f_equal. apply acos_cos. lra.
Qed.
Lemma ks_get_ta : 0 < e -> - PI < ta <= PI -> get_trueanom (N:=RNum) s mu = Ok ta.
Proof.
  intros He0 Hta. unfold get_trueanom, s. destruct (parts r v) as [-> ->].
  change (cross3 (N:=RNum) r v) with (cross r v). rewrite ks_h.
  change (norm3 (N:=RNum)) with norm. destruct ks_H as (H1 & H2 & _). rewrite norm_normal by lra.
  rewrite ks_norm_r. pose proof ks_rho as Hr. rewrite jdivR by lra. cbn [bind]. rewrite jdivR by lra. cbn [bind].
  f_equal. change (dot3 (N:=RNum)) with dot. unfold sq.
  change (nmul (Num:=RNum)) with Rmult. change (nsub (Num:=RNum)) with Rminus. change (natan2 (Num:=RNum)) with Ratan2.
  unfold v, r, kep_v, kep_r. rewrite dot_in_plane. fold p c rho. pose proof ks_p. destruct ks_c as [C1 C2].
  pose proof (ecos_pos e ta He).
  replace (H * ((- (c * (sin (om + ta) + e * sin om)) * (rho * cos (om + ta)) +
       c * (cos (om + ta) + e * cos om) * (rho * sin (om + ta))) / rho)) with (mu * e * sin ta).
  2:{ replace (sin ta) with (sin ((om + ta) - om)) by (f_equal; ring). rewrite sin_minus.
      unfold H. rewrite <- C2. field. lra. }
  replace (H * H / rho - mu) with (mu * e * cos ta).
  2:{ rewrite H2. unfold rho. field. split; lra. }
  apply atan2_angle_eq; [nra|exact Hta].
Qed.
End KepState.

Lemma C46_lem (mu a e i raan om ta : R) : 0 < mu -> 0 < a -> 0 <= e < 1 ->
  exists r v, kep2sv (N:=RNum) (elems a e i raan om ta) mu = Ok (concat33 r v) /\
    norm r = a * (1 - e * e) / (1 + e * cos ta) /\
    dot v v / 2 - mu / norm r = - mu / (2 * a) /\
    cross r v = scale (sqrt (mu * (a * (1 - e * e)))) (plane_normal i raan).
Proof.
  intros Hmu Ha He. exists (kep_r a e i raan om ta), (kep_v mu a e i raan om ta).
  split; [apply kep2sv_closed; assumption|]. rewrite ks_norm_r by assumption.
  split; [reflexivity|]. split; [apply ks_energy; assumption|].
  rewrite ks_h by assumption. f_equal. apply ks_H; assumption.
Qed.

Lemma C47_lem (mu a e i raan om ta : R) : 0 < mu -> 0 < a -> 0 < e < 1 -> 0 < i < PI ->
  - PI < raan <= PI -> 0 <= om < 2 * PI -> - PI < ta <= PI ->
  / 10 ^ 12 <= sqrt (mu * (a * (1 - e * e))) * sin i * e ->
  exists s, kep2sv (N:=RNum) (elems a e i raan om ta) mu = Ok s /\
            sv2kep (N:=RNum) s mu = Ok (elems a e i raan om ta).
Proof.
  intros Hmu Ha He Hi Hraan Hom Hta Hth. eexists. split; [apply kep2sv_closed; lra|].
  assert (He' : 0 <= e < 1) by lra. assert (Hs : 0 < sin i) by (apply sin_gt_0; lra).
  unfold sv2kep. rewrite ks_get_sma, ks_get_ecc, ks_get_inc, ks_get_raan, ks_get_omega, ks_get_ta by (assumption || lra).
  cbn [bind]. change (norm3 (N:=RNum)) with norm. rewrite ks_norm_ecc by assumption. reflexivity.
Qed.

(** ** Equinoctial elements *)

Lemma polar x y : sqrt (x * x + y * y) * cos (Ratan2 y x) = x /\ sqrt (x * x + y * y) * sin (Ratan2 y x) = y.
Proof.
  destruct (Req_dec (x * x + y * y) 0) as [E|E].
  - rewrite E, sqrt_0. apply sum_sq_0 in E as [-> ->]. split; ring.
  - assert (H : 0 < x * x + y * y) by nra. assert (Hs : 0 < sqrt (x * x + y * y)) by (apply sqrt_lt_R0, H).
    destruct (atan2_polar y x (sqrt (x * x + y * y)) Hs) as [-> ->]; [rewrite sqrt_sqrt; lra|].
    split; field; lra.
Qed.

(** The inclination recovered from s = tan(i/2). *)
Lemma inc_of s : 0 <= s -> let i := Ratan2 (2 * s) (1 - s * s) in
  0 <= i < PI /\ cos i = (1 - s * s) / (1 + s * s) /\ sin i = 2 * s / (1 + s * s) /\ tan (i / 2) = s.
Proof.
  intros Hs i.
  assert (Hp : 0 < 1 + s * s) by nra.
  destruct (atan2_polar (2 * s) (1 - s * s) (1 + s * s) Hp ltac:(ring)) as [C S].
  fold i in C, S. pose proof (atan2_range (2 * s) (1 - s * s)) as Rg. fold i in Rg. pose proof PI_RGT_0.
  assert (Si : 0 <= sin i). { rewrite S. apply Rmult_le_pos; [lra|]. apply Rlt_le, Rinv_0_lt_compat, Hp. }
  assert (Ci : -1 < cos i).
  { rewrite C. apply (Rmult_lt_reg_r (1 + s * s)); [exact Hp|]. unfold Rdiv. rewrite Rmult_assoc, Rinv_l; lra. }
  assert (R1 : 0 <= i).
  { destruct (Rlt_or_le i 0) as [K|K]; [|exact K]. exfalso.
    pose proof (sin_gt_0 (- i) ltac:(lra) ltac:(lra)) as G. rewrite sin_neg in G. lra. }
  assert (R2 : i < PI). { destruct (proj2 Rg) as [K|K]; [exact K|]. rewrite K, cos_PI in Ci. lra. }
  repeat split; try assumption.
  assert (Hh : cos (i / 2) <> 0). { apply Rgt_not_eq, cos_gt_0; lra. }
  pose proof (half_tan i Hh) as T. apply (Rmult_eq_reg_r (1 + cos i)); [|lra]. rewrite T, S, C. field. lra.
Qed.

Section Mee.
Variables (f g h k l : R).
Let e := sqrt (f * f + g * g).
Let s := sqrt (h * h + k * k).
Let i := Ratan2 (2 * s) (1 - s * s).
Let raan := Ratan2 k h.
Let om := Ratan2 (g * h - f * k) (f * h + g * k).
Let ta := l - raan - om.
Let mee_ok := periapsis_kept f g h k.

Lemma mee_e : 0 <= e /\ e * e = f * f + g * g.
Proof. split; [apply sqrt_pos|apply sqrt_sqrt; nra]. Qed.
Lemma mee_s : 0 <= s /\ s * s = h * h + k * k.
Proof. split; [apply sqrt_pos|apply sqrt_sqrt; nra]. Qed.

Lemma mee2kep_eq (p : R) : f * f + g * g <> 1 ->
  mee2kep (N:=RNum) (elems p f g h k l) = Ok (elems (p / (1 - e * e)) e i raan om ta).
Proof.
  intros H. destruct mee_e as [_ E]. destruct mee_s as [_ S]. unfold mee2kep, elems.
  change (sq (N:=RNum)) with (fun x : R => x * x). cbv beta.
  change (nofZ (Num:=RNum)) with IZR. change (nsub (Num:=RNum)) with Rminus. change (nadd (Num:=RNum)) with Rplus.
  change (nmul (Num:=RNum)) with Rmult. change (nsqrt (Num:=RNum)) with sqrt. change (natan2 (Num:=RNum)) with Ratan2.
  rewrite jdivR by lra. cbn [bind]. change (ndiv (Num:=RNum)) with Rdiv.
  replace (1 - f * f - g * g) with (1 - e * e) by lra.
  replace (1 - h * h - k * k) with (1 - s * s) by lra. reflexivity.
Qed.

Lemma mee_raan : s * cos raan = h /\ s * sin raan = k.
Proof. apply polar. Qed.
Lemma mee_om : e * s * cos om = f * h + g * k /\ e * s * sin om = g * h - f * k.
Proof.
  replace (e * s) with (sqrt ((f * h + g * k) * (f * h + g * k) + (g * h - f * k) * (g * h - f * k))); [apply polar|].
  destruct mee_e as [E1 E2]. destruct mee_s as [S1 S2].
  apply sqrt_pos_of; [nra|]. transitivity ((e * e) * (s * s)); [rewrite E2, S2|]; ring.
Qed.
Lemma mee_s0 : s = 0 <-> h = 0 /\ k = 0.
Proof.
  destruct mee_s as [S1 S2]. split; [intros H; rewrite H in S2; apply sum_sq_0; lra|].
  intros [-> ->]. unfold s. rewrite Rmult_0_l, Rplus_0_l. apply sqrt_0.
Qed.
Lemma Ratan2_00 : Ratan2 0 0 = 0.
Proof. unfold Ratan2. destruct (Rltb_spec 0 0); [lra|reflexivity]. Qed.
Lemma mee_flat : h = 0 -> k = 0 -> raan = 0 /\ om = 0 /\ i = 0 /\ s = 0.
Proof.
  intros E1 E2. assert (s = 0) by (apply mee_s0; auto). unfold i, raan, om. rewrite H, E1, E2.
  replace (g * 0 - f * 0) with 0 by ring. replace (f * 0 + g * 0) with 0 by ring. rewrite Ratan2_00.
  repeat split. replace (2 * 0) with 0 by ring. replace (1 - 0 * 0) with 1 by ring.
  unfold Ratan2. destruct (Rltb_spec 0 1); [|lra]. replace (0 / 1) with 0 by field. apply atan_0.
Qed.
Lemma mee_fg : mee_ok <-> e * cos (raan + om) = f /\ e * sin (raan + om) = g.
Proof.
  destruct mee_e as [E1 E2]. destruct mee_s as [S1 S2]. destruct mee_raan as [R1 R2]. destruct mee_om as [O1 O2].
  destruct (Req_dec s 0) as [Z|Z].
  - destruct (proj1 mee_s0 Z) as [Hh Hk]. destruct (mee_flat Hh Hk) as (A & B & _).
    rewrite A, B, Rplus_0_l, cos_0, sin_0. unfold mee_ok, periapsis_kept. split.
    + intros [H|[H|[H1 H2]]]; [contradiction..|]. split; [|lra].
      rewrite Rmult_1_r. unfold e. apply sqrt_pos_of; [exact H2|]. rewrite H1. ring.
    + intros [F G]. right. right. lra.
  - split.
    + intros _. rewrite cos_plus, sin_plus.
      assert (0 < s * s) by nra.
      split; apply (Rmult_eq_reg_r (s * s)); try lra.
      * transitivity ((s * cos raan) * (e * s * cos om) - (s * sin raan) * (e * s * sin om)); [ring|].
        rewrite R1, R2, O1, O2, S2. ring.
      * transitivity ((s * sin raan) * (e * s * cos om) + (s * cos raan) * (e * s * sin om)); [ring|].
        rewrite R1, R2, O1, O2, S2. ring.
    + intros _. unfold mee_ok, periapsis_kept. destruct (Req_dec h 0); [|auto]. destruct (Req_dec k 0); [|auto].
      exfalso. apply Z, mee_s0. auto.
Qed.

Lemma C48_back (p : R) : f * f + g * g <> 1 ->
  exists kep, mee2kep (N:=RNum) (elems p f g h k l) = Ok kep /\ (kep2mee (N:=RNum) kep = elems p f g h k l <-> mee_ok).
Proof.
  intros H. eexists. split; [apply mee2kep_eq, H|]. rewrite mee_fg.
  destruct mee_e as [E1 E2]. destruct mee_s as [S1 S2]. destruct mee_raan as [R1 R2].
  destruct (inc_of s S1) as (_ & _ & _ & T). fold i in T.
  unfold kep2mee, elems. cbn. change (tan (i / 2)) with (tan (i / 2)).
  rewrite T. change (s * cos raan) with (s * cos raan). rewrite R1, R2.
  split.
  - intros X. injection X. auto.
  - intros [-> ->]. f_equal; [field; lra|unfold ta; ring].
Qed.
Lemma C48_back_a (a : R) : f * f + g * g <> 1 ->
  exists kep, mee_with_a2kep (N:=RNum) (elems a f g h k l) = Ok kep /\
    (kep2mee_with_a (N:=RNum) kep = elems a f g h k l <-> mee_ok).
Proof.
  intros H. unfold mee_with_a2kep.
  replace (mee_with_a2mee (N:=RNum) (elems a f g h k l)) with (elems (a * (1 - f * f - g * g)) f g h k l) by reflexivity.
  eexists. split; [apply mee2kep_eq, H|]. rewrite mee_fg.
  destruct mee_e as [E1 E2]. destruct mee_s as [S1 S2]. destruct mee_raan as [R1 R2].
  destruct (inc_of s S1) as (_ & _ & _ & T). fold i in T.
  unfold kep2mee_with_a, elems. cbn. rewrite T, R1, R2.
  split.
  - intros X. injection X. auto.
  - intros [-> ->]. f_equal; [|unfold ta; ring]. replace (1 - f * f - g * g) with (1 - e * e) by lra. field. lra.
Qed.
End Mee.

Lemma C48_fwd (a e i raan om ta : R) : 0 < e < 1 -> 0 < i < PI ->
  exists raan' om' ta', mee2kep (N:=RNum) (kep2mee (N:=RNum) (elems a e i raan om ta)) = Ok (elems a e i raan' om' ta') /\
    same_angle raan' raan /\ same_angle om' om /\ raan' + om' + ta' = raan + om + ta /\
    (- PI < raan <= PI -> raan' = raan) /\ (- PI < om <= PI -> om' = om).
Proof.
  intros He Hi. pose proof PI_RGT_0.
  assert (Hh : 0 < cos (i / 2)) by (apply cos_gt_0; lra).
  assert (Hs : 0 < sin (i / 2)) by (apply sin_gt_0; lra).
  set (t := tan (i / 2)). assert (Ht : 0 < t) by (apply Rdiv_lt_0_compat; assumption).
  assert (Hci : -1 < cos i).
  { replace i with (2 * (i / 2)) by field. rewrite cos_2a_cos. nra. }
  pose proof (half_tan i ltac:(lra)) as HT. fold t in HT.
  assert (C1 : (1 + t * t) * cos i = 1 - t * t).
  { assert (t * t * (1 + cos i) = 1 - cos i); [|lra].
    apply (Rmult_eq_reg_r (1 + cos i)); [|lra].
    transitivity ((t * (1 + cos i)) * (t * (1 + cos i))); [ring|]. rewrite HT. pose proof (sincos i). nra. }
  assert (C2 : (1 + t * t) * sin i = 2 * t).
  { rewrite <- HT. transitivity (t * ((1 + t * t) + (1 + t * t) * cos i)); [ring|]. rewrite C1. ring. }
  change (kep2mee (N:=RNum) (elems a e i raan om ta)) with
    (elems (a * (1 - e * e)) (e * cos (raan + om)) (e * sin (raan + om)) (t * cos raan) (t * sin raan) (raan + om + ta)).
  rewrite mee2kep_eq.
  2:{ pose proof (sincos (raan + om)). assert (e * cos (raan + om) * (e * cos (raan + om)) + e * sin (raan + om) * (e * sin (raan + om)) = e * e) by nsatz. nra. }
  replace (sqrt (e * cos (raan + om) * (e * cos (raan + om)) + e * sin (raan + om) * (e * sin (raan + om)))) with e.
  2:{ symmetry. apply sqrt_pos_of; [lra|]. pose proof (sincos (raan + om)). nsatz. }
  replace (sqrt (t * cos raan * (t * cos raan) + t * sin raan * (t * sin raan))) with t.
  2:{ symmetry. apply sqrt_pos_of; [lra|]. pose proof (sincos raan). nsatz. }
  replace (Ratan2 (2 * t) (1 - t * t)) with i.
  2:{ rewrite <- C1, <- C2. symmetry. apply atan2_angle_eq; nra. }
  replace (e * sin (raan + om) * (t * cos raan) - e * cos (raan + om) * (t * sin raan)) with (e * t * sin om).
  2:{ replace (sin om) with (sin ((raan + om) - raan)) by (f_equal; ring). rewrite sin_minus. ring. }
  replace (e * cos (raan + om) * (t * cos raan) + e * sin (raan + om) * (t * sin raan)) with (e * t * cos om).
  2:{ replace (cos om) with (cos ((raan + om) - raan)) by (f_equal; ring). rewrite cos_minus. ring. }
  replace (a * (1 - e * e) / (1 - e * e)) with a by (field; nra).
  assert (Het : 0 < e * t) by nra.
  exists (Ratan2 (t * sin raan) (t * cos raan)), (Ratan2 (e * t * sin om) (e * t * cos om)),
    (raan + om + ta - Ratan2 (t * sin raan) (t * cos raan) - Ratan2 (e * t * sin om) (e * t * cos om)).
  split; [reflexivity|]. split; [apply atan2_angle, Ht|]. split; [apply atan2_angle, Het|].
  split; [ring|]. split; intros; apply atan2_angle_eq; assumption.
Qed.

Lemma C49_lem1 (p f g h k l : R) : f * f + g * g <> 1 ->
  exists m, mee2mee_with_a (N:=RNum) (elems p f g h k l) = Ok m /\ mee_with_a2mee (N:=RNum) m = elems p f g h k l.
Proof.
  intros H. unfold mee2mee_with_a, elems. rewrite jdivR by (cbn; lra). eexists. split; [reflexivity|].
  cbn. f_equal. field. lra.
Qed.
Lemma C49_lem2 (a f g h k l : R) : f * f + g * g <> 1 ->
  mee2mee_with_a (N:=RNum) (mee_with_a2mee (N:=RNum) (elems a f g h k l)) = Ok (elems a f g h k l).
Proof.
  intros H. cbn. rewrite jdivR by lra. cbn. unfold elems. f_equal. f_equal. field. lra.
Qed.
Lemma C49_lem3 (a e i raan om ta : R) : e * e <> 1 ->
  mee2mee_with_a (N:=RNum) (kep2mee (N:=RNum) (elems a e i raan om ta)) = Ok (kep2mee_with_a (N:=RNum) (elems a e i raan om ta)).
Proof.
  intros H. cbn. pose proof (sincos (raan + om)).
  assert (E : 1 - e * cos (raan + om) * (e * cos (raan + om)) - e * sin (raan + om) * (e * sin (raan + om)) = 1 - e * e) by nsatz.
  rewrite E. rewrite jdivR by lra. cbn. f_equal. f_equal. field. lra.
Qed.

Lemma C50_pos (a f g h k l mu : R) : 0 < mu -> 0 < a -> f * f + g * g < 1 ->
  exists s, mee_with_a2sv (N:=RNum) (elems a f g h k l) mu = Ok s /\
    (periapsis_kept f g h k -> s = concat33 (mee_r a f g h k l) (mee_v mu a f g h k l)) /\
    (~ periapsis_kept f g h k -> s <> concat33 (mee_r a f g h k l) (mee_v mu a f g h k l)).
Proof.
  intros Hmu Ha He.
  destruct (mee_e f g) as [E1 E2]. destruct (mee_s h k) as [S1 S2]. destruct (mee_raan h k) as [R1 R2].
  destruct (mee_om f g h k) as [O1 O2]. pose proof (mee_fg f g h k l) as FG.
  destruct (inc_of _ S1) as (_ & Ci & Si & _).
  unfold mee_with_a2sv. unfold elems at 1.
  change (mk6 (nmul (Num:=RNum) a (nsub (Num:=RNum) (nsub (Num:=RNum) (nofZ (Num:=RNum) 1) (sq (N:=RNum) f)) (sq (N:=RNum) g))) f g h k l)
    with (elems (a * (1 - f * f - g * g)) f g h k l).
  rewrite mee2kep_eq by lra. cbn [bind].
  set (e := sqrt (f * f + g * g)) in *. set (s := sqrt (h * h + k * k)) in *.
  set (i := Ratan2 (2 * s) (1 - s * s)) in *. set (raan := Ratan2 k h) in *.
  set (om := Ratan2 (g * h - f * k) (f * h + g * k)) in *.
  replace (a * (1 - f * f - g * g) / (1 - e * e)) with a by (rewrite E2; field; lra).
  assert (He1 : 0 <= e < 1) by nra.
  rewrite kep2sv_closed by assumption.
  eexists. split; [reflexivity|].
  unfold kep_r, kep_v. rewrite E2. replace (1 - (f * f + g * g)) with (1 - f * f - g * g) by ring.
  replace (om + (l - raan - om)) with (l - raan) by ring.
  unfold mee_r, mee_v. set (P := a * (1 - f * f - g * g)). set (c := sqrt (mu / P)).
  assert (HP : 0 < P) by (apply Rmult_lt_0_compat; lra).
  assert (Hc : 0 < c) by (apply sqrt_lt_R0, Rdiv_lt_0_compat; assumption).
  split.
  - intros OK. destruct (proj1 FG OK) as [F G].
    replace (e * cos (l - raan - om)) with (f * cos l + g * sin l).
    2:{ replace (l - raan - om) with (l - (raan + om)) by ring. rewrite cos_minus, <- F, <- G. ring. }
    replace (1 + (f * cos l + g * sin l)) with (1 + f * cos l + g * sin l) by ring.
    set (rho := P / (1 + f * cos l + g * sin l)).
    destruct (Req_dec s 0) as [Z|Z].
    + destruct (proj1 (mee_s0 f g h k l) Z) as [Hh Hk]. destruct (mee_flat f g h k l Hh Hk) as (A & B & C & _).
      fold raan in A. fold om in B. fold s i in C. rewrite A, B in F, G.
      rewrite Rplus_0_l, cos_0 in F. rewrite Rplus_0_l, sin_0 in G. rewrite A, B, C, Rminus_0_r, cos_0, sin_0, Hh, Hk.
      assert (g = 0) by lra. assert (e = f) by lra. rewrite H, H0.
      unfold in_plane, vec. cbn. rewrite cos_0, sin_0. f_equal; field.
    + assert (Hs : 0 < s) by lra.
      assert (Cr : cos raan = h / s) by (rewrite <- R1; field; exact Z).
      assert (Sr : sin raan = k / s) by (rewrite <- R2; field; exact Z).
      assert (Co : e * cos om = (f * h + g * k) / s) by (rewrite <- O1; field; exact Z).
      assert (So : e * sin om = (g * h - f * k) / s) by (rewrite <- O2; field; exact Z).
      assert (S3 : 0 < 1 + h * h + k * k) by nra.
      assert (S4 : 1 + s * s = 1 + h * h + k * k) by lra.
      assert (Hhk : 0 < h * h + k * k) by nra.
      rewrite cos_minus, sin_minus, Co, So, Cr, Sr.
      unfold in_plane, vec. rewrite Cr, Sr, Ci, Si, S4. replace (1 - s * s) with (1 - h * h - k * k) by lra.
      cbn [concat33]. f_equal.
      * transitivity (rho / (s * s) * ((cos l * h + sin l * k) * h - (sin l * h - cos l * k) * k * (1 - h * h - k * k) / (1 + h * h + k * k))); [field; lra|].
        rewrite S2. field. lra.
      * transitivity (rho / (s * s) * ((cos l * h + sin l * k) * k + (sin l * h - cos l * k) * h * (1 - h * h - k * k) / (1 + h * h + k * k))); [field; lra|].
        rewrite S2. field. lra.
      * field. lra.
      * transitivity (c / (s * s) * (- (sin l * h - cos l * k + (g * h - f * k)) * h - (cos l * h + sin l * k + (f * h + g * k)) * k * (1 - h * h - k * k) / (1 + h * h + k * k))); [field; lra|].
        rewrite S2. field. lra.
      * transitivity (c / (s * s) * (- (sin l * h - cos l * k + (g * h - f * k)) * k + (cos l * h + sin l * k + (f * h + g * k)) * h * (1 - h * h - k * k) / (1 + h * h + k * k))); [field; lra|].
        rewrite S2. field. lra.
      * field. lra.
  - intros NOK. assert (Hh : h = 0) by (destruct (Req_dec h 0); [assumption|exfalso; apply NOK; left; assumption]).
    assert (Hk : k = 0) by (destruct (Req_dec k 0); [assumption|exfalso; apply NOK; right; left; assumption]).
    destruct (mee_flat f g h k l Hh Hk) as (A & B & C & _).
    fold raan in A. fold om in B. fold s i in C. rewrite A, B, C, Rminus_0_r, cos_0, sin_0, Hh, Hk.
    unfold in_plane, vec. cbn. rewrite cos_0, sin_0. intros X. injection X as _ _ _ X1 X2 _.
    apply NOK. right. right.
    rewrite Rminus_0_r in X1, X2. replace (1 / (1 + 0 * 0 + 0 * 0)) with 1 in X1, X2 by field.
    assert (c * g = 0) by lra. assert (c * (e - f) = 0) by lra.
    apply Rmult_integral in H, H0. destruct H as [|H], H0 as [|H0]; lra.
Qed.

(** ** Anomalies *)
Lemma half_angle x : cos (x / 2) <> 0 ->
  cos x = (1 - tan (x / 2) * tan (x / 2)) / (1 + tan (x / 2) * tan (x / 2)) /\
  sin x = 2 * tan (x / 2) / (1 + tan (x / 2) * tan (x / 2)).
Proof.
  intros H. set (t := tan (x / 2)). assert (0 < 1 + t * t) by nra.
  assert (T : t * cos (x / 2) = sin (x / 2)) by (unfold t, tan; field; exact H).
  pose proof (sincos (x / 2)) as Q. rewrite <- T in Q.
  assert (C2 : cos (x / 2) * cos (x / 2) = / (1 + t * t)).
  { apply (Rmult_eq_reg_r (1 + t * t)); [|lra]. rewrite Rinv_l by lra. nra. }
  assert (E1 : cos x = cos (x / 2) * cos (x / 2) - sin (x / 2) * sin (x / 2)).
  { replace x with (2 * (x / 2)) at 1 by field. apply cos_2a. }
  assert (E2 : sin x = 2 * sin (x / 2) * cos (x / 2)).
  { replace x with (2 * (x / 2)) at 1 by field. apply sin_2a. }
  rewrite E1, E2, <- T. split.
  - transitivity ((1 - t * t) * (cos (x / 2) * cos (x / 2))); [ring|]. rewrite C2. field. lra.
  - transitivity (2 * t * (cos (x / 2) * cos (x / 2))); [ring|]. rewrite C2. field. lra.
Qed.
Lemma tan_kPI x (k : Z) : tan (x + PI * IZR k) = tan x.
Proof.
  assert (P : forall n x, tan (x + PI * INR n) = tan x).
  { induction n as [|n IH]; intros y; [f_equal; simpl; ring|].
    rewrite S_INR. replace (y + PI * (INR n + 1)) with ((y + PI * INR n) + PI) by ring.
    unfold tan at 1. rewrite neg_sin, neg_cos. rewrite <- (IH y). unfold tan.
    destruct (Req_dec (cos (y + PI * INR n)) 0) as [Z|Z]; [|field; exact Z].
    rewrite Z, Ropp_0. unfold Rdiv. rewrite <- Ropp_mult_distr_l.
    assert (V : / 0 = 0) by apply Rinv_0. rewrite V. ring. }
  destruct (Z_le_gt_dec 0 k).
  - rewrite <- (Z2Nat.id k), <- INR_IZR_INZ by assumption. apply P.
  - rewrite <- (P (Z.to_nat (- k)) (x + PI * IZR k)). f_equal.
    rewrite INR_IZR_INZ, Z2Nat.id, opp_IZR by lia. ring.
Qed.

Lemma C51_ta2ea (ta e : R) : 0 <= e < 1 -> cos (ta / 2) <> 0 ->
  exists E, ta2ea (N:=RNum) ta e = Ok E /\ - PI < E < PI /\
    cos E = (e + cos ta) / (1 + e * cos ta) /\
    sin E = sqrt (1 - e * e) * sin ta / (1 + e * cos ta).
Proof.
  intros He Hc. unfold ta2ea.
  change (nsub (Num:=RNum) (nofZ (Num:=RNum) 1) e) with (1 - e). change (nadd (Num:=RNum) (nofZ (Num:=RNum) 1) e) with (1 + e).
  rewrite jdivR by lra. cbn. eexists. split; [reflexivity|].
  set (T := tan (ta / 2)). set (q := sqrt ((1 - e) / (1 + e))).
  assert (Hq0 : 0 < (1 - e) / (1 + e)) by (apply Rdiv_lt_0_compat; lra).
  assert (Hq : q * q = (1 - e) / (1 + e)) by (apply sqrt_sqrt; lra).
  assert (Hq1 : 0 < q) by (apply sqrt_lt_R0; exact Hq0).
  assert (Hq2 : sqrt (1 - e * e) = q * (1 + e)).
  { apply sqrt_pos_of; [nra|]. transitivity ((q * q) * ((1 + e) * (1 + e))); [|ring]. rewrite Hq. field. lra. }
  pose proof (atan_bound (q * T)) as B. split; [lra|].
  assert (Hh : cos (2 * atan (q * T) / 2) <> 0).
  { replace (2 * atan (q * T) / 2) with (atan (q * T)) by field. apply Rgt_not_eq, cos_gt_0; lra. }
  destruct (half_angle _ Hh) as [-> ->].
  replace (2 * atan (q * T) / 2) with (atan (q * T)) by field. rewrite tan_atan.
  destruct (half_angle ta Hc) as [-> ->]. fold T. rewrite Hq2.
  assert (0 < 1 + T * T) by nra.
  assert (N1 : 1 + q * T * (q * T) = (1 + e + (1 - e) * (T * T)) / (1 + e)).
  { transitivity (1 + (q * q) * (T * T)); [ring|]. rewrite Hq. field. lra. }
  assert (N2 : 0 < 1 + e + (1 - e) * (T * T)) by nra.
  split.
  - replace (1 - q * T * (q * T)) with ((1 + e - (1 - e) * (T * T)) / (1 + e)).
    2:{ transitivity (1 - (q * q) * (T * T)); [|ring]. rewrite Hq. field. lra. }
    rewrite N1. field. repeat split; lra.
  - rewrite N1. field. repeat split; lra.
Qed.

Lemma C51_mee (a e i raan om ta : R) : 0 < e < 1 ->
  mee2ea (N:=RNum) (kep2mee_with_a (N:=RNum) (elems a e i raan om ta)) = ta2ea (N:=RNum) ta e /\
  mee2ea (N:=RNum) (kep2mee (N:=RNum) (elems a e i raan om ta)) = ta2ea (N:=RNum) ta e.
Proof.
  intros He. cut (forall x y z, mee2ea (N:=RNum) (elems x (e * cos (raan + om)) (e * sin (raan + om)) y z (raan + om + ta)) = ta2ea (N:=RNum) ta e).
  { intros C. split; apply C. }
  intros x y z. unfold mee2ea. cbn [elems v6_1 v6_2 v6_5].
  change (sq (N:=RNum)) with (fun x : R => x * x). cbv beta.
  change (nsub (Num:=RNum)) with Rminus. change (nadd (Num:=RNum)) with Rplus.
  change (nsqrt (Num:=RNum)) with sqrt. change (natan2 (Num:=RNum)) with Ratan2.
  replace (sqrt (e * cos (raan + om) * (e * cos (raan + om)) + e * sin (raan + om) * (e * sin (raan + om)))) with e.
  2:{ symmetry. apply sqrt_pos_of; [lra|]. pose proof (sincos (raan + om)). nsatz. }
  destruct (atan2_angle e (raan + om) ltac:(lra)) as [k Hk]. rewrite Hk.
  unfold ta2ea. destruct (jdiv _ _); [|reflexivity]. cbn. do 4 f_equal.
  replace ((raan + om + ta - (raan + om + 2 * PI * IZR k)) / 2) with (ta / 2 + PI * IZR (- k)) by (rewrite opp_IZR; field).
  apply tan_kPI.
Qed.

(** ** Semimajor axis and period *)
Lemma norm_sq u : norm u * norm u = dot u u /\ 0 <= norm u.
Proof.
  unfold norm, norm3. change (nsqrt (Num:=RNum)) with sqrt. split; [|apply sqrt_pos]. apply sqrt_sqrt.
  destruct u as [x y z]. cbn in *. nra.
Qed.
Lemma ecc_sq (mu : R) s : mu <> 0 -> norm (rpart s) <> 0 ->
  exists ev, get_eccentricity (N:=RNum) s mu = Ok ev /\
    norm ev * norm ev = 1 + 2 * energy mu s * (norm (momentum s) * norm (momentum s)) / (mu * mu).
Proof.
  intros Hmu Hr. unfold get_eccentricity. change (nofZ (Num:=RNum) 1) with 1. rewrite jdivR by exact Hmu. cbn [bind].
  eexists. split; [reflexivity|].
  change (norm3 (N:=RNum)) with norm. change (cross3 (N:=RNum)) with cross. fold (momentum s).
  destruct (norm_sq (momentum s)) as [-> _]. unfold energy, momentum.
  destruct (norm_sq (rpart s)) as [Q _].
  destruct (rpart s) as [x y z]. destruct (vpart s) as [vx vy vz]. 
  destruct (norm_sq (v3sub (v3scal (N:=RNum) (1 / mu) (cross (mk3 vx vy vz) (cross (mk3 x y z) (mk3 vx vy vz)))) (v3divs (mk3 x y z) (norm (mk3 x y z))))) as [-> _].
  unfold norm, dot, cross in *. cbn in *.
  set (R := sqrt (x * x + y * y + z * z)) in *. clearbody R.
  set (h0 := y * vz - z * vy). set (h1 := z * vx - x * vz). set (h2 := x * vy - y * vx).
  set (w0 := vy * h2 - vz * h1). set (w1 := vz * h0 - vx * h2). set (w2 := vx * h1 - vy * h0).
  transitivity ((w0 * w0 + w1 * w1 + w2 * w2) / (mu * mu) - 2 * (w0 * x + w1 * y + w2 * z) / (mu * R) + (x * x + y * y + z * z) / (R * R)).
  { field. split; assumption. }
  rewrite <- Q.
  replace (w0 * x + w1 * y + w2 * z) with (h0 * h0 + h1 * h1 + h2 * h2) by (unfold w0, w1, w2, h0, h1, h2; ring).
  replace (w0 * w0 + w1 * w1 + w2 * w2) with ((vx * vx + vy * vy + vz * vz) * (h0 * h0 + h1 * h1 + h2 * h2))
    by (unfold w0, w1, w2, h0, h1, h2; ring).
  field. split; assumption.
Qed.

Lemma C52_sma (mu : R) s : 0 < mu -> norm (rpart s) <> 0 -> norm (momentum s) <> 0 ->
  (energy mu s <> 0 -> get_semiMajorAxis (N:=RNum) s mu = Ok (- mu / (2 * energy mu s))) /\
  (energy mu s = 0 -> get_semiMajorAxis (N:=RNum) s mu = Err ZeroDivisionError).
Proof.
  intros Hmu Hr Hh. destruct (ecc_sq mu s ltac:(lra) Hr) as (ev & Ee & Q).
  unfold get_semiMajorAxis. rewrite Ee. cbn [bind]. change (norm3 (N:=RNum)) with norm.
  change (cross3 (N:=RNum) (rpart s) (vpart s)) with (momentum s).
  change (sq (N:=RNum)) with (fun x : R => x * x). cbv beta.
  change (nsub (Num:=RNum) (nofZ (Num:=RNum) 1)) with (Rminus 1). change (nmul (Num:=RNum) mu) with (Rmult mu).
  set (H := norm (momentum s)) in *. set (En := energy mu s) in *.
  assert (D : mu * (1 - norm ev * norm ev) = - (2 * En * (H * H) / mu)) by (rewrite Q; field; lra).
  rewrite D. split.
  - intros HE. rewrite jdivR.
    + f_equal. field. repeat split; lra.
    + assert (2 * En * (H * H) / mu <> 0); [|lra]. unfold Rdiv. repeat apply Rmult_integral_contrapositive_currified; try assumption; try lra.
      apply Rinv_neq_0_compat. lra.
  - intros ->. replace (- (2 * 0 * (H * H) / mu)) with 0 by (field; lra). apply jdivR0.
Qed.
Lemma C52_period (mu : R) s : 0 < mu -> norm (rpart s) <> 0 -> norm (momentum s) <> 0 ->
  (energy mu s < 0 -> exists a, get_semiMajorAxis (N:=RNum) s mu = Ok a /\ 0 < a /\
     get_period (N:=RNum) s mu = Ok (2 * PI * sqrt (a * a * a / mu))) /\
  (0 < energy mu s -> get_period (N:=RNum) s mu = Ok (-1)).
Proof.
  intros Hmu Hr Hh. destruct (C52_sma mu s Hmu Hr Hh) as [S _].
  split; intros HE; unfold get_period; rewrite S by lra.
  - assert (Ha : 0 < - mu / (2 * energy mu s)).
    { replace (- mu / (2 * energy mu s)) with (mu / (- (2 * energy mu s))) by (field; lra). apply Rdiv_lt_0_compat; lra. }
    eexists. split; [reflexivity|]. split; [exact Ha|]. cbn [bind].
    replace (nltb (Num:=RNum) (- mu / (2 * energy mu s)) (nofZ (Num:=RNum) 0)) with false.
    2:{ symmetry. apply Rltb_false. change (nofZ (Num:=RNum) 0) with 0. lra. }
    rewrite jdivR by lra. reflexivity.
  - cbn [bind]. replace (nltb (Num:=RNum) (- mu / (2 * energy mu s)) (nofZ (Num:=RNum) 0)) with true; [reflexivity|].
    symmetry. apply Rltb_true. change (nofZ (Num:=RNum) 0) with 0.
    assert (0 < mu / (2 * energy mu s)) by (apply Rdiv_lt_0_compat; lra). unfold Rdiv in *. lra.
Qed.

(** ** Orbit sampling *)
Lemma mapM_ok {A B} (f : A -> Res B) g l : (forall x, In x l -> f x = Ok (g x)) -> mapM f l = Ok (map g l).
Proof.
  induction l as [|x l IH]; intros H; [reflexivity|]. cbn. rewrite H by (left; reflexivity). cbn [bind].
  rewrite IH by (intros; apply H; right; assumption). reflexivity.
Qed.
Lemma linspace_length (x y : R) n : length (linspace (N:=RNum) x y n) = n.
Proof.
  destruct n as [|[|n]]; try reflexivity. cbn [linspace]. rewrite app_length, map_length, seq_length. simpl. lia.
Qed.
Lemma linspace_nth (x y : R) n j (d : R) : (2 <= n)%nat -> (j < n)%nat ->
  @List.nth R j (linspace (N:=RNum) x y n) d = x + INR j * ((y - x) / INR (n - 1)).
Proof.
  intros H2 Hj. destruct n as [|[|n]]; [lia..|]. unfold linspace.
  replace (S (S n) - 1)%nat with (S n) by lia.
  destruct (Nat.eq_dec j (S n)) as [->|Hne].
  - rewrite app_nth2 by (rewrite map_length, seq_length; lia). rewrite map_length, seq_length, Nat.sub_diag.
    cbn [List.nth]. field. apply not_0_INR. lia.
  - rewrite app_nth1 by (rewrite map_length, seq_length; lia).
    set (F := fun i : nat => _).
    rewrite (nth_indep _ d (F 0%nat)) by (rewrite map_length, seq_length; lia).
    rewrite (map_nth F), seq_nth by lia.
    unfold F. cbn [nadd nofZ nmul ndiv nsub RNum car]. rewrite !INR_IZR_INZ. reflexivity.
Qed.

Lemma C53_lem (a e i raan om ta mu : R) (steps : nat) d : 0 < mu -> 0 < a -> 0 <= e < 1 ->
  exists cols, get_orbit_coordinates (N:=RNum) (elems a e i raan om ta) mu steps = Ok cols /\
    length cols = steps /\
    (forall s, In s cols -> energy mu s = - mu / (2 * a) /\
                            momentum s = scale (sqrt (mu * (a * (1 - e * e)))) (plane_normal i raan)) /\
    (forall j, (2 <= steps)%nat -> (j < steps)%nat ->
       kep2sv (N:=RNum) (elems a e i raan om (2 * PI * INR j / INR (steps - 1))) mu = Ok (List.nth j cols d)) /\
    ((1 <= steps)%nat -> norm (rpart (List.nth 0 cols d)) = a * (1 - e)) /\
    ((2 <= steps)%nat -> List.nth 0 cols d = List.nth (steps - 1) cols d).
Proof.
  intros Hmu Ha He.
  set (G := fun t : R => concat33 (N:=RNum) (kep_r a e i raan om t) (kep_v mu a e i raan om t)).
  exists (map G (linspace (N:=RNum) 0 (2 * PI) steps)).
  assert (K : forall t, kep2sv (N:=RNum) (elems a e i raan om t) mu = Ok (G t)) by (intros; apply kep2sv_closed; assumption).
  split; [apply mapM_ok; intros; apply K|]. split; [rewrite map_length; apply linspace_length|].
  assert (P0 : norm (rpart (G 0)) = a * (1 - e)).
  { unfold G. destruct (parts (kep_r a e i raan om 0) (kep_v mu a e i raan om 0)) as [-> _].
    rewrite (ks_norm_r a e i raan om 0 Ha He), cos_0. field. lra. }
  assert (NG : forall j, (j < steps)%nat -> List.nth j (map G (linspace (N:=RNum) 0 (2 * PI) steps)) d = G (@List.nth R j (linspace (N:=RNum) 0 (2 * PI) steps) 0)).
  { intros j Hj. rewrite (nth_indep _ d (G 0)) by (rewrite map_length, linspace_length; exact Hj). apply map_nth. }
  split; [|split; [|split]].
  - intros s Hs. apply in_map_iff in Hs as (t & <- & _). unfold energy, momentum, G.
    destruct (parts (kep_r a e i raan om t) (kep_v mu a e i raan om t)) as [-> ->].
    rewrite (ks_norm_r a e i raan om t Ha He). split; [apply ks_energy; assumption|].
    rewrite ks_h by assumption. f_equal. apply ks_H; assumption.
  - intros j H2 Hj. rewrite NG by exact Hj. rewrite (linspace_nth 0 (2 * PI) steps j 0 H2 Hj), K.
    f_equal. f_equal. field. apply not_0_INR. lia.
  - intros H1. rewrite NG by lia. destruct steps as [|[|n]]; [lia|exact P0|].
    rewrite (linspace_nth 0 (2 * PI) (S (S n)) 0 0) by lia. simpl INR at 1. rewrite Rmult_0_l, Rplus_0_l. exact P0.
  - intros H2. rewrite !NG by lia. rewrite !(linspace_nth 0 (2 * PI) steps) by lia.
    assert (INR (steps - 1) <> 0) by (apply not_0_INR; lia).
    replace (0 + INR (steps - 1) * ((2 * PI - 0) / INR (steps - 1))) with (0 + 2 * PI) by (field; assumption).
    simpl INR at 1. rewrite Rmult_0_l, Rplus_0_r. unfold G, kep_r, kep_v.
    rewrite Rplus_0_l, cos_2PI, cos_0.
    replace (om + 2 * PI) with (om + 2 * PI * IZR 1) by ring. rewrite cos_2kPI, sin_2kPI, Rplus_0_r. reflexivity.
Qed.

(** ** wrap *)
Lemma Rfmod_range x y : 0 < y -> 0 <= Rfmod x y < y.
Proof.
  intros Hy. unfold Rfmod. destruct (base_Int_part (x / y)) as [A B].
  set (n := IZR (Int_part (x / y))) in *. assert (E : x = y * (x / y)) by (field; lra). set (q := x / y) in *. nra.
Qed.
Lemma C57_range (al : R) : - PI <= wrap (N:=RNum) al < PI.
Proof.
  unfold wrap. cbn. pose proof PI_RGT_0. pose proof (Rfmod_range (al + PI) 2 ltac:(lra)). nra.
Qed.
Lemma Int_part_eq x (n : Z) : IZR n <= x < IZR n + 1 -> Int_part x = n.
Proof. intros H. unfold Int_part. rewrite <- (tech_up x (n + 1)); [lia|rewrite plus_IZR; lra..]. Qed.
Lemma wrap_branch (al : R) : - PI <= al < 2 - PI -> wrap (N:=RNum) al = PI * (al + PI) - PI.
Proof.
  intros H. unfold wrap. cbn. unfold Rfmod. rewrite (Int_part_eq ((al + PI) / 2) 0) by lra. ring.
Qed.
(** On the branch [-pi, 2-pi) no angle but -pi keeps its direction. *)
Lemma C57_refuted_lem : forall al : R, - PI < al < 2 - PI -> ~ same_angle (wrap (N:=RNum) al) al.
Proof.
  intros al Ha H. pose proof PI_RGT_0. pose proof PI2_3_2.
  assert (E : wrap (N:=RNum) al = al).
  { apply same_angle_eq; [exact H|]. pose proof (C57_range al). apply Rabs_def1; lra. }
  rewrite wrap_branch in E by lra. nra.
Qed.
Lemma C57_ex : exists al : R, ~ same_angle (wrap (N:=RNum) al) al.
Proof. exists (1 - PI). apply C57_refuted_lem. lra. Qed.

Lemma C48_refuted_lem : exists p f g h k l : R, 0 < p /\ f * f + g * g < 1 /\
  exists kep, mee2kep (N:=RNum) (elems p f g h k l) = Ok kep /\ kep2mee (N:=RNum) kep <> elems p f g h k l.
Proof.
  exists 1, 0, (1/2), 0, 0, 0. split; [lra|]. split; [lra|].
  destruct (C48_back 0 (1/2) 0 0 0 1) as (kep & E & H); [lra|]. exists kep. split; [exact E|].
  rewrite H. unfold periapsis_kept. lra.
Qed.
Lemma C50_refuted_lem : exists a f g h k l mu : R, 0 < mu /\ 0 < a /\ f * f + g * g < 1 /\
  mee_with_a2sv (N:=RNum) (elems a f g h k l) mu <> Ok (concat33 (mee_r a f g h k l) (mee_v mu a f g h k l)).
Proof.
  exists 1, 0, (1/2), 0, 0, 0, 1. repeat (split; [lra|]).
  destruct (C50_pos 1 0 (1/2) 0 0 0 1) as (s & -> & _ & H); try lra.
  intros X. injection X as X. revert X. apply H. unfold periapsis_kept. lra.
Qed.

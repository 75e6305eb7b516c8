(** From Cartesian states to Keplerian elements and back (C86). *)
From Coq Require Import Reals Lra Lia ZArith List Bool Psatz Nsatz.
From Verif Require Import RMath RLib Num Base Elements RSpec InvSpec ElemProofs.
Import ListNotations.
Local Open Scope R_scope.

Lemma OkE {A} (x y : A) : Ok x = Ok y -> x = y.
Proof. congruence. Qed.
Lemma concat_eq s r v : rpart (N:=RNum) s = r -> vpart (N:=RNum) s = v -> s = concat33 r v.
Proof. intros <- <-. symmetry. apply concat_parts. Qed.
Lemma elliptic_r mu s : bound_orbit mu s -> norm (rpart (N:=RNum) s) <> 0.
Proof.
  intros [_ H] E. apply H. clear H. unfold momentum. destruct (rpart s) as [x y z] eqn:Er. destruct (vpart s) as [a b c].
  destruct (norm_sq (mk3 x y z)) as [Q _]. rewrite E in Q. cbn in Q.
  assert (x = 0 /\ y = 0 /\ z = 0) as (-> & -> & ->) by (repeat split; nra).
  unfold norm, cross, dot. apply sqrt_pos_of; [lra|]. ring.
Qed.

(** Any vector normal to the orbit's plane normal is a combination of the two in-plane axes. *)
Lemma in_plane_span i raan (u : vec3 RNum) : dot u (plane_normal i raan) = 0 ->
  u = in_plane i raan (dot u (in_plane i raan 1 0)) (dot u (in_plane i raan 0 1)).
Proof.
  destruct u as [x y z]. unfold dot, in_plane, plane_normal, vec. intros H.
  pose proof (sincos i). pose proof (sincos raan). f_equal; cbn in *; nsatz.
Qed.

Section State.
Variables (mu : R) (s : vec6 RNum).
Hypotheses (Hmu : 0 < mu) (El : bound_orbit mu s).
Let h := momentum s.
Let H := norm h.
Let inc := acos (v3_2 h / H).
Let raan := Ratan2 (v3_0 h) (- v3_1 h).

Lemma st_H : 0 < H /\ H * H = dot h h.
Proof. destruct (norm_sq h) as [A B]. destruct El as [_ E]. unfold H. split; [|exact A]. destruct B as [B|B]; [exact B|]. fold h in E. congruence. Qed.
Lemma st_cosrange : -1 <= v3_2 h / H <= 1.
Proof.
  destruct st_H as [A B]. destruct h as [x y z]. cbn in *. assert (z * z <= H * H) by nra.
  split; apply (Rmult_le_reg_r H); try lra; replace (z / H * H) with z by (field; lra); nra.
Qed.
Lemma st_inc : 0 <= inc <= PI /\ H * cos inc = v3_2 h.
Proof.
  destruct st_H as [A B]. split; [apply acos_bound|]. unfold inc. rewrite cos_acos by apply st_cosrange. field. lra.
Qed.
Lemma st_sini : 0 <= sin inc /\ H * sin inc = sqrt (v3_1 h * v3_1 h + v3_0 h * v3_0 h).
Proof.
  destruct st_H as [A B]. destruct st_inc as [I C]. assert (0 <= sin inc) by (apply sin_ge_0; lra). split; [assumption|].
  symmetry. apply sqrt_pos_of; [apply Rmult_le_pos; lra|]. pose proof (sincos inc) as SC. assert (B' : H * H = v3_0 h * v3_0 h + v3_1 h * v3_1 h + v3_2 h * v3_2 h) by (rewrite B; destruct h; reflexivity).
  rewrite <- C in B'. clear - B' SC. change (@car RNum) with R in *. clearbody H. set (x := v3_0 h) in *. set (y := v3_1 h) in *. clearbody x y.
  replace (y * y + x * x) with (H * H * (1 - cos inc * cos inc)) by lra. replace (1 - cos inc * cos inc) with (sin inc * sin inc) by lra. ring.
Qed.
Lemma st_normal : h = scale H (plane_normal inc raan).
Proof.
  destruct st_inc as [_ C]. destruct st_sini as [_ S]. destruct (polar (- v3_1 h) (v3_0 h)) as [P1 P2]. fold raan in P1, P2.
  replace (- v3_1 h * - v3_1 h + v3_0 h * v3_0 h) with (v3_1 h * v3_1 h + v3_0 h * v3_0 h) in P1, P2 by ring.
  rewrite <- S in P1, P2. destruct h as [x y z]. cbn in *. unfold scale, plane_normal, vec. f_equal; [lra|lra|lra].
Qed.
Lemma st_flat : exists x y vx vy, rpart s = in_plane inc raan x y /\ vpart s = in_plane inc raan vx vy /\ H = x * vy - y * vx.
Proof.
  destruct st_H as [A B].
  assert (Hr : dot (rpart s) h = 0) by (unfold h, momentum; destruct (rpart s), (vpart s); unfold dot, cross; ring).
  assert (Hv : dot (vpart s) h = 0) by (unfold h, momentum; destruct (rpart s), (vpart s); unfold dot, cross; ring).
  assert (K : forall u, dot u h = 0 -> dot u (plane_normal inc raan) = 0).
  { intros u E. rewrite st_normal in E. destruct u as [p q r]. unfold dot, scale, plane_normal, vec in *.
    apply (Rmult_eq_reg_l H); [|lra]. rewrite Rmult_0_r. rewrite <- E. ring. }
  apply K in Hr. apply K in Hv. apply in_plane_span in Hr. apply in_plane_span in Hv.
  do 4 eexists. split; [exact Hr|]. split; [exact Hv|].
  generalize dependent (dot (rpart s) (in_plane inc raan 1 0)). generalize dependent (dot (rpart s) (in_plane inc raan 0 1)).
  generalize dependent (dot (vpart s) (in_plane inc raan 1 0)). generalize dependent (dot (vpart s) (in_plane inc raan 0 1)).
  intros vy vx Hv y x Hr. assert (E : cross (rpart s) (vpart s) = h) by reflexivity.
  rewrite Hr, Hv, cross_in_plane, st_normal in E. 
  assert (F : dot (scale (x * vy - y * vx) (plane_normal inc raan)) (plane_normal inc raan) = dot (scale H (plane_normal inc raan)) (plane_normal inc raan)) by (rewrite E; reflexivity).
  unfold dot, scale, plane_normal, vec in F. pose proof (sincos inc). pose proof (sincos raan). nsatz.
Qed.

(** an angle in [0, 2 PI) with the polar direction (x, y) *)
Lemma polar_0_2pi x y : exists om, 0 <= om < 2 * PI /\ sqrt (x * x + y * y) * cos om = x /\ sqrt (x * x + y * y) * sin om = y.
Proof.
  pose proof PI_RGT_0. destruct (polar x y) as [C S]. pose proof (atan2_range y x) as Rg. set (t := Ratan2 y x) in *.
  destruct (Rlt_or_le t 0) as [L|L].
  - exists (t + 2 * PI * IZR 1). rewrite cos_2kPI, sin_2kPI. repeat split; try assumption; simpl; lra.
  - exists t. repeat split; try assumption; lra.
Qed.

Lemma has_elements : exists a e om ta, 0 < a /\ 0 <= e < 1 /\ 0 <= om < 2 * PI /\ - PI < ta <= PI /\
  s = concat33 (kep_r a e inc raan om ta) (kep_v mu a e inc raan om ta).
Proof.
  destruct st_flat as (x & y & vx & vy & Er & Ev & EH). destruct st_H as [A _].
  assert (Rr := elliptic_r mu s El). destruct (norm_sq (rpart s)) as [Nr Nr0]. set (rho := norm (rpart s)) in *.
  rewrite Er, dot_in_plane in Nr. assert (Hrho : 0 < rho) by (destruct Nr0; [assumption|congruence]).
  set (ex := vy * H / mu - x / rho). set (ey := - (vx * H) / mu - y / rho).
  destruct (polar_0_2pi ex ey) as (om & Rom & C1 & S1). set (e := sqrt (ex * ex + ey * ey)) in *.
  assert (He0 : 0 <= e) by apply sqrt_pos.
  assert (Hee : e * e = ex * ex + ey * ey) by (apply sqrt_sqrt; nra).
  assert (En : energy mu s = (vx * vx + vy * vy) / 2 - mu / rho) by (unfold energy; fold rho; rewrite Ev, dot_in_plane; reflexivity).
  assert (Ee : e * e = 1 + 2 * energy mu s * (H * H) / (mu * mu)).
  { rewrite Hee, En. unfold ex, ey.
    transitivity ((vx * vx + vy * vy) * (H * H) / (mu * mu) - 2 * H * (x * vy - y * vx) / (mu * rho) + (x * x + y * y) / (rho * rho)); [field; lra|].
    rewrite <- EH, <- Nr. field. lra. }
  assert (He1 : e < 1).
  { destruct El as [E _]. assert (0 < H * H / (mu * mu)) by (apply Rdiv_lt_0_compat; nra).
    assert (2 * energy mu s * (H * H) / (mu * mu) = 2 * energy mu s * (H * H / (mu * mu))) by (field; lra).
    assert (e * e < 1) by nra. nra. }
  assert (Hp : 0 < 1 - e * e) by nra.
  set (th := Ratan2 y x). destruct (polar x y) as [C2 S2]. fold th in C2, S2. rewrite <- Nr in C2, S2. rewrite sqrt_square in C2, S2 by lra.
  pose proof (sincos (th - om)) as SC.
  destruct (atan2_polar (sin (th - om)) (cos (th - om)) 1 ltac:(lra) ltac:(lra)) as [C3 S3].
  pose proof (atan2_range (sin (th - om)) (cos (th - om))) as Rta. set (ta := Ratan2 (sin (th - om)) (cos (th - om))) in *.
  assert (Ct : cos (om + ta) = cos th).
  { rewrite cos_plus, C3, S3. replace th with ((th - om) + om) at 3 by ring. rewrite cos_plus. field. }
  assert (St : sin (om + ta) = sin th).
  { rewrite sin_plus, C3, S3. replace th with ((th - om) + om) at 3 by ring. rewrite sin_plus. field. }
  assert (Ce : e * cos ta = (H * H / mu - rho) / rho).
  { rewrite C3. replace (e * (cos (th - om) / 1)) with (e * cos (th - om)) by field. rewrite cos_minus.
    replace (e * (cos th * cos om + sin th * sin om)) with ((e * cos om) * cos th + (e * sin om) * sin th) by ring. rewrite C1, S1.
    apply (Rmult_eq_reg_r rho); [|lra].
    replace ((ex * cos th + ey * sin th) * rho) with (ex * (rho * cos th) + ey * (rho * sin th)) by ring. rewrite C2, S2.
    unfold ex, ey. replace ((vy * H / mu - x / rho) * x + (- (vx * H) / mu - y / rho) * y) with (H * (x * vy - y * vx) / mu - (x * x + y * y) / rho) by (field; lra).
    rewrite <- EH, <- Nr. field. lra. }
  exists (H * H / mu / (1 - e * e)), e, om, ta.
  assert (Ep : H * H / mu / (1 - e * e) * (1 - e * e) = H * H / mu) by (field; lra).
  assert (HH : 0 < H * H / mu) by (apply Rdiv_lt_0_compat; nra).
  split; [apply Rdiv_lt_0_compat; lra|]. split; [lra|]. split; [exact Rom|]. split; [exact Rta|].
  apply concat_eq.
  - rewrite Er. unfold kep_r. rewrite Ep, Ct, St, Ce.
    set (X := H * H / mu) in *. replace (1 + (X - rho) / rho) with (X / rho) by (field; lra). replace (X / (X / rho)) with rho by (field; lra). rewrite C2, S2. reflexivity.
  - rewrite Ev. unfold kep_v. rewrite Ep, Ct, St.
    replace (sqrt (mu / (H * H / mu))) with (mu / H).
    2:{ symmetry. apply sqrt_pos_of; [apply Rlt_le, Rdiv_lt_0_compat; lra|]. field. lra. }
    f_equal.
    + rewrite <- (Rmult_1_l (sin th)). replace 1 with (rho / rho) at 1 by (field; lra).
      replace (rho / rho * sin th) with (rho * sin th / rho) by (field; lra). rewrite S1, S2. unfold ey. field. lra.
    + rewrite <- (Rmult_1_l (cos th)). replace 1 with (rho / rho) at 1 by (field; lra).
      replace (rho / rho * cos th) with (rho * cos th / rho) by (field; lra). rewrite C1, C2. unfold ex. field. lra.
Qed.
End State.

Lemma periapsis_get mu s : 0 < mu -> get_eccentricity (N:=RNum) s mu = Ok (to_periapsis mu s).
Proof.
  intros Hmu. unfold get_eccentricity, to_periapsis. change (nofZ (Num:=RNum) 1) with 1. rewrite jdivR by lra. cbn [bind].
  change (cross3 (N:=RNum)) with cross. change (norm3 (N:=RNum)) with norm. fold (momentum s).
  destruct (cross (vpart s) (momentum s)) as [a b c]. generalize (norm (rpart s)) as n. intros n. destruct (rpart s) as [x y z].
  cbn. f_equal. unfold vec. f_equal; unfold Rdiv; ring.
Qed.
Lemma omega_total mu s : 0 < mu -> exists om, get_omega (N:=RNum) s mu = Ok om.
Proof.
  intros Hmu. unfold get_omega. change (nofZ (Num:=RNum) 1) with 1. rewrite jdivR by lra. cbn [bind].
  match goal with |- context [nleb ?a (nabs ?b)] => set (A := a); set (B := b) end.
  destruct (nleb A (nabs B)) eqn:E; [|eauto]. apply Rleb_true in E. change (nabs (Num:=RNum) B) with (Rabs B) in E.
  assert (0 < A) by (unfold A; change (dec (N:=RNum) 1 12) with (1 / 1000000000000); lra).
  rewrite jdivR. { cbn [bind]. destruct (nltb _ _); eauto. }
  intros Z. rewrite Z, Rabs_R0 in E. change (@car RNum) with R in *. lra.
Qed.
Lemma trueanom_total mu s : norm (rpart (N:=RNum) s) <> 0 -> exists ta, get_trueanom (N:=RNum) s mu = Ok ta.
Proof.
  intros Hr. unfold get_trueanom. change (norm3 (N:=RNum)) with norm. rewrite jdivR by exact Hr. cbn [bind]. rewrite jdivR by exact Hr. cbn [bind]. eauto.
Qed.

(** Shape, energy and plane survive for every elliptic state. *)
Lemma same_orbit mu s : 0 < mu -> bound_orbit mu s -> exists kep s', sv2kep (N:=RNum) s mu = Ok kep /\ kep2sv (N:=RNum) kep mu = Ok s' /\
  energy mu s' = energy mu s /\ momentum s' = momentum s.
Proof.
  intros Hmu El. destruct (has_elements mu s Hmu El) as (a & e & om & ta & Ha & He & Hom & Hta & Es).
  set (inc := acos (v3_2 (momentum s) / norm (momentum s))) in *. set (raan := Ratan2 (v3_0 (momentum s)) (- v3_1 (momentum s))) in *.
  assert (Er := elliptic_r mu s El).
  destruct (omega_total mu s Hmu) as (om' & O). destruct (trueanom_total mu s Er) as (ta' & T).
  assert (Ei : get_inclination (N:=RNum) s = Ok inc).
  { unfold get_inclination. change (cross3 (N:=RNum)) with cross. fold (momentum s). change (norm3 (N:=RNum)) with norm. rewrite jdivR by apply El. reflexivity. }
  assert (Ern : get_raan (N:=RNum) s = Ok raan).
  { unfold get_raan. change (cross3 (N:=RNum) (rpart s) (vpart s)) with (momentum s). unfold raan. destruct (momentum s) as [x y z]. cbn. f_equal. f_equal; ring. }
  assert (Ea : get_semiMajorAxis (N:=RNum) s mu = Ok a) by (rewrite Es; apply ks_get_sma; assumption).
  assert (Ee : get_eccentricity (N:=RNum) s mu = Ok (in_plane inc raan (e * cos om) (e * sin om))) by (rewrite Es; apply (ks_get_ecc mu a e inc raan om ta); assumption).
  exists (elems a e inc raan om' ta').
  destruct (C46_lem mu a e inc raan om' ta' Hmu Ha He) as (r' & v' & K & _ & E1 & E2).
  exists (concat33 r' v').
  split.
  { unfold sv2kep. rewrite Ea, Ee, Ei, Ern, O, T. cbn [bind]. change (norm3 (N:=RNum)) with norm. rewrite ks_norm_ecc by assumption. reflexivity. }
  split; [exact K|]. destruct (parts r' v') as [P1 P2]. unfold energy at 1, momentum at 1. rewrite P1, P2, E1, E2.
  destruct (C46_lem mu a e inc raan om ta Hmu Ha He) as (r & v & K2 & _ & E3 & E4). rewrite kep2sv_closed in K2 by assumption.
  rewrite <- Es in K2. injection K2 as K2. destruct (parts r v) as [P3 P4]. unfold energy, momentum. rewrite K2, P3, P4, E3, E4. split; reflexivity.
Qed.

Lemma state_round_trip mu s : 0 < mu -> bound_orbit mu s -> / 10 ^ 12 <= norm (node_line s) * norm (to_periapsis mu s) ->
  exists kep, sv2kep (N:=RNum) s mu = Ok kep /\ kep2sv (N:=RNum) kep mu = Ok s.
Proof.
  intros Hmu El Hth. destruct (has_elements mu s Hmu El) as (a & e & om & ta & Ha & He & Hom & Hta & Es).
  destruct (st_inc mu s El) as [Hi _]. destruct (st_sini mu s El) as [Hsi _].
  assert (Hra := atan2_range (v3_0 (momentum s)) (- v3_1 (momentum s))).
  set (inc := acos (v3_2 (momentum s) / norm (momentum s))) in *. set (raan := Ratan2 (v3_0 (momentum s)) (- v3_1 (momentum s))) in *. clearbody inc raan.
  assert (Np : norm (to_periapsis mu s) = e).
  { assert (E : get_eccentricity (N:=RNum) s mu = Ok (in_plane inc raan (e * cos om) (e * sin om))) by (rewrite Es; apply (ks_get_ecc mu a e inc raan om ta); assumption).
    rewrite periapsis_get in E by exact Hmu. injection E as ->. apply ks_norm_ecc; assumption. }
  destruct (ks_H mu a e Hmu Ha He) as (P1 & P2 & P3).
  assert (Nn : norm (node_line s) = sqrt (mu * (a * (1 - e * e))) * sin inc).
  { unfold node_line, momentum. rewrite Es. destruct (parts (kep_r a e inc raan om ta) (kep_v mu a e inc raan om ta)) as [-> ->].
    change (cross (vec 0 0 1)) with (cross3 (N:=RNum) (vec 0 0 1)).
    rewrite ks_ndir by assumption. rewrite P3. apply norm_in_plane; [|ring]. rewrite <- P3. apply Rmult_le_pos; lra. }
  rewrite Np, Nn in Hth. assert (0 < / 10 ^ 12) by (apply Rinv_0_lt_compat, pow_lt; lra).
  assert (0 < e). { destruct He as [[?|Z] _]; [assumption|]. rewrite <- Z in Hth. lra. }
  assert (0 < sin inc). { destruct Hsi as [?|Z]; [assumption|]. rewrite <- Z in Hth. lra. }
  assert (0 < inc < PI).
  { destruct Hi as [[?|Z] [?|Z']]; try (split; assumption); exfalso; [rewrite Z', sin_PI in *; lra|rewrite <- Z, sin_0 in *; lra|rewrite <- Z, sin_0 in *; lra]. }
  destruct (C47_lem mu a e inc raan om ta) as (s2 & K1 & K2); try assumption; try lra.
  exists (elems a e inc raan om ta). rewrite kep2sv_closed in K1 |- * by assumption. rewrite <- Es in K1 |- *. injection K1 as <-. split; [exact K2|reflexivity].
Qed.

Lemma kep_angle mu a e i raan om om' ta : same_angle om om' -> kep_r a e i raan om ta = kep_r a e i raan om' ta /\ kep_v mu a e i raan om ta = kep_v mu a e i raan om' ta.
Proof. intros H. apply same_angle_iff in H as [C S]. unfold kep_r, kep_v. rewrite !cos_plus, !sin_plus, C, S. split; reflexivity. Qed.

(** Equatorial orbits flown counter-clockwise. *)
Lemma flat_round_trip mu s : 0 < mu -> bound_orbit mu s -> v3_0 (momentum s) = 0 -> v3_1 (momentum s) = 0 -> 0 < v3_2 (momentum s) -> norm (to_periapsis mu s) <> 0 ->
  exists kep, sv2kep (N:=RNum) s mu = Ok kep /\ kep2sv (N:=RNum) kep mu = Ok s.
Proof.
  intros Hmu El H0 H1 H2 Hpe. destruct (has_elements mu s Hmu El) as (a & e & om & ta & Ha & He & Hom & Hta & Es).
  assert (Hn : norm (momentum s) = v3_2 (momentum s)).
  { destruct (momentum s) as [x y z]. cbn in *. subst. unfold norm, dot. apply sqrt_pos_of; [lra|ring]. }
  assert (Ei : acos (v3_2 (momentum s) / norm (momentum s)) = 0).
  { rewrite Hn. replace (_ / _) with 1 by (field; lra). apply acos_1. }
  assert (Er : Ratan2 (v3_0 (momentum s)) (- v3_1 (momentum s)) = 0).
  { rewrite H0, H1, Ropp_0. apply Ratan2_00. }
  rewrite Ei, Er in Es.
  assert (E : get_eccentricity (N:=RNum) s mu = Ok (in_plane 0 0 (e * cos om) (e * sin om))) by (rewrite Es; apply (ks_get_ecc mu a e 0 0 om ta); assumption).
  assert (Ep := E). rewrite periapsis_get in Ep by exact Hmu. injection Ep as Ep. rewrite Ep, ks_norm_ecc in Hpe by assumption.
  assert (0 < e) by lra.
  set (om' := Ratan2 (e * sin om) (e * cos om)). assert (Sa : same_angle om' om) by (apply atan2_angle; assumption).
  assert (Eo : get_omega (N:=RNum) s mu = Ok om').
  { unfold get_omega. unfold get_eccentricity in E. change (nofZ (Num:=RNum) 1) with 1 in *. rewrite jdivR in E |- * by lra. cbn [bind] in E |- *. apply OkE in E. rewrite E.
    change (cross3 (N:=RNum) (rpart s) (vpart s)) with (momentum s).
    replace (norm3 (N:=RNum) (cross3 (N:=RNum) (mk3 (nofZ (Num:=RNum) 0) (nofZ (Num:=RNum) 0) 1) (momentum s))) with 0.
    2:{ destruct (momentum s) as [x y z]. cbn in *. subst. symmetry. change (sqrt ((0 * z - 1 * 0) * (0 * z - 1 * 0) + (1 * 0 - 0 * z) * (1 * 0 - 0 * z) + (0 * 0 - 0 * 0) * (0 * 0 - 0 * 0)) = 0). apply sqrt_pos_of; [lra|ring]. }
    change (nmul (Num:=RNum) 0) with (Rmult 0). rewrite Rmult_0_l. change (nabs (Num:=RNum) 0) with (Rabs 0). rewrite Rabs_R0.
    replace (nleb (Num:=RNum) (dec (N:=RNum) 1 12) 0) with false.
    2:{ symmetry. change (Rleb (1 / 1000000000000) 0 = false). destruct (Rleb_spec (1 / 1000000000000) 0); [lra|reflexivity]. }
    f_equal. unfold om'. cbn. rewrite cos_0, sin_0. f_equal; ring. }
  assert (Ea : get_semiMajorAxis (N:=RNum) s mu = Ok a) by (rewrite Es; apply ks_get_sma; assumption).
  assert (Et : get_trueanom (N:=RNum) s mu = Ok ta) by (rewrite Es; apply ks_get_ta; assumption).
  assert (Einc : get_inclination (N:=RNum) s = Ok 0) by (rewrite Es; apply ks_get_inc; try assumption; pose proof PI_RGT_0; lra).
  assert (Ern : get_raan (N:=RNum) s = Ok 0).
  { unfold get_raan. change (cross3 (N:=RNum) (rpart s) (vpart s)) with (momentum s). destruct (momentum s) as [x y z]. cbn in *. subst. f_equal.
    replace (0 * z - 1 * 0) with 0 by ring. replace (1 * 0 - 0 * z) with 0 by ring. apply Ratan2_00. }
  exists (elems a e 0 0 om' ta). split.
  - unfold sv2kep. rewrite Ea, E, Einc, Ern, Eo, Et. cbn [bind]. change (norm3 (N:=RNum)) with norm. rewrite ks_norm_ecc by assumption. reflexivity.
  - rewrite kep2sv_closed by assumption. destruct (kep_angle mu a e 0 0 om' om ta Sa) as [-> ->]. rewrite <- Es. reflexivity.
Qed.

(** Below the threshold: the argument of periapsis is the longitude of the periapsis direction. *)
Lemma low_omega mu s : 0 < mu -> norm (node_line s) * norm (to_periapsis mu s) < / 10 ^ 12 ->
  get_omega (N:=RNum) s mu = Ok (Ratan2 (v3_1 (to_periapsis mu s)) (v3_0 (to_periapsis mu s))).
Proof.
  intros Hmu Hth. assert (E := periapsis_get mu s Hmu). unfold get_omega. unfold get_eccentricity in E. change (nofZ (Num:=RNum) 1) with 1 in *.
  rewrite jdivR in E |- * by lra. cbn [bind] in E |- *. apply OkE in E. rewrite E.
  change (cross3 (N:=RNum) (rpart s) (vpart s)) with (momentum s).
  change (cross3 (N:=RNum) (mk3 (nofZ (Num:=RNum) 0) (nofZ (Num:=RNum) 0) 1) (momentum s)) with (node_line s).
  change (norm3 (N:=RNum)) with norm. change (nmul (Num:=RNum)) with Rmult. change (nabs (Num:=RNum)) with Rabs.
  rewrite Rabs_pos_eq by (apply Rmult_le_pos; apply norm_sq).
  replace (nleb (Num:=RNum) (dec (N:=RNum) 1 12) (norm (node_line s) * norm (to_periapsis mu s))) with false; [reflexivity|].
  symmetry. change (Rleb (1 / 1000000000000) (norm (node_line s) * norm (to_periapsis mu s)) = false).
  destruct (Rleb_spec (1 / 1000000000000) (norm (node_line s) * norm (to_periapsis mu s))) as [L|]; [|reflexivity].
  replace (1 / 1000000000000) with (/ 10 ^ 12) in L by (simpl; field). lra.
Qed.
Lemma sv2kep_parts mu s om' ta' : 0 < mu -> bound_orbit mu s -> get_omega (N:=RNum) s mu = Ok om' -> get_trueanom (N:=RNum) s mu = Ok ta' ->
  exists a e, 0 < a /\ 0 <= e < 1 /\
   sv2kep (N:=RNum) s mu = Ok (elems a e (acos (v3_2 (momentum s) / norm (momentum s))) (Ratan2 (v3_0 (momentum s)) (- v3_1 (momentum s))) om' ta').
Proof.
  intros Hmu El O T. destruct (has_elements mu s Hmu El) as (a & e & om & ta & Ha & He & Hom & Hta & Es).
  set (inc := acos (v3_2 (momentum s) / norm (momentum s))) in *. set (raan := Ratan2 (v3_0 (momentum s)) (- v3_1 (momentum s))) in *.
  assert (Ei : get_inclination (N:=RNum) s = Ok inc).
  { unfold get_inclination. change (cross3 (N:=RNum)) with cross. fold (momentum s). change (norm3 (N:=RNum)) with norm. rewrite jdivR by apply El. reflexivity. }
  assert (Ern : get_raan (N:=RNum) s = Ok raan).
  { unfold get_raan. change (cross3 (N:=RNum) (rpart s) (vpart s)) with (momentum s). unfold raan. destruct (momentum s) as [x y z]. cbn. f_equal. f_equal; ring. }
  clearbody inc raan. exists a, e. split; [exact Ha|]. split; [exact He|].
  assert (Ea : get_semiMajorAxis (N:=RNum) s mu = Ok a) by (rewrite Es; apply ks_get_sma; assumption).
  assert (Ee : get_eccentricity (N:=RNum) s mu = Ok (in_plane inc raan (e * cos om) (e * sin om))) by (rewrite Es; apply (ks_get_ecc mu a e inc raan om ta); assumption).
  unfold sv2kep. rewrite Ea, Ee, Ei, Ern, O, T. cbn [bind]. change (norm3 (N:=RNum)) with norm. rewrite ks_norm_ecc by assumption. reflexivity.
Qed.

(** States at periapsis of an orbit with radius 1/2 and eccentricity 1/2 (mu = 3 k^2, speed 3 k), and a circular one. *)
Lemma apsis_ta mu s : norm (rpart (N:=RNum) s) <> 0 -> dot (vpart s) (rpart s) = 0 -> 0 <= norm (momentum s) * norm (momentum s) / norm (rpart s) - mu -> get_trueanom (N:=RNum) s mu = Ok 0.
Proof.
  intros Hr Hd Hc. unfold get_trueanom. change (norm3 (N:=RNum)) with norm. change (dot3 (N:=RNum)) with dot. rewrite jdivR by exact Hr. cbn [bind]. rewrite jdivR by exact Hr. cbn [bind].
  change (cross3 (N:=RNum) (rpart s) (vpart s)) with (momentum s). f_equal. rewrite Hd. unfold sq.
  change (nmul (Num:=RNum)) with Rmult. change (nsub (Num:=RNum)) with Rminus. change (natan2 (Num:=RNum)) with Ratan2.
  set (X := norm (momentum s) * norm (momentum s) / norm (rpart s) - mu) in *. replace (norm (momentum s) * (0 / norm (rpart s))) with 0 by (unfold Rdiv; ring).
  destruct Hc as [Hc|Hc].
  - pose proof PI_RGT_0. assert (E := atan2_angle_eq X 0 Hc ltac:(lra)). rewrite sin_0, cos_0, Rmult_0_r, Rmult_1_r in E. exact E.
  - rewrite <- Hc. apply Ratan2_00.
Qed.
Lemma kepY_r (a e i raan om ta mu : R) s : 0 < mu -> 0 < a -> 0 <= e < 1 -> kep2sv (N:=RNum) (elems a e i raan om ta) mu = Ok s ->
  exists rho, 0 < rho /\ rpart s = in_plane i raan (rho * cos (om + ta)) (rho * sin (om + ta)).
Proof.
  intros Hmu Ha He K. rewrite kep2sv_closed in K by assumption. apply OkE in K. subst s. destruct (parts (kep_r a e i raan om ta) (kep_v mu a e i raan om ta)) as [-> _].
  exists (a * (1 - e * e) / (1 + e * cos ta)). split; [|reflexivity]. apply Rdiv_lt_0_compat; [apply Rmult_lt_0_compat; [exact Ha|apply ee_pos, He]|apply ecos_pos, He].
Qed.
Definition loses (mu : R) (s : vec6 RNum) : Prop := exists kep s', sv2kep (N:=RNum) s mu = Ok kep /\ kep2sv (N:=RNum) kep mu = Ok s' /\ s' <> s.
Ltac nrm := unfold norm, dot, cross, vec, rpart, vpart; cbn; apply sqrt_pos_of; [lra|first [ring|field|lra]].

Lemma circular_loses : bound_orbit 1 (elems 0 1 0 (-1) 0 0) /\ to_periapsis 1 (elems 0 1 0 (-1) 0 0) = vec 0 0 0 /\ loses 1 (elems 0 1 0 (-1) 0 0).
Proof.
  set (s := elems 0 1 0 (-1) 0 0). assert (Nr : norm (rpart s) = 1) by nrm. assert (M : momentum s = vec 0 0 1) by (unfold momentum, s; cbn; unfold vec; f_equal; ring).
  assert (Nm : norm (momentum s) = 1) by (rewrite M; nrm).
  assert (El : bound_orbit 1 s). { split; [|rewrite Nm; lra]. unfold energy. rewrite Nr. unfold s. cbn. lra. }
  assert (P : to_periapsis 1 s = vec 0 0 0). { unfold to_periapsis. rewrite M, Nr. unfold s. cbn. unfold vec. f_equal; field. }
  split; [exact El|]. split; [exact P|].
  assert (O := low_omega 1 s ltac:(lra)). rewrite P in O. replace (norm (vec 0 0 0)) with 0 in O by (symmetry; nrm). rewrite Rmult_0_r in O.
  specialize (O ltac:(apply Rinv_0_lt_compat, pow_lt; lra)). cbn [vec v3_0 v3_1] in O. rewrite Ratan2_00 in O.
  assert (T : get_trueanom (N:=RNum) s 1 = Ok 0). { apply apsis_ta; [rewrite Nr; lra|unfold s; cbn; ring|rewrite Nr, Nm; lra]. }
  destruct (sv2kep_parts 1 s 0 0 ltac:(lra) El O T) as (a & e & Ha & He & K). eexists _, _. split; [exact K|].
  split; [apply kep2sv_closed; (assumption || lra)|]. intros E.
  assert (K2 := kep2sv_closed a e (acos (v3_2 (momentum s) / norm (momentum s))) (Ratan2 (v3_0 (momentum s)) (- v3_1 (momentum s))) 0 0 1 ltac:(lra) Ha He).
  rewrite E in K2. apply kepY_r in K2; try assumption; try lra. destruct K2 as (rho & Hrho & K2). rewrite M in K2. cbn [vec v3_0 v3_1 v3_2] in K2.
  rewrite Ropp_0, Ratan2_00, Rplus_0_l, sin_0, cos_0 in K2. unfold s, in_plane in K2. cbn in K2. injection K2 as _ K2 _. rewrite sin_0 in K2. lra.
Qed.
Lemma retrograde_loses : bound_orbit 3 (elems 0 (1/2) 0 3 0 0) /\ momentum (elems 0 (1/2) 0 3 0 0) = vec 0 0 (-3/2) /\ to_periapsis 3 (elems 0 (1/2) 0 3 0 0) = vec 0 (1/2) 0 /\ loses 3 (elems 0 (1/2) 0 3 0 0).
Proof.
  set (s := elems 0 (1/2) 0 3 0 0). assert (Nr : norm (rpart s) = 1/2) by nrm. assert (M : momentum s = vec 0 0 (-3/2)) by (unfold momentum, s; cbn; unfold vec; f_equal; field).
  assert (Nm : norm (momentum s) = 3/2) by (rewrite M; nrm).
  assert (El : bound_orbit 3 s). { split; [|rewrite Nm; lra]. unfold energy. rewrite Nr. unfold s. cbn. lra. }
  assert (P : to_periapsis 3 s = vec 0 (1/2) 0). { unfold to_periapsis. rewrite M, Nr. unfold s. cbn. unfold vec. f_equal; field. }
  split; [exact El|]. split; [exact M|]. split; [exact P|].
  assert (O := low_omega 3 s ltac:(lra)). unfold node_line in O. rewrite P, M in O. replace (norm (cross (vec 0 0 1) (vec 0 0 (-3/2)))) with 0 in O by (symmetry; nrm). rewrite Rmult_0_l in O.
  specialize (O ltac:(apply Rinv_0_lt_compat, pow_lt; lra)). cbn [vec v3_0 v3_1] in O.
  assert (T : get_trueanom (N:=RNum) s 3 = Ok 0). { apply apsis_ta; [rewrite Nr; lra|unfold s; cbn; ring|rewrite Nr, Nm; lra]. }
  destruct (sv2kep_parts 3 s _ 0 ltac:(lra) El O T) as (a & e & Ha & He & K). eexists _, _. split; [exact K|].
  split; [apply kep2sv_closed; (assumption || lra)|]. intros E.
  match type of K with _ = Ok (elems a e ?i ?r ?o 0) => assert (K2 := kep2sv_closed a e i r o 0 3 ltac:(lra) Ha He) end.
  rewrite E in K2. apply kepY_r in K2; try assumption; try lra. destruct K2 as (rho & Hrho & K2). rewrite M in K2. cbn [vec v3_0 v3_1 v3_2] in K2.
  rewrite M in Nm. rewrite Nm in K2.
  rewrite Ropp_0, Ratan2_00, Rplus_0_r in K2. replace (-3 / 2 / (3 / 2)) with (-1) in K2 by field. rewrite acos_opp1 in K2 || (replace (acos (-1)) with PI in K2 by (symmetry; apply acos_unique; [pose proof PI_RGT_0; lra|apply cos_PI])).
  assert (Eo : Ratan2 (1 / 2) 0 = PI / 2).
  { assert (Z := atan2_angle_eq (1/2) (PI/2) ltac:(lra) ltac:(pose proof PI_RGT_0; lra)). rewrite sin_PI2, cos_PI2, Rmult_0_r, Rmult_1_r in Z. exact Z. }
  rewrite Eo, sin_PI2, cos_PI2 in K2. unfold s, in_plane in K2. cbn in K2. injection K2 as _ K2 _. rewrite sin_0, cos_0, cos_PI in K2. lra.
Qed.
(** The threshold is a number, not a number of units: the polar ellipse below is lost when mu is 3e-26. *)
Lemma small_units_lose : let k := / 10 ^ 13 in let mu := 3 * (k * k) in let s := elems 0 0 (1/2) (- (3 * k)) 0 0 in
  bound_orbit mu s /\ to_periapsis mu s = vec 0 0 (1/2) /\ norm (node_line s) = 3 / 2 * k /\ loses mu s.
Proof.
  intros k mu s. assert (Hk : 0 < k) by (apply Rinv_0_lt_compat, pow_lt; lra).
  assert (Hk2 : 0 < k * k) by nra. assert (Hmu : 0 < mu) by (unfold mu; lra).
  assert (Nr : norm (rpart s) = 1/2) by nrm. assert (M : momentum s = vec 0 (- (3 / 2 * k)) 0) by (unfold momentum, s; cbn; unfold vec; f_equal; field).
  assert (Nm : norm (momentum s) = 3/2 * k) by (rewrite M; nrm).
  assert (El : bound_orbit mu s). { split; [|rewrite Nm; lra]. unfold energy. rewrite Nr. unfold s, mu. cbn. lra. }
  assert (P : to_periapsis mu s = vec 0 0 (1/2)). { unfold to_periapsis. rewrite M, Nr. unfold s, mu. cbn. unfold vec. f_equal; field; lra. }
  assert (Nn : norm (node_line s) = 3 / 2 * k) by (unfold node_line; rewrite M; nrm).
  split; [exact El|]. split; [exact P|]. split; [exact Nn|].
  assert (O := low_omega mu s Hmu). rewrite P, Nn in O. replace (norm (vec 0 0 (1/2))) with (1/2) in O by (symmetry; nrm).
  assert (Hth : 3 / 2 * k * (1 / 2) < / 10 ^ 12).
  { assert (E13 : / 10 ^ 12 = 10 * k) by (unfold k; simpl; field). rewrite E13. lra. }
  specialize (O Hth). cbn [vec v3_0 v3_1] in O. rewrite Ratan2_00 in O.
  assert (T : get_trueanom (N:=RNum) s mu = Ok 0). { apply apsis_ta; [rewrite Nr; lra|unfold s; cbn; ring|rewrite Nr, Nm; unfold mu; nra]. }
  destruct (sv2kep_parts mu s _ 0 Hmu El O T) as (a & e & Ha & He & K). eexists _, _. split; [exact K|].
  split; [apply kep2sv_closed; assumption|]. intros E.
  match type of K with _ = Ok (elems a e ?i ?r ?o 0) => assert (K2 := kep2sv_closed a e i r o 0 mu Hmu Ha He) end.
  rewrite E in K2. apply kepY_r in K2; try assumption. destruct K2 as (rho & Hrho & K2).
  rewrite Rplus_0_r, sin_0, cos_0 in K2. unfold s in K2 at 1. unfold in_plane in K2. cbn in K2. injection K2 as _ _ K2. lra.
Qed.

Lemma every_state (mu : R) s : 0 < mu -> bound_orbit mu s ->
  exists a e i raan om ta, 0 < a /\ 0 <= e < 1 /\ 0 <= i <= PI /\ - PI < raan <= PI /\ 0 <= om < 2 * PI /\ - PI < ta <= PI /\
    kep2sv (N:=RNum) (elems a e i raan om ta) mu = Ok s.
Proof.
  intros Hmu El. destruct (has_elements mu s Hmu El) as (a & e & om & ta & Ha & He & Hom & Hta & Es).
  do 2 eexists. exists (acos (v3_2 (momentum s) / norm (momentum s))), (Ratan2 (v3_0 (momentum s)) (- v3_1 (momentum s))). do 2 eexists.
  split; [exact Ha|]. split; [exact He|]. split; [apply acos_bound|]. split; [apply atan2_range|]. split; [exact Hom|]. split; [exact Hta|].
  rewrite kep2sv_closed by assumption. rewrite <- Es. reflexivity.
Qed.
Lemma polar_case : let s := elems (1/2) 0 0 0 0 3 in bound_orbit 3 s /\ norm (node_line s) = 3/2 /\ norm (to_periapsis 3 s) = 1/2.
Proof.
  intros s. assert (Nr : norm (rpart s) = 1/2) by nrm. assert (M : momentum s = vec 0 (- (3/2)) 0) by (unfold momentum, s; cbn; unfold vec; f_equal; field).
  assert (Nm : norm (momentum s) = 3/2) by (rewrite M; nrm).
  split. { split; [|rewrite Nm; lra]. unfold energy. rewrite Nr. unfold s. cbn. lra. }
  split; [unfold node_line; rewrite M; nrm|].
  replace (to_periapsis 3 s) with (vec (1/2) 0 0); [nrm|]. unfold to_periapsis. rewrite M, Nr. unfold s. cbn. unfold vec. f_equal; field.
Qed.
Lemma flat_case : let s := elems (1/2) 0 0 0 3 0 in bound_orbit 3 s /\ momentum s = vec 0 0 (3/2) /\ norm (to_periapsis 3 s) = 1/2.
Proof.
  intros s. assert (Nr : norm (rpart s) = 1/2) by nrm. assert (M : momentum s = vec 0 0 (3/2)) by (unfold momentum, s; cbn; unfold vec; f_equal; field).
  assert (Nm : norm (momentum s) = 3/2) by (rewrite M; nrm).
  split. { split; [|rewrite Nm; lra]. unfold energy. rewrite Nr. unfold s. cbn. lra. }
  split; [exact M|]. replace (to_periapsis 3 s) with (vec (1/2) 0 0); [nrm|]. unfold to_periapsis. rewrite M, Nr. unfold s. cbn. unfold vec. f_equal; field.
Qed.
Lemma circular_witness : exists (mu : R) s, 0 < mu /\ bound_orbit mu s /\ to_periapsis mu s = vec 0 0 0 /\
  exists kep s', sv2kep (N:=RNum) s mu = Ok kep /\ kep2sv (N:=RNum) kep mu = Ok s' /\ s' <> s.
Proof. eexists _, _. split; [|exact circular_loses]. lra. Qed.
Lemma retrograde_witness : exists (mu : R) s, 0 < mu /\ bound_orbit mu s /\ v3_0 (momentum s) = 0 /\ v3_1 (momentum s) = 0 /\
  v3_2 (momentum s) < 0 /\ norm (to_periapsis mu s) = 1 / 2 /\
  exists kep s', sv2kep (N:=RNum) s mu = Ok kep /\ kep2sv (N:=RNum) kep mu = Ok s' /\ s' <> s.
Proof.
  destruct retrograde_loses as (A & B & C & D). eexists 3, _. split; [lra|]. split; [exact A|]. rewrite B, C.
  split; [reflexivity|]. split; [reflexivity|]. split; [cbn; lra|]. split; [nrm|exact D].
Qed.
Lemma units_witness : exists (mu : R) s, 0 < mu /\ bound_orbit mu s /\ norm (node_line s) = norm (momentum s) /\
  norm (to_periapsis mu s) = 1 / 2 /\
  exists kep s', sv2kep (N:=RNum) s mu = Ok kep /\ kep2sv (N:=RNum) kep mu = Ok s' /\ s' <> s.
Proof.
  destruct small_units_lose as (A & B & C & D). eexists _, _.
  assert (Hk : 0 < / 10 ^ 13) by (apply Rinv_0_lt_compat, pow_lt; lra).
  split; [|split; [exact A|]]; [apply Rmult_lt_0_compat; [lra|]; apply Rmult_lt_0_compat; exact Hk|].
  rewrite C, B. split; [|split; [nrm|exact D]].
  symmetry. set (k := / 10 ^ 13) in *. unfold momentum. unfold norm, dot, cross, rpart, vpart. cbn. apply sqrt_pos_of; [lra|field].
Qed.
